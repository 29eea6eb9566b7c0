(** Lemmas on the composite ramp rates of bidirectional units (C09). *)

From Coq Require Import QArith Qabs Qminmax Qfield Lqa String List Bool.
Import ListNotations.
From Verif Require Import PandasModel TablesModel RampModel SpecRamp.

Lemma Qle_bool_false a b : Qle_bool a b = false <-> b < a.
Proof.
  split; intros H.
  - apply Qnot_le_lt. intros Hc. apply Qle_bool_iff in Hc. congruence.
  - destruct (Qle_bool a b) eqn:E; [|reflexivity]. apply Qle_bool_iff in E. exfalso. lra.
Qed.

Lemma rises_to_Proper h h' i i' l l' g g' q q' :
  h == h' -> i == i' -> l == l' -> g == g' -> q == q' ->
  rises_to h i l g q -> rises_to h' i' l' g' q'.
Proof.
  intros E1 E2 E3 E4 E5 [t [z H]]. exists t, z.
  rewrite <- E1, <- E2, <- E3, <- E4, <- E5. exact H.
Qed.

Lemma composite_up_reaches h init low high : 0 < h -> 0 <= low ->
  rises_to h init low high (init + composite_up h init high low * h).
Proof.
  intros Hh Hl. unfold composite_up.
  destruct (Qle_bool 0 init) eqn:E0.
  { apply Qle_bool_iff in E0. exists 0, init. split; [lra|]. split; [lra|]. split; [ring|]. split; [ring|]. split; intros; lra. }
  apply Qle_bool_false in E0. destruct (Qeq_bool low 0) eqn:E1.
  { apply Qeq_bool_iff in E1. exists h, init. split; [lra|]. split; [lra|]. rewrite E1. split; [ring|].
    split; [ring|]. split; intros; lra. }
  apply Qeq_bool_neq in E1. assert (L : 0 < low) by (apply Qnot_le_lt; intros C; apply E1; lra).
  assert (A : Qabs (init / low) == - init / low).
  { rewrite Qabs_neg; [field; lra|]. unfold Qdiv.
    setoid_replace (init * / low) with (- ((- init) * / low)) by ring.
    assert (0 <= (- init) * / low); [|lra]. apply Qmult_le_0_compat; [lra|]. apply Qlt_le_weak, Qinv_lt_0_compat; auto. }
  assert (M : low * (- init / low) == - init) by (field; lra).
  destruct (Qle_bool h (Qabs (init / low))) eqn:E2.
  - apply Qle_bool_iff in E2. rewrite A in E2.
    assert (low * h <= low * (- init / low)) by (rewrite !(Qmult_comm low); apply Qmult_le_compat_r; lra).
    exists h, (init + low * h). split; [lra|]. split; [lra|]. split; [ring|].
    split; [ring|]. split; intros; lra.
  - apply Qle_bool_false in E2. rewrite A in E2.
    exists (- init / low), 0. split.
    { unfold Qdiv. apply Qmult_le_0_compat; [lra|]. apply Qlt_le_weak, Qinv_lt_0_compat; auto. }
    split; [lra|]. split; [lra|]. split; [|split; intros; lra].
    rewrite A. field. lra.
Qed.

Lemma rises_to_unique h init low high q q' : 0 <= low -> 0 <= high ->
  rises_to h init low high q -> rises_to h init low high q' -> q == q'.
Proof.
  intros Hl Hg.
  assert (K : forall q q', rises_to h init low high q -> rises_to h init low high q' -> q <= q').
  { clear q q'. intros q q' [t [z [A1 [A2 [A3 [A4 [A5 A6]]]]]]] [t' [z' [B1 [B2 [B3 [B4 [B5 B6]]]]]]].
    destruct (Q_dec t t') as [[C|C]|C].
    - (* t < t' *)
      destruct (B5 ltac:(lra)) as [I Z']. specialize (A6 ltac:(lra)).
      assert (low * t <= low * t') by (rewrite !(Qmult_comm low); apply Qmult_le_compat_r; lra).
      assert (low * t == low * t') by lra.
      assert (low == 0).
      { assert (low * (t' - t) == 0) by lra. apply Qmult_integral in H1. destruct H1; [auto|lra]. }
      rewrite H1 in *. lra.
    - destruct (A5 ltac:(lra)) as [I Z]. specialize (B6 ltac:(lra)).
      assert (low * t' <= low * t) by (rewrite !(Qmult_comm low); apply Qmult_le_compat_r; lra).
      assert (high * (h - t) <= high * (h - t')) by (rewrite !(Qmult_comm high); apply Qmult_le_compat_r; lra).
      lra.
    - rewrite A4, B4, A3, B3, C. lra. }
  intros H H'. apply Qle_antisym; auto.
Qed.

Lemma composite_down_mirror h init low high :
  composite_down h init low high == composite_up h (- init) low high.
Proof.
  unfold composite_down, composite_up.
  assert (E : Qle_bool init 0 = Qle_bool 0 (- init)).
  { apply eq_iff_eq_true. rewrite !Qle_bool_iff. split; intros; lra. }
  rewrite E. destruct (Qle_bool 0 (- init)); [reflexivity|]. destruct (Qeq_bool high 0) eqn:E1; [reflexivity|].
  apply Qeq_bool_neq in E1.
  assert (A : Qabs (- init / high) == Qabs (init / high)).
  { setoid_replace (- init / high) with (- (init / high)) by (field; auto). apply Qabs_opp. }
  assert (E2 : Qle_bool h (Qabs (init / high)) = Qle_bool h (Qabs (- init / high))).
  { apply eq_iff_eq_true. rewrite !Qle_bool_iff, A. reflexivity. }
  rewrite E2. destruct (Qle_bool h (Qabs (- init / high))); [reflexivity|].
  rewrite A. apply Qmult_comp; [ring|reflexivity].
Qed.

Lemma composite_down_reaches h init low high : 0 < h -> 0 <= high ->
  falls_to h init low high (init - composite_down h init low high * h).
Proof.
  intros Hh Hg. unfold falls_to.
  apply (rises_to_Proper h h (- init) (- init) high high low low
           (- init + composite_up h (- init) low high * h)); try reflexivity.
  - rewrite composite_down_mirror. ring.
  - now apply composite_up_reaches.
Qed.

(** The limit grows with the initial output, and no faster than a fixed factor. *)
Lemma rises_to_monotone h i i' low high q q' : 0 <= low -> 0 <= high -> i <= i' ->
  rises_to h i low high q -> rises_to h i' low high q' -> q <= q'.
Proof.
  intros Hl Hg Hi [t [z [A1 [A2 [A3 [A4 [A5 A6]]]]]]] [t' [z' [B1 [B2 [B3 [B4 [B5 B6]]]]]]].
  destruct (Q_dec t t') as [[C|C]|C].
  - destruct (B5 ltac:(lra)) as [I Z']. specialize (A6 ltac:(lra)).
    assert (low * t <= low * t') by (rewrite !(Qmult_comm low); apply Qmult_le_compat_r; lra).
    assert (low * t == low * t') by lra.
    assert (low == 0).
    { assert (X : low * (t' - t) == 0) by lra. apply Qmult_integral in X. destruct X; [auto|lra]. }
    rewrite H1 in *. lra.
  - destruct (A5 ltac:(lra)) as [I Z]. specialize (B6 ltac:(lra)).
    assert (high * (h - t) <= high * (h - t')) by (rewrite !(Qmult_comm high); apply Qmult_le_compat_r; lra).
    lra.
  - rewrite A4, B4, A3, B3, C. lra.
Qed.

Lemma rises_to_lipschitz h i i' low high q q' : 0 < low -> 0 <= high -> i <= i' ->
  rises_to h i low high q -> rises_to h i' low high q' ->
  low * (q' - q) <= (low + high) * (i' - i).
Proof.
  intros Hl Hg Hi [t [z [A1 [A2 [A3 [A4 [A5 A6]]]]]]] [t' [z' [B1 [B2 [B3 [B4 [B5 B6]]]]]]].
  assert (D : 0 <= high * (i' - i)) by (apply Qmult_le_0_compat; lra).
  destruct (Q_dec t t') as [[C|C]|C].
  - destruct (B5 ltac:(lra)) as [I Z']. specialize (A6 ltac:(lra)).
    assert (low * t < low * t') by (apply Qmult_lt_l; lra). exfalso. lra.
  - destruct (A5 ltac:(lra)) as [I Z]. specialize (B6 ltac:(lra)).
    (* low (t - t') <= i' - i + (z - z') *)
    assert (T : low * (t - t') == (i' - i) + (z - z')) by lra.
    assert (X : low * (q' - q) == low * (z' - z) + high * ((i' - i) + (z - z'))).
    { rewrite A4, B4, <- T. ring. }
    rewrite X.
    assert (Y : z' - z <= i' - i).
    { assert (0 <= low * (t - t')) by (apply Qmult_le_0_compat; lra). lra. }
    assert (low * (z' - z) <= low * (i' - i)) by (rewrite !(Qmult_comm low); apply Qmult_le_compat_r; lra).
    assert (high * (i' - i + (z - z')) <= high * (i' - i)).
    { rewrite !(Qmult_comm high). apply Qmult_le_compat_r; lra. }
    lra.
  - assert (Q1 : q' - q == i' - i) by (rewrite A4, B4, A3, B3, C; ring). rewrite Q1.
    assert (low * (i' - i) + high * (i' - i) == (low + high) * (i' - i)) by ring. lra.
Qed.
