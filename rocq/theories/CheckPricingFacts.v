(** Deciding the layout of break points for concrete tables. *)

From Coq Require Import QArith Qabs Lqa String List Bool Arith Lia ZArith Permutation Sorted.
Import ListNotations.
From Verif Require Import PandasModel TablesModel MarketModel SolverModel PricingModel SpecLp SpecHistory SpecNetwork
  SpecPricing PandasFacts LossFacts CompositeFacts.
Open Scope string_scope.
Open Scope list_scope.

Definition Qltb (a b : Q) : bool := negb (Qle_bool b a).
Lemma Qltb_iff a b : Qltb a b = true <-> a < b.
Proof.
  unfold Qltb. rewrite negb_true_iff. split; intros H.
  - apply Qnot_le_lt. intros L. apply Qle_bool_iff in L. congruence.
  - destruct (Qle_bool b a) eqn:E; auto. apply Qle_bool_iff in E. exfalso. apply (Qlt_not_le _ _ H E).
Qed.

Definition adjacentb (d : inter_row) (bps : list bp_row) (a b : bp_row) : bool :=
  at_link d a && at_link d b && Z.ltb (bp_seg a) (bp_seg b)
  && forallb (fun e => negb (at_link d e) || negb (Z.ltb (bp_seg a) (bp_seg e) && Z.ltb (bp_seg e) (bp_seg b))) bps.
Lemma adjacentb_of d bps a b : adjacent d bps a b -> adjacentb d bps a b = true.
Proof.
  intros [_ [_ [A [B [L N]]]]]. unfold adjacentb. rewrite A, B. apply andb_true_iff. split; [apply Z.ltb_lt in L; now rewrite L|].
  apply forallb_forall. intros e He. destruct (at_link d e) eqn:E; [|reflexivity]. cbn.
  destruct (Z.ltb (bp_seg a) (bp_seg e)) eqn:E1, (Z.ltb (bp_seg e) (bp_seg b)) eqn:E2; try reflexivity.
  exfalso. apply (N e He E). apply Z.ltb_lt in E1, E2. lia.
Qed.

Definition risingb (d : inter_row) (bps : list bp_row) : bool :=
  forallb (fun a => forallb (fun b => negb (at_link d a && at_link d b && Z.ltb (bp_seg a) (bp_seg b)) || Qltb (bp_point a) (bp_point b)) bps) bps.
Lemma risingb_ok d bps : risingb d bps = true -> rising d bps.
Proof.
  unfold risingb. intros H a b Ha Hb La Lb L. rewrite forallb_forall in H. specialize (H a Ha). rewrite forallb_forall in H. specialize (H b Hb).
  apply Z.ltb_lt in L. rewrite La, Lb, L in H. now apply Qltb_iff.
Qed.

Definition balancedb (d : inter_row) (bps : list bp_row) : bool :=
  forallb (fun a => forallb (fun b => negb (adjacentb d bps a b) ||
    forallb (fun e => forallb (fun e' => negb (at_link d e && at_link d e') ||
      ((negb (Qltb (bp_point b) (bp_point e) && Qltb (bp_point e) (bp_point e'))
        || Qle_bool (bp_point b - bp_point a) (bp_point e' - bp_point b))
       && (negb (Qltb (bp_point e') (bp_point e) && Qltb (bp_point e) (bp_point a))
        || Qle_bool (bp_point b - bp_point a) (bp_point a - bp_point e')))) bps) bps) bps) bps.
Lemma balancedb_ok d bps : balancedb d bps = true -> balanced d bps.
Proof.
  unfold balancedb. intros H a b e e' A He He' Le Le'. pose proof A as [Ha [Hb _]]. apply adjacentb_of in A.
  rewrite forallb_forall in H. specialize (H a Ha). rewrite forallb_forall in H. specialize (H b Hb). rewrite A in H. cbn in H.
  rewrite forallb_forall in H. specialize (H e He). rewrite forallb_forall in H. specialize (H e' He'). rewrite Le, Le' in H. cbn [andb negb orb] in H.
  apply andb_true_iff in H. destruct H as [H1 H2]. split; intros X Y.
  - apply Qltb_iff in X, Y. rewrite X, Y in H1. now apply Qle_bool_iff.
  - apply Qltb_iff in X, Y. rewrite X, Y in H2. now apply Qle_bool_iff.
Qed.

(** A sorting function. *)
Definition by_distance : list (Q * nat) -> list (Q * nat) := sort_rows (fun a b => Qle_bool (fst a) (fst b)).
Lemma by_distance_sorts : sorts by_distance.
Proof.
  intros l. split; [apply sort_rows_perm|].
  assert (H : StronglySorted (fun a b : Q * nat => Qle_bool (fst a) (fst b) = true) (by_distance l)).
  { apply sort_rows_sorted.
    - intros a b E. apply Qle_bool_iff. apply Qle_bool_false in E. lra.
    - intros a b c E F. apply Qle_bool_iff in E, F. apply Qle_bool_iff. lra. }
  induction H as [|a t S IH F]; [constructor|]. constructor; [exact IH|]. eapply Forall_impl; [|exact F].
  intros b Hb. now apply Qle_bool_iff.
Qed.

(** Proof that a concrete point is not feasible: bounds or a constraint fail. *)
From Verif Require Import CheckFacts.
Definition linearb (p : problem) (x : assignment) : bool :=
  forallb (in_boundsb x) (p_vars p)
  && forallb (fun c => relationb (pc_type c) (linear (pc_terms c) x) (rhs_value (pc_rhs c) x)) (p_cons p).
Lemma infeasible p x : linearb p x = false -> ~ feasible p x.
Proof.
  intros H [F1 [F2 _]]. enough (linearb p x = true) by congruence. unfold linearb. apply andb_true_iff. split.
  - apply forallb_forall. intros v Hv. unfold in_boundsb. specialize (F1 v Hv). destruct F1 as [A B].
    apply andb_true_iff. split; [now apply Qle_bool_iff|]. destruct (pv_ub v); [now apply Qle_bool_iff|reflexivity].
  - apply forallb_forall. intros c Hc. specialize (F2 c Hc). unfold con_holds, relation in F2. unfold relationb.
    rewrite !orb_true_iff, !andb_true_iff, !String.eqb_eq, !Qle_bool_iff, Qeq_bool_iff. tauto.
Qed.
Lemma with_problem (m : market) (p : problem) (f : problem -> bool) b :
  assemble m = Ok p -> match assemble m with Ok q => f q | Err _ => negb b end = b -> f p = b.
Proof. intros ->. auto. Qed.
