(** Lemmas about the fast start modes. *)

From Coq Require Import QArith Lqa String List Bool ZArith Lia Permutation.
Import ListNotations.
From Verif Require Import PandasModel TablesModel ReportsModel ModesModel SpecModes PandasFacts.
Open Scope string_scope.
Open Scope list_scope.

Definition moved_if (from to : Z) (len : profile -> Q) (since : bool) (w : working) : working :=
  if leaves_mode from len w then moved to len since w else w.

Lemma move_perm : forall from to len since l,
  Permutation (move from to len since l) (map (moved_if from to len since) l).
Proof.
  intros from to len since l. unfold move. induction l as [|w l IH]; [constructor|].
  cbn [filter map]. unfold moved_if at 1. destruct (leaves_mode from len w); cbn [negb map app].
  - now constructor.
  - rewrite <- Permutation_middle. now constructor.
Qed.

Definition final_row (p : profile * (ukey * Q)) : working :=
  moved_if 3 4 pf_len3 false (moved_if 2 3 pf_len2 true (moved_if 1 2 pf_len1 false (start_row p))).

Lemma update_perm : forall ps rep,
  Permutation (update_modes ps rep) (map (fun p => mode_row_of (final_row p)) (with_dispatch ps rep)).
Proof.
  intros ps rep. unfold update_modes, final_row.
  rewrite <- (map_map (fun p => moved_if 3 4 pf_len3 false (moved_if 2 3 pf_len2 true (moved_if 1 2 pf_len1 false (start_row p)))) mode_row_of).
  apply Permutation_map. rewrite move_perm.
  rewrite <- (map_map (fun p => moved_if 2 3 pf_len2 true (moved_if 1 2 pf_len1 false (start_row p))) (moved_if 3 4 pf_len3 false)).
  apply Permutation_map. rewrite move_perm.
  rewrite <- (map_map (fun p => moved_if 1 2 pf_len1 false (start_row p)) (moved_if 2 3 pf_len2 true)).
  apply Permutation_map. rewrite move_perm. now rewrite map_map.
Qed.

Lemma profile_kept : forall p, wk_profile (final_row p) = fst p.
Proof.
  intros p. unfold final_row, moved_if.
  repeat match goal with |- context [if ?b then _ else _] => destruct b end; reflexivity.
Qed.

Lemma qle_false : forall a b, Qle_bool a b = false -> b < a.
Proof. intros a b H. apply Qnot_le_lt. intros C. apply Qle_bool_iff in C. congruence. Qed.

Lemma in_with_dispatch : forall ps rep p, In p (with_dispatch ps rep) <->
  In (fst p) ps /\ In (snd p) rep /\ pf_unit (fst p) = fst (fst (fst (snd p))) /\ snd (fst (snd p)) = "energy".
Proof.
  intros ps rep [f r]. unfold with_dispatch. rewrite in_merge, filter_In. cbn [fst snd].
  rewrite !String.eqb_eq. intuition.
Qed.

Lemma row_origin : forall ps rep r, In r (update_modes ps rep) ->
  exists p, In p (with_dispatch ps rep) /\ r = mode_row_of (final_row p).
Proof.
  intros ps rep r H. apply (Permutation_in _ (update_perm ps rep)) in H. apply in_map_iff in H.
  destruct H as [p [E Hp]]. exists p. auto.
Qed.

Lemma row_made : forall ps rep p, In p (with_dispatch ps rep) -> In (mode_row_of (final_row p)) (update_modes ps rep).
Proof.
  intros ps rep p H. apply (Permutation_in _ (Permutation_sym (update_perm ps rep))). apply in_map_iff. eauto.
Qed.

(** ** The row of one unit *)

(** The working row after each block, from mode [k], time [t] and time left [l]. *)
Definition moves (p : profile) (k : Z) (t l : Q) (s : option Q) : Z * Q * Q * option Q :=
  let '(k, t, l, s) := if Z.eqb k 1 && negb (Qle_bool l (pf_len1 p - t)) then (2%Z, 0, l - (pf_len1 p - t), s) else (k, t, l, s) in
  let '(k, t, l, s) := if Z.eqb k 2 && negb (Qle_bool l (pf_len2 p - t)) then (3%Z, 0, l - (pf_len2 p - t), Some (l - (pf_len2 p - t))) else (k, t, l, s) in
  if Z.eqb k 3 && negb (Qle_bool l (pf_len3 p - t)) then (4%Z, 0, l - (pf_len3 p - t), s) else (k, t, l, s).

Lemma start_is : forall p, wk_mode (start_row p) = start_mode (fst p) (snd (snd p)).
Proof.
  intros [p [k d]]. unfold start_row, start_mode. cbn [fst snd wk_mode].
  destruct (Z.eqb_spec (pf_mode p) 0) as [E|E]; cbn [andb]; [|reflexivity].
  destruct (Qle_bool d 0) eqn:L; destruct (Qlt_le_dec 0 d) as [H|H]; cbn [negb]; try reflexivity; try exact E.
  - apply Qle_bool_iff in L. lra.
  - apply qle_false in L. lra.
Qed.

Lemma final_is : forall p, (wk_mode (final_row p), wk_time (final_row p), wk_left (final_row p), wk_since (final_row p))
  = moves (fst p) (start_mode (fst p) (snd (snd p))) (pf_time (fst p)) 5 None.
Proof.
  intros p. rewrite <- start_is. unfold final_row, moves, moved_if, leaves_mode, moved, start_row.
  cbn [wk_mode wk_left wk_profile wk_time wk_since wk_dispatch].
  repeat match goal with
  | |- context [if ?b then _ else _] =>
     lazymatch b with context [if _ then _ else _] => fail | _ => destruct b end;
     cbn [wk_mode wk_left wk_profile wk_time wk_since wk_dispatch]
  end; reflexivity.
Qed.

(** What the moves come to: the steps of [advance], the time and the modes. *)
Lemma moves_spec : forall p k t l, (0 <= k <= 4)%Z -> 0 <= t -> 0 < l ->
  0 <= pf_len1 p -> 0 <= pf_len2 p -> 0 <= pf_len3 p -> 0 <= pf_len4 p ->
  let '(k', t', l', s) := moves p k t l None in
  (k <= k')%Z /\ (k' <= 4)%Z /\ (k = 0%Z -> k' = 0%Z) /\ 0 < l' /\ 0 <= t'
  /\ passed p k k' + (t' + l') == t + l
  /\ ((1 <= k' <= 3)%Z -> t' + l' <= mode_length p k')
  /\ ((exists q, s = Some q) <-> (1 <= k <= 2 /\ 3 <= k')%Z)
  /\ (forall q, s = Some q -> passed p 3 k' + (t' + l') == q).
Proof.
  intros p k t l Hk Ht Hl L1 L2 L3 L4. unfold moves, passed, mode_length.
  assert (C : k = 0%Z \/ k = 1%Z \/ k = 2%Z \/ k = 3%Z \/ k = 4%Z) by lia.
  destruct C as [-> | [-> | [-> | [-> | ->]]]]; cbn [Z.eqb Z.leb Z.ltb Z.compare Pos.eqb Pos.compare Pos.compare_cont andb];
  repeat match goal with
  | |- context [Qle_bool ?a ?b] => let E := fresh "E" in destruct (Qle_bool a b) eqn:E; cbn [negb Z.eqb Z.leb Z.ltb Z.compare Pos.eqb Pos.compare Pos.compare_cont andb];
      [apply Qle_bool_iff in E | apply qle_false in E]
  end;
  (repeat split; try lia; try lra; try (intros; discriminate);
   try (intros [? ?]; first [discriminate | split; lia]); try (intros; eexists; reflexivity);
   try (intros ? HH; injection HH as <-; lra); try (intros; exfalso; lia)).
  all: destruct H as [? HH]; discriminate.
Qed.

(** The rows of [update_modes]. *)
Lemma row_seen : forall ps rep r, In r (update_modes ps rep) -> in_modes (mo_profile r) ->
  exists d t l, let p := mo_profile r in let k := start_mode p d in
    In p ps /\ dispatched rep (pf_unit p) d
    /\ moves p k (pf_time p) 5 None = (mo_end_mode r, t, l, mo_since r)
    /\ mo_time r = end_time (Working p d (mo_end_mode r) t l (mo_since r)).
Proof.
  intros ps rep r H _. destruct (row_origin _ _ _ H) as [q [Hq ->]].
  apply in_with_dispatch in Hq. destruct Hq as [Hp [Hr [E1 E2]]].
  exists (snd (snd q)), (wk_time (final_row q)), (wk_left (final_row q)).
  unfold mode_row_of; cbn [mo_profile mo_end_mode mo_time mo_since]. rewrite profile_kept.
  split; [exact Hp|]. split.
  - destruct q as [f [[[u dt] s] d]]. cbn [fst snd] in *. exists dt. subst. exact Hr.
  - split; [symmetry; apply final_is|]. unfold end_time. cbn [wk_mode wk_time wk_left wk_profile]. now rewrite profile_kept.
Qed.

Lemma start_mode_bounds : forall p d, (0 <= pf_mode p <= 4)%Z -> (pf_mode p <= start_mode p d <= 4)%Z.
Proof.
  intros p d H. unfold start_mode. destruct (Z.eqb_spec (pf_mode p) 0); [destruct (Qlt_le_dec 0 d)|]; lia.
Qed.

(** All that is said of the result of a unit. *)
Lemma row_facts : forall ps rep r, In r (update_modes ps rep) -> in_modes (mo_profile r) ->
  exists d, let p := mo_profile r in let k := start_mode p d in
    In p ps /\ dispatched rep (pf_unit p) d
    /\ (k <= mo_end_mode r <= 4)%Z
    /\ (k = 0%Z -> mo_end_mode r = 0%Z /\ mo_time r = 0)
    /\ ((1 <= mo_end_mode r <= 3)%Z -> passed p k (mo_end_mode r) + mo_time r == pf_time p + 5)
    /\ (mo_end_mode r = 4%Z ->
         (passed p k 4 + mo_time r == pf_time p + 5 /\ mo_time r <= pf_len4 p)
         \/ (mo_time r == pf_len4 p /\ passed p k 4 + mo_time r < pf_time p + 5))
    /\ ((1 <= mo_end_mode r <= 4)%Z -> mo_time r <= mode_length p (mo_end_mode r))
    /\ ((1 <= mo_end_mode r <= 4)%Z -> 0 < pf_len4 p -> 0 < mo_time r)
    /\ ((1 <= mo_end_mode r <= 3)%Z -> 0 < mo_time r)
    /\ ((exists q, mo_since r = Some q) <-> (1 <= k <= 2 /\ 3 <= mo_end_mode r)%Z)
    /\ (forall q, mo_since r = Some q -> passed p k 3 + q == pf_time p + 5).
Proof.
  intros ps rep r H Hin. destruct (row_seen _ _ _ H Hin) as [d [t [l [Hp [Hd [M Ht]]]]]]. exists d.
  destruct Hin as [Hm [Hz [L1 [L2 [L3 L4]]]]]. set (p := mo_profile r) in *.
  pose proof (start_mode_bounds p d Hm) as Hk. cbv zeta. set (k := start_mode p d) in *.
  assert (F : 0 < 5) by reflexivity.
  pose proof (moves_spec p k (pf_time p) 5 ltac:(lia) Hz F L1 L2 L3 L4) as S. rewrite M in S.
  destruct S as [S1 [S2 [S3 [S4 [S5 [S6 [S7 [S8 S9]]]]]]]].
  split; [exact Hp|]. split; [exact Hd|]. split; [lia|].
  unfold end_time in Ht. cbn [wk_mode wk_time wk_left wk_profile] in Ht.
  assert (C : mo_end_mode r = 0%Z \/ (1 <= mo_end_mode r <= 3)%Z \/ mo_end_mode r = 4%Z) by lia.
  destruct C as [C|[C|C]].
  - rewrite C in Ht. cbn [Z.eqb andb] in Ht. rewrite C in *.
    assert (G : forall q, mo_since r = Some q -> False).
    { intros q Hq. assert (X : exists q, mo_since r = Some q) by eauto. apply S8 in X. lia. }
    split; [intros _; split; [reflexivity|exact Ht]|]. split; [intros; lia|]. split; [intros; lia|].
    split; [intros; lia|]. split; [intros; lia|]. split; [intros; lia|]. split; [exact S8|].
    intros q Hq. destruct (G q Hq).
  - rewrite (proj2 (Z.eqb_neq (mo_end_mode r) 0)), (proj2 (Z.eqb_neq (mo_end_mode r) 4)) in Ht by lia.
    cbn [andb] in Ht.
    split; [intros E; specialize (S3 E); lia|]. split; [intros _; rewrite Ht; exact S6|]. split; [intros; lia|].
    split; [intros _; rewrite Ht; now apply S7|]. split; [intros _ _; rewrite Ht; lra|]. split; [intros _; rewrite Ht; lra|].
    split; [exact S8|]. intros q Hq. specialize (S9 q Hq).
    assert (X : exists q, mo_since r = Some q) by eauto. apply S8 in X.
    assert (P : passed p k (mo_end_mode r) == passed p k 3 + passed p 3 (mo_end_mode r)).
    { unfold passed. clear -X C. assert (A : k = 1%Z \/ k = 2%Z) by lia.
      assert (B : mo_end_mode r = 3%Z) by lia. rewrite B. destruct A as [-> | ->]; cbn; lra. }
    lra.
  - rewrite C in *. cbn [Z.eqb andb] in Ht.
    assert (P : (1 <= k <= 2)%Z -> passed p k 4 == passed p k 3 + passed p 3 4).
    { unfold passed. clear. intros X. assert (A : k = 1%Z \/ k = 2%Z) by lia. destruct A as [-> | ->]; cbn; lra. }
    assert (G : forall q, mo_since r = Some q -> passed p k 3 + q == pf_time p + 5).
    { intros q Hq. specialize (S9 q Hq). assert (X : exists q, mo_since r = Some q) by eauto. apply S8 in X.
      specialize (P (proj1 X)). lra. }
    cbn [Pos.eqb] in Ht. destruct (Qle_bool (t + l) (pf_len4 p)) eqn:E; cbn [negb andb] in Ht.
    + apply Qle_bool_iff in E. rewrite Ht.
      split; [intros Z0; specialize (S3 Z0); lia|]. split; [intros; lia|]. split; [intros _; left; split; assumption|].
      split; [intros _; exact E|]. split; [intros _ _; lra|]. split; [intros; lia|]. split; [exact S8|exact G].
    + apply qle_false in E. rewrite Ht.
      split; [intros Z0; specialize (S3 Z0); lia|]. split; [intros; lia|]. split; [intros _; right; split; lra|].
      split; [intros _; cbn; lra|]. split; [intros _ Z0; exact Z0|]. split; [intros; lia|]. split; [exact S8|exact G].
Qed.

(** ** The process in time *)

Lemma mode_len_next : forall p k, (1 <= k <= 3)%Z -> 0 <= pf_len1 p -> 0 <= pf_len2 p -> 0 <= pf_len3 p -> 0 <= mode_length p k.
Proof. intros p k H. assert (C : k = 1%Z \/ k = 2%Z \/ k = 3%Z) by lia. destruct C as [-> | [-> | ->]]; cbn; auto. Qed.

Lemma advance_four : forall p t l, exists t', advance p 4 t l 4 t' None
  /\ t' = (if negb (Qle_bool (t + l) (pf_len4 p)) then pf_len4 p else t + l).
Proof.
  intros p t l. destruct (Qle_bool (t + l) (pf_len4 p)) eqn:E; cbn [negb]; eexists; split; try reflexivity.
  - apply Qle_bool_iff in E. apply Done; [exact E|reflexivity].
  - apply qle_false in E. apply Past; [exact E|reflexivity].
Qed.

Definition over (p : profile) (k : Z) (t l : Q) : Q :=
  if Z.eqb k 4 && negb (Qle_bool (t + l) (pf_len4 p)) then pf_len4 p else t + l.

Lemma adv3 : forall p t l (s : option Q), t <= pf_len3 p ->
  exists k' t' l', (if negb (Qle_bool l (pf_len3 p - t)) then (4%Z, 0, l - (pf_len3 p - t), s) else (3%Z, t, l, s)) = (k', t', l', s)
    /\ advance p 3 t l k' (over p k' t' l') None /\ (1 <= k')%Z.
Proof.
  intros p t l s Ht. destruct (Qle_bool l (pf_len3 p - t)) eqn:E; cbn [negb].
  - apply Qle_bool_iff in E. exists 3%Z, t, l. split; [reflexivity|]. split; [|lia].
    unfold over. cbn [Z.eqb Pos.eqb andb]. apply Stay; [lia|cbn; lra|reflexivity].
  - apply qle_false in E. exists 4%Z, 0, (l - (pf_len3 p - t)). split; [reflexivity|]. split; [|lia].
    apply (Next p 3 t l (l - (pf_len3 p - t)) 4 _ None None); [lia|exact Ht|cbn; lra|cbn; lra| |split; [lia|reflexivity]].
    destruct (advance_four p 0 (l - (pf_len3 p - t))) as [t' [A E']]. unfold over. cbn [Z.eqb Pos.eqb andb]. rewrite <- E'. exact A.
Qed.

Lemma adv2 : forall p t l, t <= pf_len2 p -> 0 <= pf_len3 p ->
  exists k' t' l' s, moves p 2 t l None = (k', t', l', s) /\ advance p 2 t l k' (over p k' t' l') s /\ (1 <= k')%Z.
Proof.
  intros p t l Ht L3. unfold moves. cbn [Z.eqb Pos.eqb andb].
  destruct (Qle_bool l (pf_len2 p - t)) eqn:E; cbn [negb].
  - apply Qle_bool_iff in E. cbn [Z.eqb Pos.eqb andb]. exists 2%Z, t, l, None. split; [reflexivity|]. split; [|lia].
    unfold over. cbn [Z.eqb Pos.eqb andb]. apply Stay; [lia|cbn; lra|reflexivity].
  - apply qle_false in E. cbn [Z.eqb Pos.eqb andb].
    destruct (adv3 p 0 (l - (pf_len2 p - t)) (Some (l - (pf_len2 p - t))) L3) as [k' [t' [l' [-> [A B]]]]].
    exists k', t', l', (Some (l - (pf_len2 p - t))). split; [reflexivity|]. split; [|exact B].
    apply (Next p 2 t l (l - (pf_len2 p - t)) k' _ None); [lia|exact Ht|cbn; lra|cbn; lra|exact A|cbn; reflexivity].
Qed.

Lemma moves_advance : forall p k t l, (0 <= k <= 4)%Z ->
  ((1 <= k <= 3)%Z -> t <= mode_length p k) -> 0 <= pf_len2 p -> 0 <= pf_len3 p ->
  exists k' t' l' s, moves p k t l None = (k', t', l', s)
    /\ advance p k t l k' (if Z.eqb k' 0 then 0 else over p k' t' l') s.
Proof.
  intros p k t l Hk Ht L2 L3. assert (C : k = 0%Z \/ k = 1%Z \/ k = 2%Z \/ k = 3%Z \/ k = 4%Z) by lia.
  destruct C as [-> | [-> | [-> | [-> | ->]]]].
  - exists 0%Z, t, l, None. split; [reflexivity|]. apply Off.
  - destruct (Qle_bool l (pf_len1 p - t)) eqn:E.
    + exists 1%Z, t, l, None. unfold moves. cbn [Z.eqb Pos.eqb andb]. rewrite E. cbn [negb Z.eqb Pos.eqb andb].
      split; [reflexivity|]. apply Qle_bool_iff in E. unfold over. cbn [Z.eqb Pos.eqb andb]. apply Stay; [lia|cbn; lra|reflexivity].
    + assert (M : moves p 1 t l None = moves p 2 0 (l - (pf_len1 p - t)) None)
        by (unfold moves; cbn [Z.eqb Pos.eqb andb]; rewrite E; reflexivity).
      rewrite M. destruct (adv2 p 0 (l - (pf_len1 p - t)) L2 L3) as [k' [t' [l' [s [-> [A B]]]]]].
      exists k', t', l', s. split; [reflexivity|]. rewrite (proj2 (Z.eqb_neq k' 0)) by lia. apply qle_false in E.
      apply (Next p 1 t l (l - (pf_len1 p - t)) k' _ s s); [lia|apply Ht; lia|cbn; lra|cbn; lra|exact A|].
      destruct s as [q|]; [cbn; exists q; split; reflexivity|split; [lia|reflexivity]].
  - destruct (adv2 p t l (Ht ltac:(lia)) L3) as [k' [t' [l' [s [-> [A B]]]]]].
    exists k', t', l', s. split; [reflexivity|]. rewrite (proj2 (Z.eqb_neq k' 0)) by lia. exact A.
  - destruct (adv3 p t l None (Ht ltac:(lia))) as [k' [t' [l' [M [A B]]]]].
    exists k', t', l', None. split; [unfold moves; cbn [Z.eqb Pos.eqb andb]; exact M|].
    rewrite (proj2 (Z.eqb_neq k' 0)) by lia. exact A.
  - exists 4%Z, t, l, None. split; [reflexivity|]. cbn [Z.eqb]. unfold over. cbn [Z.eqb Pos.eqb andb].
    destruct (advance_four p t l) as [t' [A E]]. rewrite <- E. exact A.
Qed.

Lemma row_advances : forall ps rep r, In r (update_modes ps rep) -> sound (mo_profile r) ->
  exists d, In (mo_profile r) ps /\ dispatched rep (pf_unit (mo_profile r)) d
    /\ advance (mo_profile r) (start_mode (mo_profile r) d) (pf_time (mo_profile r)) 5
         (mo_end_mode r) (mo_time r) (mo_since r).
Proof.
  intros ps rep r H [Hm [Hz [H0 [Hl [L1 [L2 [L3 L4]]]]]]].
  destruct (row_seen _ _ _ H ltac:(repeat split; assumption || lia)) as [d [t [l [Hp [Hd [M Ht]]]]]].
  exists d. split; [exact Hp|]. split; [exact Hd|].
  pose proof (start_mode_bounds (mo_profile r) d Hm) as Hk.
  destruct (moves_advance (mo_profile r) (start_mode (mo_profile r) d) (pf_time (mo_profile r)) 5) as [k' [t' [l' [s [M' A]]]]]; try assumption; try lia.
  { intros K. unfold start_mode in *. destruct (Z.eqb_spec (pf_mode (mo_profile r)) 0) as [E|E].
    - specialize (H0 E). destruct (Qlt_le_dec 0 d); [cbn; lra|lia].
    - apply Hl. lia. }
  rewrite M in M'. injection M' as <- <- <- <-.
  assert (E : mo_time r = (if Z.eqb (mo_end_mode r) 0 then 0 else over (mo_profile r) (mo_end_mode r) t l)).
  { rewrite Ht. unfold end_time, over. cbn [wk_mode wk_time wk_left wk_profile].
    destruct (Z.eqb_spec (mo_end_mode r) 0) as [->|]; reflexivity. }
  rewrite E. exact A.
Qed.

(** The process has one outcome. *)
Lemma advance_one : forall p k t d k1 t1 s1, advance p k t d k1 t1 s1 ->
  forall t0 d0 k2 t2 s2, advance p k t0 d0 k2 t2 s2 -> t == t0 -> d == d0 ->
  k1 = k2 /\ t1 == t2 /\ match s1, s2 with Some a, Some b => a == b | None, None => True | _, _ => False end.
Proof.
  intros p k t d k1 t1 s1 A. induction A as [t d|k t d t' K L E|t d t' L E|t d t' L E|k t d e k' t' s s' K L1 L2 E A IH S];
    intros t0 d0 k2 t2 s2 B Et Ed.
  - inversion B; subst; try lia. repeat split; reflexivity.
  - inversion B; subst; try lia; [|lra]. repeat split; lra.
  - inversion B; subst; try lia; [repeat split; lra|]. repeat split; lra.
  - inversion B; subst; try lia; [repeat split; lra|]. repeat split; lra.
  - inversion B; subst; try lia; [lra|].
    assert (Q0 : 0 == 0) by reflexivity.
    match goal with HB : advance p (k + 1) 0 ?e2 _ _ ?s2' |- _ =>
      destruct (IH 0 e2 _ _ _ HB Q0 ltac:(lra)) as [I1 [I2 I3]] end.
    split; [exact I1|]. split; [exact I2|].
    destruct s' as [a|]; destruct s2 as [b|]; destruct (Z.eqb_spec k 2) as [K2|K2].
    + lra.
    + destruct S as [qa [-> Ea]].
      match goal with HS : exists q', ?s0 = Some q' /\ b == q' |- _ => destruct HS as [qb [-> Eb]] end. lra.
    + intuition.
    + destruct S as [qa [-> Ea]].
      match goal with HS : k <> 2%Z /\ _ = None |- _ => destruct HS as [_ ->] end. contradiction.
    + intuition.
    + destruct S as [_ ->].
      match goal with HS : exists q', ?s0 = Some q' /\ b == q' |- _ => destruct HS as [qb [-> Eb]] end. contradiction.
    + exact I.
    + exact I.
Qed.

(** ** How many rows *)
Lemma merge_app_l : forall (A B : Type) (e : A -> B -> bool) a l r,
  merge e (a :: l) r = map (fun b => (a, b)) (filter (e a) r) ++ merge e l r.
Proof. reflexivity. Qed.

Lemma length_filter_perm : forall (A : Type) (f : A -> bool) l l', Permutation l l' -> length (filter f l) = length (filter f l').
Proof.
  intros A f l l' P. induction P; cbn; auto; try (destruct (f x); cbn; lia); [|lia].
  destruct (f x), (f y); reflexivity.
Qed.

Lemma rows_of_unit : forall ps rep u,
  length (filter (fun r => String.eqb (pf_unit (mo_profile r)) u) (update_modes ps rep))
  = (length (filter (fun p => String.eqb (pf_unit p) u) ps)
     * length (filter (fun r : ukey * Q => String.eqb (fst (fst (fst r))) u && String.eqb (snd (fst r)) "energy") rep))%nat.
Proof.
  intros ps rep u. rewrite (length_filter_perm _ _ _ _ (update_perm ps rep)).
  unfold with_dispatch. set (en := filter (fun r : ukey * Q => String.eqb (snd (fst r)) "energy") rep).
  assert (N : filter (fun r : ukey * Q => String.eqb (fst (fst (fst r))) u && String.eqb (snd (fst r)) "energy") rep
              = filter (fun r : ukey * Q => String.eqb (fst (fst (fst r))) u) en).
  { unfold en. clear. induction rep as [|r rep IH]; [reflexivity|]. cbn [filter].
    destruct (String.eqb (snd (fst r)) "energy"); cbn [filter]; [rewrite andb_true_r|rewrite andb_false_r; exact IH].
    destruct (String.eqb (fst (fst (fst r))) u); [f_equal|]; exact IH. }
  rewrite N. clearbody en. clear N. induction ps as [|p ps IH]; [reflexivity|].
  rewrite merge_app_l, map_app, filter_app, app_length, IH. cbn [filter].
  assert (X : forall (l : list (ukey * Q)), length (filter (fun r => String.eqb (pf_unit (mo_profile r)) u)
                (map (fun q => mode_row_of (final_row q)) (map (fun b => (p, b)) l)))
              = if String.eqb (pf_unit p) u then length l else 0%nat).
  { intros l. induction l as [|b l IHl]; [destruct (String.eqb (pf_unit p) u); reflexivity|].
    cbn [map filter mode_row_of mo_profile]. rewrite profile_kept. cbn [fst].
    destruct (String.eqb (pf_unit p) u); cbn [length]; [f_equal|]; exact IHl. }
  rewrite X. destruct (String.eqb_spec (pf_unit p) u) as [->|_]; [|reflexivity].
  cbn [length Nat.mul]. f_equal. f_equal. apply filter_ext. intros r. apply String.eqb_sym.
Qed.

(** The targets in mode 2. *)
Lemma mode_two_target : forall ps rep f, (forall p, In p ps -> in_modes p) -> (forall p, In p ps -> 0 <= pf_min_loading p) ->
  In f (fs_table (update_modes ps rep)) -> fs_end_mode f = 2%Z ->
  0 < fs_mode_two_length f
  /\ 0 < fs_time_in_end_mode f / fs_mode_two_length f /\ fs_time_in_end_mode f / fs_mode_two_length f <= 1
  /\ 0 <= fs_time_in_end_mode f / fs_mode_two_length f * fs_min_loading f <= fs_min_loading f.
Proof.
  intros ps rep f Hin Hmin Hf E. apply in_map_iff in Hf. destruct Hf as [r [<- Hr]]. cbn in E |- *.
  assert (Hp : In (mo_profile r) ps).
  { destruct (row_origin _ _ _ Hr) as [q [Hq ->]]. apply in_with_dispatch in Hq. cbn [mo_profile mode_row_of]. rewrite profile_kept. apply Hq. }
  destruct (row_facts _ _ _ Hr (Hin _ Hp)) as [d [_ [_ [_ [_ [_ [_ [F1 [_ [F2 _]]]]]]]]]].
  specialize (F1 ltac:(lia)). specialize (F2 ltac:(lia)). rewrite E in F1. cbn in F1.
  assert (P : 0 < pf_len2 (mo_profile r)) by lra. split; [exact P|].
  assert (A1 : 0 < mo_time r / pf_len2 (mo_profile r)) by (apply Qlt_shift_div_l; lra).
  assert (A2 : mo_time r / pf_len2 (mo_profile r) <= 1) by (apply Qle_shift_div_r; lra).
  split; [exact A1|]. split; [exact A2|]. specialize (Hmin _ Hp).
  generalize dependent (mo_time r / pf_len2 (mo_profile r)). intros q B1 B2. split; nra.
Qed.
