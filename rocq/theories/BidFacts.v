(** Lemmas about bid variables: C05. *)

From Coq Require Import QArith Qminmax Lqa String List Bool Arith Lia ZArith Permutation.
Import ListNotations.
From Verif Require Import PandasModel TablesModel VariableIdsModel MarketConstraintsModel
  UnitConstraintsModel RampModel FcasModel InterModel ElasticModel MarketModel SolverModel
  SpecLp PandasFacts SpecHistory SpecIds SpecDispatch StepFacts InvariantFacts OwnerFacts SolverFacts
  MeaningFacts LimitFacts TableFacts.
Open Scope string_scope.
Open Scope list_scope.

Lemma in_bid_variables t n v : In v (bid_variables t n) ->
  exists r b, In r (bt_rows t) /\ In b (bt_bands t) /\ min_bid_volume <= br_val r b
    /\ bv_unit v = br_unit r /\ bv_service v = br_service r /\ bv_dt v = br_dt r /\ bv_band v = b
    /\ bv_lb v = 0 /\ bv_ub v = br_val r b.
Proof.
  unfold bid_variables. intros H. apply in_map_iff in H. destruct H as [[i [[r b] q]] [<- H]].
  apply in_save_index in H. destruct H as [_ H]. cbn [snd] in H. apply sort_rows_in, filter_In in H.
  destruct H as [H L]. cbn [snd] in L. apply Qle_bool_iff in L. unfold stack_bids in H.
  apply in_flat_map in H. destruct H as [b' [Hb H]]. apply in_map_iff in H. destruct H as [r' [E Hr]].
  inversion E; subst. exists r, b. cbn. auto 20.
Qed.

Lemma bid_variable_exists t n r b : In r (bt_rows t) -> In b (bt_bands t) -> min_bid_volume <= br_val r b ->
  exists i, In (BidVar (br_unit r) b (br_service r) (br_dt r) i 0 (br_val r b)) (bid_variables t n).
Proof.
  intros Hr Hb L. unfold bid_variables.
  destruct (save_index_in n (sort_rows bid_le (filter (fun p => Qle_bool min_bid_volume (snd p)) (stack_bids t)))
     (r, b, br_val r b)) as [i Hi].
  - apply sort_rows_in, filter_In. split; [|now apply Qle_bool_iff].
    unfold stack_bids. apply in_flat_map. exists b. split; [exact Hb|]. apply in_map_iff. exists r. auto.
  - exists i. apply in_map_iff. exists (i, (r, b, br_val r b)). auto.
Qed.

(** Sums over bid variables of something that does not use the ids. *)
Lemma sumQ_save {A} (f : A -> Q) n l : sumQ (fun p => f (snd p)) (save_index n l) == sumQ f l.
Proof.
  revert n. induction l as [|a t IH]; intros n; [reflexivity|].
  rewrite save_index_cons, !sumQ_cons, IH. reflexivity.
Qed.

Lemma bid_variables_sum t n (f : bidvar -> Q) :
  (forall u b s d i j q, f (BidVar u b s d i 0 q) = f (BidVar u b s d j 0 q)) ->
  sumQ f (bid_variables t n)
  == sumQ (fun b => sumQ (fun r => if Qle_bool min_bid_volume (br_val r b)
             then f (BidVar (br_unit r) b (br_service r) (br_dt r) 0 0 (br_val r b)) else 0) (bt_rows t)) (bt_bands t).
Proof.
  intros H. unfold bid_variables. rewrite sumQ_map.
  set (g := fun a : bid_row * string * Q =>
     f (BidVar (br_unit (fst (fst a))) (snd (fst a)) (br_service (fst (fst a))) (br_dt (fst (fst a))) 0 0 (snd a))).
  rewrite (sumQ_ext _ (fun p => g (snd p))).
  2:{ intros [i [[r b] q]]. unfold g. cbn [fst snd]. now rewrite (H _ _ _ _ i 0%nat). }
  rewrite (sumQ_save g). rewrite (sumQ_perm _ _ _ (Permutation_sym (sort_rows_perm bid_le _))).
  rewrite sumQ_filter. unfold stack_bids. rewrite sumQ_flat_map. apply sumQ_ext. intros b.
  rewrite sumQ_map. reflexivity.
Qed.

(** Every bid variable is within its bounds. *)
Lemma bid_bounds m x v : solution m x -> In v (rows_or_nil (m_bids m)) -> bv_lb v <= x (bv_id v) <= bv_ub v.
Proof.
  intros [p [A [F _]]] Hv. apply assemble_parts in A. destruct A as [E _]. rewrite E in F.
  specialize (F (PVar (bv_id v) (bv_lb v) (Some (bv_ub v)))). apply F.
  unfold all_vars. apply in_or_app. left. unfold bid_pvars. apply in_map_iff. exists v. auto.
Qed.

Lemma reached_bids c m v : reached c m -> In v (rows_or_nil (m_bids m)) -> bv_lb v = 0.
Proof.
  intros R Hv. destruct (reached_owned c m R) as [[W _] _]. pose proof (wf_bids m W) as B. unfold bids_wf in B.
  destruct (m_bids m) as [vs|]; [|destruct Hv]. destruct B as [t [n [_ [_ [E _]]]]]. cbn in Hv. rewrite E in Hv.
  apply in_bid_variables in Hv. destruct Hv as [r [b H]]. tauto.
Qed.

Lemma bid_nonneg c m x v : reached c m -> solution m x -> In v (rows_or_nil (m_bids m)) -> 0 <= x (bv_id v).
Proof.
  intros R S Hv. rewrite <- (reached_bids c m v R Hv). now apply (bid_bounds m).
Qed.

Lemma dispatch_nonneg c m x u s d : reached c m -> solution m x -> 0 <= dispatch m x u s d.
Proof.
  intros R S. rewrite dispatch_sum. apply sumQ_nonneg. intros v Hv. apply filter_In in Hv.
  now apply (bid_nonneg c m x).
Qed.

Lemma band_dispatch_sum m x u s d b : band_dispatch m x u s d b = sumQ (fun v => x (bv_id v))
  (filter (fun v => String.eqb u (bv_unit v) && String.eqb s (bv_service v) && String.eqb d (bv_dt v)
                    && String.eqb b (bv_band v)) (rows_or_nil (m_bids m))).
Proof. reflexivity. Qed.

Lemma band_dispatch_nonneg c m x u s d b : reached c m -> solution m x -> 0 <= band_dispatch m x u s d b.
Proof.
  intros R S. rewrite band_dispatch_sum. apply sumQ_nonneg. intros v Hv. apply filter_In in Hv.
  now apply (bid_nonneg c m x).
Qed.

Lemma volume_bids_inv c t m : in_force c (OpVolumeBids t) m ->
  exists n, rows_or_nil (m_bids m) = bid_variables t n /\ exists m', m_cfg m' = c /\ check_bids true m' t = None.
Proof.
  intros I. apply in_force_table in I. destruct I as [O [C [m' [m1 [O' [C' [St [_ K]]]]]]]].
  cbn [step] in St. unfold set_volume_bids in St. apply guard_ok in St. destruct St as [H1 St].
  apply guard_ok in St. destruct St as [H2 St].
  destruct (K "bids" ltac:(cbn; auto)) as [K1 _]. destruct (K1 eq_refl) as [K2 _].
  destruct (next_id _); [|discriminate]. inversion St; subst m1. exists (m_nv m'). split; [|eauto].
  rewrite K2. reflexivity.
Qed.

(** Keys of a checked table are unique. *)
Lemma check_bids_rows pos m t : check_bids pos m t = None ->
  ForallOrdPairs (fun a b => same_bid a b = false) (bt_rows t).
Proof.
  unfold check_bids. intros H. apply (no_repeats_in same_bid (bt_rows t) _ H). cbn; auto 20.
Qed.

Lemma check_bids_bands pos m t : check_bids pos m t = None -> NoDup (bt_bands t).
Proof.
  unfold check_bids. intros H. pose proof (first_err_in _ _ EAttribute H ltac:(cbn; right; right; left; reflexivity)) as E.
  apply Nat.eqb_eq in E. rewrite keys_of_drop in E. apply no_repeats_distinct in E. rename E into F.
  clear -F. induction F as [|a l Ha Hl IH]; constructor; auto.
  rewrite Forall_forall in Ha. intros Hi. specialize (Ha a Hi). now rewrite String.eqb_refl in Ha.
Qed.

Lemma sumQ_pick {A} (f : A -> Q) (p : A -> bool) (a : A) l : In a l -> p a = true ->
  (forall b, In b l -> p b = true -> b = a) -> NoDup l ->
  sumQ (fun b => if p b then f b else 0) l == f a.
Proof.
  induction l as [|b t IH]; intros H Hp U ND; [destruct H|]. rewrite sumQ_cons.
  inversion ND as [|? ? N1 N2]; subst. destruct H as [->|H].
  - rewrite Hp. rewrite (sumQ_zero _ t); [ring|]. intros b Hb. destruct (p b) eqn:E; [|reflexivity].
    exfalso. assert (b = a) by (apply U; [now right|exact E]). now subst.
  - rewrite IH; auto; [|intros; apply U; [now right|assumption]]. destruct (p b) eqn:E; [|ring].
    exfalso. assert (b = a) by (apply U; [now left|exact E]). now subst.
Qed.

Lemma FOP_NoDup {A} (same : A -> A -> bool) l : (forall a, same a a = true) ->
  ForallOrdPairs (fun a b => same a b = false) l -> NoDup l.
Proof.
  intros R F. induction F as [|a l Ha Hl IH]; constructor; auto. intros Hi.
  rewrite Forall_forall in Ha. specialize (Ha a Hi). now rewrite R in Ha.
Qed.

Lemma same_bid_refl a : same_bid a a = true.
Proof. unfold same_bid. now rewrite !String.eqb_refl. Qed.

Lemma row_key u s d r :
  String.eqb u (br_unit r) && String.eqb s (br_service r) && String.eqb d (br_dt r) = true <->
  br_unit r = u /\ br_service r = s /\ br_dt r = d.
Proof. rewrite !andb_true_iff, !String.eqb_eq. intuition. Qed.

Lemma same_row pos m t r r' : check_bids pos m t = None -> In r (bt_rows t) -> In r' (bt_rows t) ->
  br_unit r' = br_unit r -> br_service r' = br_service r -> br_dt r' = br_dt r -> r' = r.
Proof.
  intros Ck H H' E1 E2 E3. apply check_bids_rows in Ck.
  apply (FOP_unique same_bid (bt_rows t)); auto.
  - intros a b. unfold same_bid. now rewrite (String.eqb_sym (br_unit a)), (String.eqb_sym (br_service a)), (String.eqb_sym (br_dt a)).
  - unfold same_bid. now rewrite E1, E2, E3, !String.eqb_refl.
Qed.

Lemma sumQ_if_le {A} (f : A -> Q) (p : A -> bool) l : (forall a, In a l -> 0 <= f a) ->
  sumQ (fun a => if p a then f a else 0) l <= sumQ f l.
Proof. intros H. apply sumQ_le. intros a Ha. destruct (p a); [apply Qle_refl|auto]. Qed.

(** The volume of a band that has a variable. *)
Lemma band_volume m' t n r b : check_bids true m' t = None -> In r (bt_rows t) -> In b (bt_bands t) ->
  sumQ bv_ub (filter (fun v => String.eqb (br_unit r) (bv_unit v) && String.eqb (br_service r) (bv_service v)
                && String.eqb (br_dt r) (bv_dt v) && String.eqb b (bv_band v)) (bid_variables t n))
  == if Qle_bool min_bid_volume (br_val r b) then br_val r b else 0.
Proof.
  intros Ck Hr Hb. rewrite sumQ_filter.
  rewrite bid_variables_sum by reflexivity. cbn [bv_unit bv_service bv_dt bv_band bv_ub].
  rewrite (sumQ_ext _ (fun b' => if String.eqb b b' then
     sumQ (fun r' => if String.eqb (br_unit r) (br_unit r') && String.eqb (br_service r) (br_service r')
       && String.eqb (br_dt r) (br_dt r') then (if Qle_bool min_bid_volume (br_val r' b') then br_val r' b' else 0) else 0)
       (bt_rows t) else 0)).
  2:{ intros b'. destruct (String.eqb b b').
      - apply sumQ_ext. intros r'. rewrite andb_true_r. destruct (Qle_bool _ _), (_ && _); reflexivity.
      - apply sumQ_zero. intros r' _. rewrite andb_false_r. destruct (Qle_bool _ _); reflexivity. }
  rewrite (sumQ_pick _ (String.eqb b) b); auto.
  - apply (sumQ_pick (fun r' => if Qle_bool min_bid_volume (br_val r' b) then br_val r' b else 0) _ r); auto.
    + now rewrite !String.eqb_refl.
    + intros r' Hr' E. apply row_key in E. apply (same_row true m' t); tauto.
    + apply (FOP_NoDup same_bid); [apply same_bid_refl|]. now apply check_bids_rows in Ck.
  - apply String.eqb_refl.
  - intros b' _ E. apply String.eqb_eq in E. auto.
  - now apply check_bids_bands in Ck.
Qed.

Lemma unit_volume m' t n r : check_bids true m' t = None -> In r (bt_rows t) ->
  sumQ bv_ub (filter (fun v => String.eqb (br_unit r) (bv_unit v) && String.eqb (br_service r) (bv_service v)
                && String.eqb (br_dt r) (bv_dt v)) (bid_variables t n))
  <= sumQ (br_val r) (bt_bands t).
Proof.
  intros Ck Hr. rewrite sumQ_filter.
  rewrite bid_variables_sum by reflexivity. cbn [bv_unit bv_service bv_dt bv_ub].
  apply sumQ_le. intros b Hb.
  assert (N : 0 <= br_val r b).
  { unfold check_bids in Ck.
    pose proof (all_rows_in (fun r => forallb (fun b => non_neg (br_val r b)) (bt_bands t)) (bt_rows t) _ r Ck
       ltac:(cbn; auto 10) Hr) as F. cbn beta in F. rewrite forallb_forall in F. now apply Qle_bool_iff, F. }
  rewrite (sumQ_ext _ (fun r' => if String.eqb (br_unit r) (br_unit r') && String.eqb (br_service r) (br_service r')
       && String.eqb (br_dt r) (br_dt r') then (if Qle_bool min_bid_volume (br_val r' b) then br_val r' b else 0) else 0)).
  2:{ intros r'. destruct (Qle_bool _ _), (_ && _); reflexivity. }
  rewrite (sumQ_pick (fun r' => if Qle_bool min_bid_volume (br_val r' b) then br_val r' b else 0) _ r); auto.
  - destruct (Qle_bool _ _); [apply Qle_refl|exact N].
  - now rewrite !String.eqb_refl.
  - intros r' Hr' E. apply row_key in E. apply (same_row true m' t); tauto.
  - apply (FOP_NoDup same_bid); [apply same_bid_refl|]. now apply check_bids_rows in Ck.
Qed.

Lemma volumes_respected c t m x : in_force c (OpVolumeBids t) m -> solution m x ->
  (forall r b, In r (bt_rows t) -> In b (bt_bands t) ->
     let q := band_dispatch m x (br_unit r) (br_service r) (br_dt r) b in
     0 <= q /\ q <= br_val r b /\ (br_val r b < 1#10000 -> q == 0))
  /\ (forall r, In r (bt_rows t) ->
     let q := dispatch m x (br_unit r) (br_service r) (br_dt r) in
     0 <= q /\ q <= qsum (map (br_val r) (bt_bands t))
     /\ q == qsum (map (band_dispatch m x (br_unit r) (br_service r) (br_dt r)) (bt_bands t)))
  /\ (forall u s d, (forall r, In r (bt_rows t) -> ~ (br_unit r = u /\ br_service r = s /\ br_dt r = d)) ->
     dispatch m x u s d == 0).
Proof.
  intros I Sl. pose proof (in_force_reached _ _ _ I) as R.
  destruct (volume_bids_inv c t m I) as [n [E [m' [_ Ck]]]].
  assert (UB : forall v, In v (bid_variables t n) -> x (bv_id v) <= bv_ub v).
  { intros v Hv. rewrite <- E in Hv. now apply (bid_bounds m). }
  assert (NN : forall r b, In r (bt_rows t) -> In b (bt_bands t) -> 0 <= br_val r b).
  { intros r b Hr Hb. unfold check_bids in Ck.
    pose proof (all_rows_in (fun r => forallb (fun b => non_neg (br_val r b)) (bt_bands t)) (bt_rows t) _ r Ck
       ltac:(cbn; auto 10) Hr) as F. cbn beta in F. rewrite forallb_forall in F. now apply Qle_bool_iff, F. }
  assert (B : forall r b, In r (bt_rows t) -> In b (bt_bands t) ->
     band_dispatch m x (br_unit r) (br_service r) (br_dt r) b
     <= if Qle_bool min_bid_volume (br_val r b) then br_val r b else 0).
  { intros r b Hr Hb. rewrite <- (band_volume m' t n r b Ck Hr Hb), band_dispatch_sum, E.
    apply sumQ_le. intros v Hv. apply filter_In in Hv. now apply UB. }
  split; [|split].
  - intros r b Hr Hb q. pose proof (band_dispatch_nonneg c m x (br_unit r) (br_service r) (br_dt r) b R Sl) as P.
    fold q in P. specialize (B r b Hr Hb). fold q in B. pose proof (NN r b Hr Hb) as N.
    destruct (Qle_bool min_bid_volume (br_val r b)) eqn:L.
    + repeat split; auto. intros Lt. apply Qle_bool_iff in L. unfold min_bid_volume in L. lra.
    + repeat split; auto; lra.
  - intros r Hr q. split; [now apply (dispatch_nonneg c)|]. split.
    + unfold q. eapply Qle_trans; [|apply (unit_volume m' t n r Ck Hr)]. rewrite dispatch_sum, E.
      apply sumQ_le. intros v Hv. apply filter_In in Hv. now apply UB.
    + unfold q. rewrite dispatch_sum.
      change (qsum (map (band_dispatch m x (br_unit r) (br_service r) (br_dt r)) (bt_bands t)))
        with (sumQ (fun b => sumQ (fun v => x (bv_id v)) (filter (fun v => String.eqb (br_unit r) (bv_unit v)
           && String.eqb (br_service r) (bv_service v) && String.eqb (br_dt r) (bv_dt v)
           && String.eqb b (bv_band v)) (rows_or_nil (m_bids m)))) (bt_bands t)).
      rewrite (sumQ_ext (fun b => sumQ _ _) (fun b => sumQ (fun v => if String.eqb (br_unit r) (bv_unit v)
           && String.eqb (br_service r) (bv_service v) && String.eqb (br_dt r) (bv_dt v)
           && String.eqb b (bv_band v) then x (bv_id v) else 0) (rows_or_nil (m_bids m))))
        by (intros; apply sumQ_filter).
      rewrite (sumQ_swap (fun b v => if String.eqb (br_unit r) (bv_unit v)
           && String.eqb (br_service r) (bv_service v) && String.eqb (br_dt r) (bv_dt v)
           && String.eqb b (bv_band v) then x (bv_id v) else 0)).
      rewrite sumQ_filter. apply sumQ_ext_in. intros v Hv.
      destruct (String.eqb (br_unit r) (bv_unit v) && String.eqb (br_service r) (bv_service v)
        && String.eqb (br_dt r) (bv_dt v)); cbn [andb].
      * symmetry. rewrite E in Hv. apply in_bid_variables in Hv. destruct Hv as [r' [b' [_ [Hb [_ [_ [_ [_ [Eb _]]]]]]]]].
        apply (sumQ_pick (fun _ => x (bv_id v)) (fun b => String.eqb b (bv_band v)) b'); auto.
        -- rewrite Eb. apply String.eqb_refl.
        -- intros b _ Hb2. apply String.eqb_eq in Hb2. congruence.
        -- now apply check_bids_bands in Ck.
      * symmetry. now apply sumQ_zero.
  - intros u s d H. apply no_offers. intros [v [Hv [E1 [E2 E3]]]]. rewrite E in Hv. apply in_bid_variables in Hv.
    destruct Hv as [r [b [Hr [_ [_ [F1 [F2 [F3 _]]]]]]]]. apply (H r Hr). repeat split; congruence.
Qed.
