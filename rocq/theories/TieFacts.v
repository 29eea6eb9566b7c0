(** Tie-break constraints. *)

From Coq Require Import QArith Lqa Ascii String List Bool Arith Lia ZArith.
Import ListNotations.
From Verif Require Import PandasModel TablesModel VariableIdsModel MarketConstraintsModel
  UnitConstraintsModel RampModel FcasModel InterModel ElasticModel MarketModel SolverModel
  SpecLp PandasFacts SpecHistory SpecIds SpecDispatch SpecElastic SpecPrices SpecTies StepFacts InvariantFacts OwnerFacts SolverFacts
  MeaningFacts LimitFacts TableFacts BidFacts JointRampFacts BalanceFacts DeficitFacts ElasticStateFacts ElasticFacts PriceStateFacts PriceFacts.
Open Scope string_scope.
Open Scope list_scope.

(** ** Kept rows *)

Definition same_tie (m m' : market) : Prop := dget "tie_break" (m_lhs m') = dget "tie_break" (m_lhs m).

Lemma make_elastic_tie k v m : same_tie m (fst (make_elastic k v m)).
Proof.
  assert (X : forall rows, same_tie m (fst (add_deficits k rows m))).
  { intros rows. unfold add_deficits. destruct rows; [reflexivity|]. unfold same_tie.
    assert (E : forall l d, dget "tie_break" (dset (deficit_key k) l d) = @dget (list lrow) "tie_break" d)
      by (intros; apply dget_dset_other; intros E; symmetry in E; now apply deficit_key_tie in E).
    destruct (next_id _); fields; apply E. }
  unfold make_elastic. destruct (group_rows k m) as [g|]; [|reflexivity]. destruct v; [apply X| |destruct g; reflexivity].
  apply guard_fst; [reflexivity|]. intros _. destruct (has_set_column k); [apply X|reflexivity].
Qed.

Lemma step_same_tie o m : ~ In "tie_break" (touches o) -> same_tie m (fst (step o m)).
Proof.
  intros N. apply (step_preserves (same_tie m) (fun k => k <> "tie_break")) with (ok := fun _ _ => True); auto; [..|intros k Hk ->; contradiction|reflexivity]; clear N o.
  - intros t m1 H. unfold set_volume_bids. repeat (apply guard_fst; [exact H|intros _]). destruct (next_id _); exact H.
  - intros t m1 H. unfold set_price_bids. destruct (m_bids m1); [|exact H]. repeat (apply guard_fst; [exact H|intros _]). exact H.
  - intros k mr mm m1 _ _ _ H. unfold new_unit_group, put_unit. destruct (m_nc m1); [destruct (next_id _)|destruct (mr 0%nat)]; exact H.
  - intros k mr mm m1 _ _ _ H. unfold new_regional_group, put_regional. destruct (m_nc m1); [destruct (next_id _)|destruct (mr 0%nat)]; exact H.
  - intros k v m1 _ H. unfold same_tie in *. now rewrite make_elastic_tie.
  - intros m1 _ H. unfold remove_fast_start.
    destruct (dhas "fast_start" (m_rhs m1)); fields; destruct (dhas "fast_start_deficit" (m_deficits m1)); unfold same_tie in *; fields; auto;
      now rewrite dget_ddel_other by discriminate.
  - intros l m1 H. unfold set_interconnectors. apply guard_fst; [exact H|intros _]. destruct (next_id _); exact H.
  - intros; congruence.
  - intros lf bps m1 _ _ H. destruct (set_losses_cases lf bps m1) as [[e E]|[[e E]|[p [_ E]]]]; rewrite E; fields; auto.
    unfold same_tie in *. unfold put_losses. fields. now rewrite dget_dset_other by discriminate.
  - intros l v m1 _ _ H. unfold put_generic. destruct (m_nc m1); exact H.
Qed.

Lemma run_same_tie ops m : leaves "tie_break" ops -> same_tie m (run ops m).
Proof.
  intros H. apply (run_preserves (same_tie m)); [|reflexivity].
  intros o m1 Ho H1. unfold same_tie in *. rewrite step_same_tie; auto.
Qed.

(** Unit level maps are for unit level groups only. *)
Definition unit_only (m : market) : Prop := forall k l, In (k, l) (m_c2v_unit m) -> In k unit_keys.

Lemma step_unit_only o m : unit_only m -> unit_only (fst (step o m)).
Proof.
  apply (step_preserves unit_only (fun _ => True)) with (ok := fun _ _ => True); auto; clear o m.
  - intros t m1 H. unfold set_volume_bids. repeat (apply guard_fst; [exact H|intros _]). destruct (next_id _); exact H.
  - intros t m1 H. unfold set_price_bids. destruct (m_bids m1); [|exact H]. repeat (apply guard_fst; [exact H|intros _]). exact H.
  - intros k mr mm m1 Hk _ _ H. unfold new_unit_group, put_unit.
    destruct (m_nc m1); [destruct (next_id _)|destruct (mr 0%nat)]; intros k' l' Hin; cbn in Hin; apply in_dset in Hin;
      (destruct Hin as [[-> _]|Hin]; [exact Hk|now apply (H k' l')]).
  - intros k mr mm m1 _ _ _ H. unfold new_regional_group, put_regional. destruct (m_nc m1); [destruct (next_id _)|destruct (mr 0%nat)]; exact H.
  - intros k v m1 _ H. unfold make_elastic. destruct (group_rows k m1) as [g|]; [|exact H].
    assert (X : forall rows, unit_only (fst (add_deficits k rows m1))).
    { intros rows. unfold add_deficits. destruct rows; [exact H|]. destruct (next_id _); exact H. }
    destruct v; [apply X| |destruct g; exact H]. apply guard_fst; [exact H|]. intros _. destruct (has_set_column k); [apply X|exact H].
  - intros m1 _ H k l. unfold remove_fast_start.
    destruct (dhas "fast_start" (m_rhs m1)); destruct (dhas _ _); cbn; intros Hin; try apply in_ddel in Hin; now apply (H k l).
  - intros l m1 H. unfold set_interconnectors. apply guard_fst; [exact H|intros _]. destruct (next_id _); exact H.
  - intros pairs m1 _ _ H. unfold put_tie. destruct (m_nc m1); exact H.
  - intros lf bps m1 _ _ H. destruct (set_losses_cases lf bps m1) as [[e E]|[[e E]|[p [_ E]]]]; rewrite E; fields; auto.
  - intros l v m1 _ _ H. unfold put_generic. destruct (m_nc m1); exact H.
Qed.

Lemma reached_unit_only c m : reached c m -> unit_only m.
Proof.
  intros [m0 [ops [H [_ ->]]]]. apply run_preserves; [intros; now apply step_unit_only|].
  unfold new_market in H. destruct (check_unit_info c); [discriminate|]. inversion H; subst. intros k l [].
Qed.

(** ** Candidate rows are energy offers *)

Definition row_of (t : tie_row) (v : bidvar) : Prop :=
  ti_var t = bv_id v /\ ti_unit t = bv_unit v /\ ti_dt t = bv_dt v /\ ti_band t = bv_band v /\ ti_ub t = bv_ub v.

Lemma in_stack t r b q : In (r, b, q) (stack_bids t) <-> In r (bt_rows t) /\ In b (bt_bands t) /\ q = br_val r b.
Proof.
  unfold stack_bids. rewrite in_flat_map. split.
  - intros [b0 [Hb H]]. apply in_map_iff in H. destruct H as [r0 [E Hr]]. injection E as <- <- <-. auto.
  - intros [Hr [Hb ->]]. exists b. split; auto. apply in_map_iff. exists r. auto.
Qed.

Lemma tie_row_offer c tv tp m t prices vs : priced c tv tp m -> m_obj_bids m = Some prices -> m_bids m = Some vs ->
  In t (tie_rows prices vs (c_ui c)) -> exists v, row_of t v /\ energy_offer c tp m v (ti_cost t) (ti_region t).
Proof.
  intros P Eo Eb H. destruct (priced_inv c tv tp m P) as [R [I [[W O] [C [n [m1 [m2 [Bs [K1 [K2 Ob]]]]]]]]]].
  unfold tie_rows in H. apply in_map_iff in H. destruct H as [[[o v] u] [<- H]].
  apply in_merge in H. destruct H as [H [Hu Eu]]. apply in_merge in H. destruct H as [Ho [Hv Ei]].
  apply filter_In in Ho. destruct Ho as [Ho Es]. cbn [fst] in Eu. apply String.eqb_eq in Eu, Es. apply Nat.eqb_eq in Ei.
  assert (Ep : prices = scale_by_loss_factors (objective_bids (bid_variables tv n) tp) (c_ui c)) by congruence.
  assert (Ev : vs = bid_variables tv n) by congruence. rewrite Ep in Ho.
  unfold scale_by_loss_factors in Ho. apply in_map_iff in Ho. destruct Ho as [[o1 u1] [<- Ho]].
  apply in_merge in Ho. destruct Ho as [Ho [Hu1 E1]]. apply andb_true_iff in E1. rewrite !String.eqb_eq in E1. destruct E1 as [E1 E2].
  unfold objective_bids in Ho. apply in_map_iff in Ho. destruct Ho as [[v1 [[r b] q]] [<- Ho]].
  apply in_merge in Ho. destruct Ho as [Hv1 [Hs E3]]. apply in_stack in Hs. destruct Hs as [Hr [Hb ->]].
  rewrite !andb_true_iff, !String.eqb_eq in E3. destruct E3 as [[[E3 E4] E5] E6].
  cbn [ob_var ob_unit ob_service ob_dt ob_band ob_cost ti_cost ti_region ti_var ti_unit] in *.
  assert (v1 = v).
  { apply (NoDup_map_inj bv_id vs); auto; [|congruence]. pose proof (bid_ids_NoDup m W) as ND. now rewrite Eb in ND. }
  subst v1. exists v. split; [repeat split|]. split; [now rewrite Eb|]. split; [exact Es|]. split.
  - exists (br_val r b), u1. repeat split; auto.
    + exists r. repeat split; auto; congruence.
    + rewrite Es. unfold mw_cost. cbn [String.eqb Ascii.eqb Bool.eqb]. change (String.eqb "energy" "energy") with true.
      destruct (String.eqb (bv_dt v) "load"); cbn [andb]; [|reflexivity]. unfold Qdiv. ring.
  - exists u. auto.
Qed.

Lemma offer_tie_row c tv tp m v q r prices vs : priced c tv tp m -> m_obj_bids m = Some prices -> m_bids m = Some vs ->
  energy_offer c tp m v q r -> exists t, In t (tie_rows prices vs (c_ui c)) /\ row_of t v /\ ti_cost t == q /\ ti_region t = r.
Proof.
  intros P Eo Eb [Hv [Es [[p [u [[br [Hr [B1 [B2 [B3 [Hb ->]]]]]] [Hu [U1 [U2 Eq]]]]]] [u' [Hu' [U1' <-]]]]]].
  destruct (priced_inv c tv tp m P) as [R [I [[W O] [C [n [m1 [m2 [Bs [K1 [K2 Ob]]]]]]]]]].
  assert (Ep : prices = scale_by_loss_factors (objective_bids (bid_variables tv n) tp) (c_ui c)) by congruence.
  assert (Ev : vs = bid_variables tv n) by congruence. rewrite Eb in Hv. cbn [rows_or_nil] in Hv.
  set (k := if String.eqb (bv_dt v) "load" && String.eqb (bv_service v) "energy" then -(1) * br_val br (bv_band v) else br_val br (bv_band v)).
  exists (Tie (bv_id v) (bv_unit v) (bv_dt v) (bv_band v) (if String.eqb (bv_service v) "energy" then k / ui_lf u else k) (bv_ub v) (ui_region u')).
  split; [|split; [repeat split|split; [|reflexivity]]].
  - unfold tie_rows. apply in_map_iff.
    exists ((Obj (bv_id v) (bv_unit v) (bv_service v) (bv_dt v) (bv_band v) (if String.eqb (bv_service v) "energy" then k / ui_lf u else k), v), u').
    split; [reflexivity|]. apply in_merge. cbn [fst ob_unit]. rewrite U1', String.eqb_refl. split; [|auto].
    apply in_merge. cbn [ob_var]. rewrite Nat.eqb_refl. split; [|auto]. apply filter_In. cbn [ob_service]. split; [|now rewrite Es].
    rewrite Ep. unfold scale_by_loss_factors. apply in_map_iff.
    exists (Obj (bv_id v) (bv_unit v) (bv_service v) (bv_dt v) (bv_band v) k, u). split; [reflexivity|].
    apply in_merge. cbn [ob_unit ob_dt]. rewrite U1, U2, !String.eqb_refl. split; [|auto].
    unfold objective_bids. apply in_map_iff. exists (v, (br, bv_band v, br_val br (bv_band v))). split; [reflexivity|].
    apply in_merge. rewrite B1, B2, B3, Es, !String.eqb_refl. split; [now rewrite <- Ev|]. split; [|reflexivity]. apply in_stack. auto.
  - cbn [ti_cost]. rewrite Eq. unfold k. rewrite Es. change (String.eqb "energy" "energy") with true. unfold mw_cost. change (String.eqb "energy" "energy") with true.
    destruct (String.eqb (bv_dt v) "load"); cbn [andb]; [|reflexivity]. unfold Qdiv. ring.
Qed.

(** ** Pairs *)

Lemma row_label a b v w : row_of a v -> row_of b w -> tie_name a b = label v w.
Proof. intros [_ [A [_ [B _]]]] [_ [C [_ [D _]]]]. unfold tie_name, label. now rewrite A, B, C, D. Qed.

Lemma pair_tied c tv tp m a b prices vs : priced c tv tp m -> m_obj_bids m = Some prices -> m_bids m = Some vs ->
  In (a, b) (tie_pairs (tie_rows prices vs (c_ui c))) -> exists v w, row_of a v /\ row_of b w /\ tied c tp m v w.
Proof.
  intros P Eo Eb H. apply drop_duplicates_incl in H. apply filter_In in H. destruct H as [H Nu]. cbn [fst snd] in Nu.
  apply negb_true_iff, String.eqb_neq in Nu. apply in_merge in H. destruct H as [Ha [Hb E]]. rewrite !andb_true_iff, !String.eqb_eq in E.
  destruct E as [[E1 E2] E3]. apply Qeq_bool_iff in E1.
  destruct (tie_row_offer c tv tp m a prices vs P Eo Eb Ha) as [v [Rv Ov]]. destruct (tie_row_offer c tv tp m b prices vs P Eo Eb Hb) as [w [Rw Ow]].
  exists v, w. split; [exact Rv|]. split; [exact Rw|].
  destruct Rv as [_ [A1 [A2 _]]], Rw as [_ [B1 [B2 _]]]. split; [congruence|]. split; [congruence|].
  exists (ti_cost a), (ti_region a). split; [exact Ov|]. rewrite E2. destruct Ow as [O1 [O2 [[p [u [O3 [O4 [O5 [O6 O7]]]]]] O8]]].
  split; [exact O1|]. split; [exact O2|]. split; [|exact O8]. exists p, u. repeat split; auto. now rewrite E1.
Qed.

Lemma tied_pair c tv tp m v w prices vs : priced c tv tp m -> m_obj_bids m = Some prices -> m_bids m = Some vs ->
  tied c tp m v w -> exists a b, In (a, b) (tie_pairs (tie_rows prices vs (c_ui c))) /\ tie_name a b = label v w.
Proof.
  intros P Eo Eb [Nu [Ed [q [r [Ov Ow]]]]].
  destruct (offer_tie_row c tv tp m v q r prices vs P Eo Eb Ov) as [a [Ha [Ra [Ca Ga]]]].
  destruct (offer_tie_row c tv tp m w q r prices vs P Eo Eb Ow) as [b [Hb [Rb [Cb Gb]]]].
  destruct (drop_duplicates_repr (fun p q => String.eqb (tie_name (fst p) (snd p)) (tie_name (fst q) (snd q)))
    (filter (fun p => negb (String.eqb (ti_unit (fst p)) (ti_unit (snd p))))
       (merge (fun a b => Qeq_bool (ti_cost a) (ti_cost b) && String.eqb (ti_region a) (ti_region b) && String.eqb (ti_dt a) (ti_dt b))
          (tie_rows prices vs (c_ui c)) (tie_rows prices vs (c_ui c)))) (a, b)) as [[a' b'] [H E]].
  - intros x y E z E2. apply String.eqb_eq in E, E2. apply String.eqb_eq. congruence.
  - intros x. apply String.eqb_refl.
  - intros x y E. apply String.eqb_eq in E. apply String.eqb_eq. congruence.
  - apply filter_In. cbn [fst snd]. pose proof Ra as [_ [A1 [A2 _]]]. pose proof Rb as [_ [B1 [B2 _]]]. split.
    + apply in_merge. split; [exact Ha|]. split; [exact Hb|]. rewrite !andb_true_iff, !String.eqb_eq. repeat split; try congruence.
      apply Qeq_bool_iff. now rewrite Ca, Cb.
    + apply negb_true_iff, String.eqb_neq. congruence.
  - exists a', b'. split; [exact H|]. cbn [fst snd] in E. apply String.eqb_eq in E. rewrite E. now apply row_label.
Qed.

(** ** The group *)

Lemma choose {A B} (R : A -> B -> Prop) l : (forall a, In a l -> exists b, R a b) -> exists l', Forall2 R l l'.
Proof.
  induction l as [|a t IH]; intros H; [exists []; constructor|].
  destruct (H a (or_introl eq_refl)) as [b Hb]. destruct IH as [l' Hl]; [intros; apply H; now right|]. exists (b :: l'). now constructor.
Qed.

Lemma save_index_rel {A B} (R : A -> B -> Prop) l l' : Forall2 R l l' -> forall n i b, In (i, b) (save_index n l') ->
  exists a, In (i, a) (save_index n l) /\ R a b.
Proof.
  induction 1 as [|a b l l' H F IH]; intros n i b' Hin; [rewrite save_index_nil in Hin; destruct Hin|].
  rewrite save_index_cons in *. destruct Hin as [E|Hin].
  - injection E as <- <-. exists a. split; [now left|exact H].
  - destruct (IH _ _ _ Hin) as [a' [H1 H2]]. exists a'. split; [now right|exact H2].
Qed.
Lemma save_index_rel' {A B} (R : A -> B -> Prop) l l' : Forall2 R l l' -> forall n i a, In (i, a) (save_index n l) ->
  exists b, In (i, b) (save_index n l') /\ R a b.
Proof.
  induction 1 as [|a b l l' H F IH]; intros n i a' Hin; [rewrite save_index_nil in Hin; destruct Hin|].
  rewrite save_index_cons in *. destruct Hin as [E|Hin].
  - injection E as <- <-. exists b. split; [now left|exact H].
  - destruct (IH _ _ _ Hin) as [b' [H1 H2]]. exists b'. split; [now right|exact H2].
Qed.

Lemma Forall2_length {A B} (R : A -> B -> Prop) l l' : Forall2 R l l' -> length l = length l'.
Proof. induction 1; cbn; congruence. Qed.

Lemma add_deficits_rhs k rows m : m_rhs (fst (add_deficits k rows m)) = m_rhs m /\ m_mrhs (fst (add_deficits k rows m)) = m_mrhs m.
Proof. unfold add_deficits. destruct rows; [auto|]. destruct (next_id _); auto. Qed.

Lemma tie_break_inv c k tv tp m' m : priced c tv tp m' -> in_force_at c (OpTieBreak k) m' m ->
  owned m /\ exists prices vs n q, let pairs := tie_pairs (tie_rows prices vs (c_ui c)) in
    m_obj_bids m' = Some prices /\ m_bids m' = Some vs /\ pairs <> [] /\ k = VNum q
    /\ dget "tie_break" (m_rhs m) = Some (tie_rhs pairs n) /\ dget "tie_break" (m_lhs m) = Some (tie_lhs pairs n)
    /\ dget "tie_break" (m_mrhs m) = None /\ elastic_state "tie_break" k m /\ unit_only m.
Proof.
  intros P I. pose proof I as I0. apply in_force_at_inv in I0. destruct I0 as [O [C [O' [C' _]]]]. split; [exact O|].
  destruct I as [m0 [pre [post [H1 [H2 [H3 [H4 [H5 H6]]]]]]]].
  assert (R' : reached c m').
  { exists m0, pre. unfold sane in H2. apply along_app in H2. destruct H2 as [S1 _]. auto. }
  assert (R : reached c m) by (exists m0, (pre ++ OpTieBreak k :: post); auto).
  destruct (step (OpTieBreak k) m') as [m1 e] eqn:St. cbn in H4. subst e.
  assert (Em : m = run post m1) by (rewrite H6, run_app, run_cons, <- H3, St; reflexivity).
  assert (L : leaves "tie_break" post) by (apply H5; now left).
  assert (Es : elastic_state "tie_break" k m).
  { rewrite Em. eapply elastic_state_same; [apply run_same_def; exact L|].
    apply (step_elastic_state c (OpTieBreak k) "tie_break" k m' m1 R'); auto; [now left|intros; discriminate]. }
  pose proof (run_same_group "tie_break" post m1 L) as [G1 [G2 _]]. pose proof (run_same_tie post m1 L) as G3. unfold same_tie in G3.
  rewrite <- Em in G1, G2, G3. cbn [step] in St. unfold set_tie_break in St. rewrite C' in St.
  destruct (m_obj_bids m') as [prices|] eqn:Eo; [|discriminate]. destruct (m_bids m') as [vs|] eqn:Eb; [|discriminate].
  destruct (tie_pairs (tie_rows prices vs (c_ui c))) as [|q qs] eqn:Ep; [discriminate|].
  destruct O' as [W' [f [n O']]]. rewrite (ow_nc _ _ _ O') in St.
  exists prices, vs, n. cbv zeta. rewrite Ep.
  set (m2 := set_m_nc _ _) in St.
  assert (M : dget "tie_break" (m_mrhs m2) = None).
  { change (m_mrhs m2) with (m_mrhs m'). destruct (dget "tie_break" (m_mrhs m')) eqn:D; [|reflexivity].
    pose proof (reached_keyed c m' R') as Kd. apply (ky_reg _ Kd) in D. cbn in D. intuition discriminate. }
  assert (R2 : dget "tie_break" (m_rhs m2) = Some (tie_rhs (q :: qs) n)) by apply dget_dset_same.
  assert (L2 : dget "tie_break" (m_lhs m2) = Some (tie_lhs (q :: qs) n)) by apply dget_dset_same.
  pose proof (make_elastic_tie "tie_break" k m2) as T. rewrite St in T. cbn [fst] in T. unfold same_tie in T.
  assert (RM : m_rhs m1 = m_rhs m2 /\ m_mrhs m1 = m_mrhs m2 /\ exists q, k = VNum q).
  { unfold make_elastic, group_rows in St. rewrite M, R2 in St. destruct k as [q0|t|].
    - pose proof (add_deficits_rhs "tie_break" (map (fun r => (r, q0)) (tie_rhs (q :: qs) n)) m2) as [X Y].
      rewrite St in X, Y. split; [exact X|]. split; [exact Y|]. now exists q0.
    - apply guard_ok in St. destruct St as [_ St]. cbn in St. discriminate.
    - cbn in St. discriminate. }
  destruct RM as [RM1 [RM2 [q0 ->]]]. exists q0. split; [reflexivity|]. split; [reflexivity|]. split; [congruence|]. split; [reflexivity|].
  split; [congruence|]. split; [congruence|]. split; [congruence|]. split; [exact Es|]. now apply (reached_unit_only c).
Qed.

(** ** The value of a row *)

Lemma tie_value pairs n x i a b : In (i, (a, b)) (save_index n pairs) ->
  row_value (tie_lhs pairs n) x i == x (ti_var a) / ti_ub a - x (ti_var b) / ti_ub b.
Proof.
  intros H. assert (U : forall p, In p (save_index n pairs) -> Nat.eqb (fst p) i = true -> p = (i, (a, b))).
  { intros p Hp E. apply Nat.eqb_eq in E. apply (NoDup_map_inj fst (save_index n pairs)); auto. rewrite save_index_fst. apply seq_NoDup. }
  assert (V : forall f : nat * (tie_row * tie_row) -> lrow, (forall p, l_con (f p) = fst p) ->
    row_value (map f (save_index n pairs)) x i == l_coef (f (i, (a, b))) * x (l_var (f (i, (a, b))))).
  { intros f Hf. unfold row_value. rewrite sumQ_filter, sumQ_map.
    rewrite <- (sumQ_pick (fun p => l_coef (f p) * x (l_var (f p))) (fun p => Nat.eqb (fst p) i) (i, (a, b)) (save_index n pairs));
      [|exact H|apply Nat.eqb_refl|exact U|apply save_index_NoDup].
    apply sumQ_ext. intros p. now rewrite Hf. }
  unfold tie_lhs. rewrite row_value_app.
  rewrite (V (fun p => let '(i, (a, _)) := p in LRow i (ti_var a) (1 / ti_ub a))) by (intros [? [? ?]]; reflexivity).
  rewrite (V (fun p => let '(i, (_, b)) := p in LRow i (ti_var b) (-(1) / ti_ub b))) by (intros [? [? ?]]; reflexivity).
  cbn [l_coef l_var]. unfold Qdiv. ring.
Qed.

Lemma row_value_concat (d : dict (list lrow)) k l x i : NoDup (dkeys d) -> dget k d = Some l ->
  (forall k' l' r, In (k', l') d -> k' <> k -> In r l' -> l_con r = i -> x (l_var r) == 0) ->
  row_value (dconcat d) x i == row_value l x i.
Proof.
  assert (Z : forall d : dict (list lrow), (forall k' l' r, In (k', l') d -> In r l' -> l_con r = i -> x (l_var r) == 0) ->
    row_value (dconcat d) x i == 0).
  { clear d. intros d H. unfold row_value. apply sumQ_zero. intros r Hr. apply filter_In in Hr. destruct Hr as [Hr E]. apply Nat.eqb_eq in E.
    apply in_dconcat in Hr. destruct Hr as [k' [l' [H1 H2]]]. rewrite (H k' l' r); auto. ring. }
  unfold dkeys. induction d as [|[k1 l1] t IH]; intros ND G H; [discriminate|]. cbn [map fst] in ND. inversion ND as [|? ? N1 N2]; subst.
  change (dconcat ((k1, l1) :: t)) with (l1 ++ dconcat t). rewrite row_value_app. cbn [dget] in G.
  destruct (String.eqb k k1) eqn:E.
  - apply String.eqb_eq in E. subst k1. inversion G; subst l1. rewrite Z; [ring|].
    intros k' l' r H1 H2 H3. apply (H k' l' r); [now right| |auto|auto]. intros ->. apply N1. now apply (in_map fst) in H1.
  - apply String.eqb_neq in E. rewrite IH; auto.
    + assert (row_value l1 x i == 0) as ->; [|ring]. unfold row_value. apply sumQ_zero. intros r Hr. apply filter_In in Hr.
      destruct Hr as [Hr E2]. apply Nat.eqb_eq in E2. rewrite (H k1 l1 r); auto; [ring|now left].
    + intros k' l' r H1. apply H. now right.
Qed.

Lemma in_deficit_lhs l n r : In r (deficit_lhs l n) -> In (l_var r) (map df_id (deficit_variables l n)).
Proof.
  unfold deficit_lhs, deficit_variables. rewrite map_map. intros H. apply in_map_iff in H. destruct H as [[[i [c q]] k] [<- H]].
  apply in_map_iff. exists (i, (c, q), k). auto.
Qed.

Lemma tie_row_value f n0 m pairs n q x i a b : own f n0 m -> unit_only m ->
  dget "tie_break" (m_rhs m) = Some (tie_rhs pairs n) -> dget "tie_break" (m_lhs m) = Some (tie_lhs pairs n) ->
  dget "tie_break" (m_mrhs m) = None -> elastic_state "tie_break" (VNum q) m -> no_violation m "tie_break" x ->
  In (i, (a, b)) (save_index n pairs) ->
  row_value (all_lhs m) x i == x (ti_var a) / ti_ub a - x (ti_var b) / ti_ub b.
Proof.
  intros O Uo Hr Hl Hm Es Nv H. rewrite <- (tie_value pairs n x i a b H).
  assert (Fr : f i = GRhs "tie_break").
  { apply dget_in in Hr. apply (ow_rhs _ _ _ O _ _ (CRow i "=" 0 KNone) Hr). unfold tie_rhs. apply in_map_iff. exists (i, (a, b)). auto. }
  unfold all_lhs. rewrite !row_value_app.
  rewrite (row_value_none (generic_lhs m)).
  2:{ intros l Hg E. apply (own_generic f n0) in Hg; auto. rewrite E, Fr in Hg. destruct Hg as [Hg|Hg]; inversion Hg. }
  rewrite (regional_part_none f n0 m "tie_break") by auto.
  rewrite (row_value_none (unit_lhs _ _)).
  2:{ intros l Hu E. apply in_unit_lhs in Hu. destruct Hu as [c [v [H1 [_ [_ [_ [_ ->]]]]]]]. cbn in E. subst i. apply in_dconcat in H1.
      destruct H1 as [k' [cs [H1 H2]]]. destruct (ow_unit _ _ _ O _ _ _ H1 H2) as [E _]. rewrite Fr in E. inversion E; subst k'.
      apply Uo in H1. apply unit_key_ok in H1. destruct H1 as [H1 _]. congruence. }
  rewrite (row_value_concat (m_lhs m) "tie_break" (tie_lhs pairs n)); [ring|apply (ow_keys _ _ _ O)|exact Hl|].
  intros k' l' r H1 N Hr' Ei. destruct (ow_lhs _ _ _ O _ _ _ H1 Hr') as [Ow _]. rewrite Ei, Fr in Ow.
  destruct Ow as [[k2 [E1 E2]]|[[E1 E2]|[E1 E2]]]; [|congruence|destruct E2 as [E2|E2]; inversion E2].
  assert (k2 = "tie_break") by (destruct E2 as [E2|E2]; inversion E2; auto). subst k2 k'.
  apply in_dget in H1; [|apply (ow_keys _ _ _ O)].
  destruct (Es (tie_rhs pairs n)) as [Z|[n1 [A1 [A2 _]]]].
  - unfold group. now rewrite Hm.
  - exfalso. cbn in Z. apply map_eq_nil in Z. unfold tie_rhs in Z. apply map_eq_nil in Z. rewrite Z in H. destruct H.
  - apply Nv. unfold violation_vars. change ("tie_break" ++ "_deficit")%string with (deficit_key "tie_break"). rewrite A2. cbn [rows_or_nil].
    apply in_deficit_lhs. rewrite A1 in H1. inversion H1. now subst l'.
Qed.

Lemma row_present m p r l : wf m -> assemble m = Ok p -> In r (all_rhs m) -> In l (all_lhs m) -> l_con l = r_id r ->
  exists con, In con (p_cons p) /\ pc_id con = r_id r.
Proof.
  intros W H Hr Hl E. apply assemble_parts in H. destruct H as [_ [_ [_ [_ [A _]]]]].
  unfold add_constraints in A. destruct (no_rhs_tables m) eqn:E0.
  - exfalso. apply no_rhs_tables_nil in E0. rewrite E0 in Hr. destruct Hr.
  - assert (B : build_cons (all_vars m) (all_rhs m) (all_lhs m) (con_ids (all_lhs m)) = Ok (p_cons p)).
    { destruct (all_lhs m); [discriminate|exact A]. }
    assert (Hi : In (r_id r) (con_ids (all_lhs m))) by (apply con_ids_in; eauto).
    destruct (build_cons_all _ _ _ _ _ B _ Hi) as [c Hc]. exists c. split; [apply (build_cons_in _ _ _ _ _ B); eauto|].
    unfold build_con in Hc. destruct (forallb _ _); [|discriminate]. destruct (find_rhs _ _); [|discriminate].
    destruct (mem_str _ _); [|discriminate]. inversion Hc. reflexivity.
Qed.

Theorem tie_break_pairs c k tv tp m' m : priced c tv tp m' -> in_force_at c (OpTieBreak k) m' m ->
  exists pairs, tie_list c tp m' m pairs.
Proof.
  intros P I. destruct (tie_break_inv c k tv tp m' m P I) as [Ow [prices [vs [n [q [Eo [Eb [Ne [-> [Hr [Hl [Hm [Es Uo]]]]]]]]]]]]].
  set (tps := tie_pairs (tie_rows prices vs (c_ui c))) in *.
  destruct (choose (fun (ab : tie_row * tie_row) (vw : bidvar * bidvar) => row_of (fst ab) (fst vw) /\ row_of (snd ab) (snd vw) /\ tied c tp m' (fst vw) (snd vw)) tps)
    as [l' F].
  { intros [a b] H. destruct (pair_tied c tv tp m' a b prices vs P Eo Eb H) as [v [w [A [B T]]]]. exists (v, w). auto. }
  pose proof (Forall2_length _ _ _ F) as Len.
  exists (save_index n l'). split; [|split; [|split; [|split]]].
  - eexists. split; [exact Hr|]. unfold tie_rhs. rewrite map_map. cbn [cr_id]. rewrite !save_index_fst. now rewrite Len.
  - rewrite save_index_fst. apply seq_NoDup.
  - assert (E : map (fun p : nat * (bidvar * bidvar) => label (fst (snd p)) (snd (snd p))) (save_index n l')
              = map (fun ab => tie_name (fst ab) (snd ab)) tps).
    { transitivity (map (fun p => label (fst p) (snd p)) l').
      - rewrite <- (save_index_snd n l') at 2. rewrite map_map. reflexivity.
      - clear - F. induction F as [|[a b] [v w] t t' [A [B _]] F IH]; [reflexivity|]. cbn [map fst snd] in *. rewrite IH. f_equal. symmetry. now apply row_label. }
    rewrite E. apply FOP_NoDup_map. eapply FOP_impl; [|apply drop_duplicates_distinct]. cbn. intros x y H E2.
    rewrite E2, String.eqb_refl in H. discriminate.
  - intros i v w H. destruct (save_index_rel _ _ _ F n i (v, w) H) as [[a b] [H1 [A [B T]]]]. cbn [fst snd] in *. split; [exact T|].
    intros Pv Pw p Ap. destruct Ow as [W [f [n0 O]]].
    assert (Hrow : In (RRow i "=" (RNum 0)) (all_rhs m)).
    { apply (in_all_rhs_unit m "tie_break" _ (CRow i "=" 0 KNone) Hr). unfold tie_rhs. apply in_map_iff. exists (i, (a, b)). auto. }
    destruct (row_present m p (RRow i "=" (RNum 0)) (LRow i (ti_var a) (1 / ti_ub a)) W Ap Hrow) as [con [Hc Ei]].
    { unfold all_lhs. apply in_or_app. left. apply in_dconcat. exists "tie_break", (tie_lhs tps n). split; [now apply dget_in|].
      unfold tie_lhs. apply in_or_app. left. apply in_map_iff. exists (i, (a, b)). auto. }
    { reflexivity. }
    exists con. split; [exact Hc|]. split; [exact Ei|]. intros x Nv.
    rewrite (con_row m p x con _ W Ap Hc Hrow Ei). cbn [r_type r_id r_rhs rhs_value]. unfold relation.
    rewrite (tie_row_value f n0 m tps n q x i a b O Uo Hr Hl Hm Es Nv H1).
    destruct A as [A1 [_ [_ [_ A2]]]], B as [B1 [_ [_ [_ B2]]]]. rewrite A1, A2, B1, B2.
    change (String.eqb "=" "<=") with false. change (String.eqb "=" ">=") with false. change (String.eqb "=" "=") with true.
    split; intros Z; [destruct Z as [[Z _]|[[Z _]|[_ Z]]]; try discriminate|right; right; split; [reflexivity|]]; lra.
  - intros v w T. destruct (tied_pair c tv tp m' v w prices vs P Eo Eb T) as [a [b [H E]]].
    destruct (save_index_in n tps (a, b) H) as [i Hi]. destruct (save_index_rel' _ _ _ F n i (a, b) Hi) as [[v' w'] [H1 [A [B _]]]].
    exists i, v', w'. split; [exact H1|]. rewrite <- E. symmetry. now apply row_label.
Qed.

(** ** The label does not depend on the order of the bids *)

Lemma ascii_trans a b d : Ascii.compare a b = Lt -> Ascii.compare b d = Lt -> Ascii.compare a d = Lt.
Proof. unfold Ascii.compare. rewrite !N.compare_lt_iff. lia. Qed.

Lemma string_trans a : forall b d, String.compare a b = Lt -> String.compare b d = Lt -> String.compare a d = Lt.
Proof.
  induction a as [|x a IH]; intros [|y b] [|z d]; cbn; intros H1 H2; try discriminate; auto.
  destruct (Ascii.compare x y) eqn:E1; try discriminate.
  - apply Ascii.compare_eq_iff in E1. subst y. destruct (Ascii.compare x z); try discriminate; auto. now apply (IH b).
  - destruct (Ascii.compare y z) eqn:E2; try discriminate.
    + apply Ascii.compare_eq_iff in E2. subst z. now rewrite E1.
    + now rewrite (ascii_trans _ _ _ E1 E2).
Qed.

Lemma leb_le a b : String.leb a b = true <-> String.compare a b = Lt \/ a = b.
Proof.
  unfold String.leb. split.
  - destruct (String.compare a b) eqn:E; try discriminate; auto. apply String.compare_eq_iff in E. auto.
  - intros [-> | ->]; [reflexivity|]. destruct (String.compare b b) eqn:E; auto.
    pose proof (String.compare_antisym b b) as A. rewrite E in A. discriminate.
Qed.

Lemma leb_trans a b d : String.leb a b = true -> String.leb b d = true -> String.leb a d = true.
Proof.
  rewrite !leb_le. intros [H1| ->] [H2| ->]; auto. left. now apply (string_trans a b).
Qed.

Lemma insert_comm a b l : insert_sorted String.leb a (insert_sorted String.leb b l) = insert_sorted String.leb b (insert_sorted String.leb a l).
Proof.
  assert (T : forall x y, String.leb x y = false -> String.leb y x = true) by (intros x y E; destruct (String.leb_total x y); congruence).
  assert (A : forall x y, String.leb x y = true -> String.leb y x = true -> x = y) by (intros; now apply String.leb_antisym).
  induction l as [|d t IH]; cbn [insert_sorted].
  - destruct (String.leb a b) eqn:E1, (String.leb b a) eqn:E2; auto; try (rewrite (A a b) by auto; reflexivity).
  - destruct (String.leb b d) eqn:Eb, (String.leb a d) eqn:Ea; cbn [insert_sorted]; rewrite ?Ea, ?Eb.
    + destruct (String.leb a b) eqn:E1, (String.leb b a) eqn:E2; auto; try (rewrite (A a b) by auto; reflexivity).
    + assert (E : String.leb a b = false).
      { destruct (String.leb a b) eqn:E; auto. rewrite (leb_trans a b d) in Ea by auto. discriminate. }
      now rewrite E.
    + assert (E : String.leb b a = false).
      { destruct (String.leb b a) eqn:E; auto. rewrite (leb_trans b a d) in Eb by auto. discriminate. }
      now rewrite E.
    + now rewrite IH.
Qed.

Lemma label_sym v w : label v w = label w v.
Proof.
  unfold label. f_equal. unfold sort_rows. cbn [fold_right].
  rewrite (insert_comm (bv_band v)). rewrite (insert_comm (bv_unit v)).
  rewrite (insert_comm (bv_band v)). now rewrite (insert_comm (bv_unit v)).
Qed.

Theorem tie_break_each c k tv tp m' m : priced c tv tp m' -> in_force_at c (OpTieBreak k) m' m -> clear_labels c tp m' ->
  exists pairs, tie_list c tp m' m pairs /\ forall v w, tied c tp m' v w -> exists! i, In (i, (v, w)) pairs \/ In (i, (w, v)) pairs.
Proof.
  intros P I Cl. destruct (tie_break_pairs c k tv tp m' m P I) as [pairs T]. exists pairs. split; [exact T|].
  destruct T as [_ [N1 [N2 [T1 T2]]]]. intros v w Tvw. destruct (T2 v w Tvw) as [i [v' [w' [H E]]]].
  destruct (T1 _ _ _ H) as [T' _].
  exists i. split.
  - destruct (Cl v' w' v w T' Tvw E) as [X|X]; injection X as -> ->; auto.
  - intros j Hj. assert (X : exists a b, In (j, (a, b)) pairs /\ label a b = label v w).
    { destruct Hj as [Hj|Hj]; [exists v, w; auto|exists w, v; split; [exact Hj|apply label_sym]]. }
    destruct X as [a [b [Hj' E']]].
    assert (Y : (i, (v', w')) = (j, (a, b))).
    { apply (NoDup_map_inj (fun p => label (fst (snd p)) (snd (snd p))) pairs); auto. cbn [fst snd]. congruence. }
    congruence.
Qed.
