(** Regions of bid variables, the objective as a sum over bids, and the exchange
    argument: at an optimum no band is dispatched while a cheaper one that could
    replace it has volume left. *)

From Coq Require Import QArith Qminmax Lqa String List Bool Arith Lia ZArith Permutation.
Import ListNotations.
From Verif Require Import PandasModel TablesModel VariableIdsModel MarketConstraintsModel
  UnitConstraintsModel RampModel FcasModel InterModel ElasticModel MarketModel SolverModel
  SpecLp PandasFacts SpecHistory SpecIds SpecDispatch SpecPrices StepFacts InvariantFacts OwnerFacts SolverFacts
  MeaningFacts LimitFacts TableFacts BidFacts BalanceFacts DeficitFacts ElasticFacts ElasticTheoremFacts PriceStateFacts PriceFacts.
Open Scope string_scope.
Open Scope list_scope.

(** ** Rows of one variable in the maps *)

Lemma regional_of vs ui i : filter (fun v => Nat.eqb (rv_id v) i) (bid_regional_map vs ui)
  = bid_regional_map (filter (fun v => Nat.eqb (bv_id v) i) vs) ui.
Proof.
  unfold bid_regional_map, bid_constraint_map. rewrite filter_map.
  rewrite (filter_ext_in _ (fun q => Nat.eqb (bv_id (fst q)) i)) by (intros [v ?] _; reflexivity).
  now rewrite (filter_merge_fst (fun v => Nat.eqb (bv_id v) i)).
Qed.

Lemma unit_of vs ui bdu i : filter (fun v => Nat.eqb (uv_id v) i) (bid_unit_map vs ui bdu)
  = bid_unit_map (filter (fun v => Nat.eqb (bv_id v) i) vs) ui bdu.
Proof.
  unfold bid_unit_map, bid_constraint_map. rewrite filter_map.
  rewrite (filter_ext_in _ (fun q => Nat.eqb (bv_id (fst q)) i)) by (intros [v ?] _; reflexivity).
  now rewrite (filter_merge_fst (fun v => Nat.eqb (bv_id v) i)).
Qed.

Definition region_sign (s d : string) : Q := if String.eqb d "load" && String.eqb s "energy" then -(1) else 1.

Lemma regional_rows m v ui : wf m -> In v (rows_or_nil (m_bids m)) -> In ui (c_ui (m_cfg m)) ->
  ui_unit ui = bv_unit v -> ui_dt ui = bv_dt v ->
  filter (fun r => Nat.eqb (rv_id r) (bv_id v)) (rows_or_nil (m_reg_bids m))
  = [RV (bv_id v) (ui_region ui) (bv_service v) (region_sign (bv_service v) (bv_dt v))].
Proof.
  intros W Hv Hu U1 U2. destruct (bids_tables m W) as [vs [E1 [E2 _]]].
  rewrite E2, regional_of, <- E1, (bid_by_id m v W Hv). unfold bid_regional_map, bid_constraint_map. rewrite merge_one.
  destruct (ui_unique (m_cfg m) (bv_unit v) (bv_dt v) (wf_cfg m W)) as [u' [_ [_ [_ V3]]]]; [now exists ui|].
  rewrite V3. cbn [map].
  assert (In ui [u']) as [X|[]] by (rewrite <- V3; apply filter_In; split; [auto|now rewrite U1, U2, !String.eqb_refl]).
  now subst u'.
Qed.

Lemma unit_rows m v ui : wf m -> In v (rows_or_nil (m_bids m)) -> In ui (c_ui (m_cfg m)) ->
  ui_unit ui = bv_unit v -> ui_dt ui = bv_dt v ->
  filter (fun r => Nat.eqb (uv_id r) (bv_id v)) (rows_or_nil (m_unit_bids m))
  = [UV (bv_id v) (bv_unit v) (bv_service v) (bv_dt v) (load_sign m (bv_unit v) (bv_service v) (bv_dt v))].
Proof.
  intros W Hv Hu U1 U2. destruct (bids_tables m W) as [vs [E1 [_ E2]]].
  rewrite E2, unit_of, <- E1, (bid_by_id m v W Hv). unfold bid_unit_map, bid_constraint_map. rewrite merge_one.
  destruct (ui_unique (m_cfg m) (bv_unit v) (bv_dt v) (wf_cfg m W)) as [u' [_ [_ [_ V3]]]]; [now exists ui|].
  rewrite V3. reflexivity.
Qed.

Lemma reg_loss_loss m r : tidy m -> In r (rows_or_nil (m_reg_loss m)) -> exists l, In l (rows_or_nil (m_loss m)) /\ lv_id l = rv_id r.
Proof.
  intros T H. pose proof (td_loss m T (rv_id r) (in_map _ _ _ H)) as X. apply in_map_iff in X. destruct X as [l [E X]]. eauto.
Qed.

Lemma reg_inter_inter m r : wf m -> In r (rows_or_nil (m_reg_inter m)) -> exists l, In l (rows_or_nil (m_inter m)) /\ iv_id l = rv_id (ir_rv r).
Proof.
  intros W H. pose proof (wf_inter m W) as X. unfold inter_wf in X. destruct (m_directions m) as [l|].
  - destruct X as [_ [n [E1 E2]]]. rewrite E1. rewrite E2 in H. cbn [rows_or_nil] in *. unfold inter_regional_map in H. apply in_app_or in H.
    destruct H as [H|H]; apply in_map_iff in H; destruct H as [[i d] [<- H]];
      (eexists; split; [unfold inter_variables; apply in_map_iff; exists (i, d); split; [reflexivity|exact H]|reflexivity]).
  - destruct X as [E1 E2]. rewrite E2 in H. destruct H.
Qed.

Lemma network_rows_none m v : wf m -> tidy m -> In v (rows_or_nil (m_bids m)) ->
  filter (fun r => Nat.eqb (rv_id r) (bv_id v)) (map ir_rv (rows_or_nil (m_reg_inter m)) ++ rows_or_nil (m_reg_loss m)) = [].
Proof.
  intros W T Hv. destruct (var_ids_parts m W) as [V1 [V2 _]]. apply filter_none. intros r Hr. apply Nat.eqb_neq.
  apply in_app_or in Hr. destruct Hr as [Hr|Hr].
  - apply in_map_iff in Hr. destruct Hr as [ir [<- Hr]]. destruct (reg_inter_inter m ir W Hr) as [l [Hl <-]]. now apply V1.
  - destruct (reg_loss_loss m r T Hr) as [l [Hl <-]]. now apply V2.
Qed.

Lemma place_rows m v ui : wf m -> tidy m -> In v (rows_or_nil (m_bids m)) -> In ui (c_ui (m_cfg m)) ->
  ui_unit ui = bv_unit v -> ui_dt ui = bv_dt v ->
  places m (bv_id v) = [RV (bv_id v) (ui_region ui) (bv_service v) (region_sign (bv_service v) (bv_dt v))].
Proof.
  intros W T Hv Hu U1 U2. unfold places, regional_vars. rewrite filter_app, (network_rows_none m v W T Hv), app_nil_r.
  now apply regional_rows.
Qed.

(** ** The objective *)

Lemma bids_objective c tv tp m p x : priced c tv tp m -> assemble m = Ok p ->
  objective p x == bids_cost c m tp x + violations_cost m x.
Proof.
  intros P A. destruct (priced_inv c tv tp m P) as [R [I [[W O] [C [n [m1 [m2 [Bs [K1 [K2 Ob]]]]]]]]]].
  apply assemble_parts in A. destruct A as [_ [Ao _]]. unfold objective. rewrite Ao, linear_sum. unfold all_costs.
  rewrite sumQ_app, !sumQ_map. cbn [fst snd]. apply Qplus_comp.
  2:{ unfold violations_cost. change (qsum (map ?f ?l)) with (sumQ f l). apply sumQ_ext. intros; ring. }
  rewrite Ob. cbn [rows_or_nil]. unfold scale_by_loss_factors. rewrite sumQ_map, sumQ_merge.
  unfold objective_bids. rewrite sumQ_map, sumQ_merge.
  transitivity (sumQ (fun b => sumQ (fun r => sumQ (fun v =>
     if String.eqb (bv_unit v) (br_unit r) && String.eqb (bv_service v) (br_service r) && String.eqb (bv_dt v) (br_dt r) && String.eqb (bv_band v) b
     then sumQ (fun u => x (bv_id v) * mw_cost (ui_lf u) (br_service r) (br_dt r) (br_val r b))
          (filter (fun u => String.eqb (br_unit r) (ui_unit u) && String.eqb (br_dt r) (ui_dt u)) (c_ui c)) else 0)
     (bid_variables tv n)) (bt_rows tp)) (bt_bands tp)).
  - transitivity (sumQ (fun v => sumQ (fun b => sumQ (fun r =>
     if String.eqb (bv_unit v) (br_unit r) && String.eqb (bv_service v) (br_service r) && String.eqb (bv_dt v) (br_dt r) && String.eqb (bv_band v) b
     then sumQ (fun u => x (bv_id v) * mw_cost (ui_lf u) (br_service r) (br_dt r) (br_val r b))
          (filter (fun u => String.eqb (br_unit r) (ui_unit u) && String.eqb (br_dt r) (ui_dt u)) (c_ui c)) else 0)
     (bt_rows tp)) (bt_bands tp)) (bid_variables tv n)).
    + apply sumQ_ext. intros v. rewrite sumQ_filter. unfold stack_bids. rewrite sumQ_flat_map. apply sumQ_ext. intros b.
      rewrite sumQ_map. apply sumQ_ext. intros r.
      destruct (String.eqb (bv_unit v) (br_unit r) && String.eqb (bv_service v) (br_service r) && String.eqb (bv_dt v) (br_dt r) && String.eqb (bv_band v) b) eqn:E; [|reflexivity].
      rewrite !andb_true_iff, !String.eqb_eq in E. destruct E as [[[E1 E2] E3] E4]. subst b.
      cbn [ob_unit ob_dt ob_var ob_cost ob_service]. rewrite E1, E2, E3. apply sumQ_ext. intros u.
      rewrite <- mw_cost_is. unfold signed. reflexivity.
    + rewrite sumQ_swap. apply sumQ_ext. intros b. rewrite sumQ_swap. reflexivity.
  - unfold bids_cost. change (qsum (map ?f ?l)) with (sumQ f l).
    rewrite sumQ_swap. apply sumQ_ext. intros r. change (qsum (map ?f ?l)) with (sumQ f l). apply sumQ_ext. intros b.
    change (qsum (map ?f ?l)) with (sumQ f l). rewrite <- sumQ_filter, sumQ_swap. apply sumQ_ext. intros u.
    unfold band_dispatch. change (qsum (map ?f ?l)) with (sumQ f l). rewrite Bs. cbn [rows_or_nil]. rewrite <- sumQ_scale.
    rewrite !sumQ_filter. apply sumQ_ext. intros v.
    rewrite (String.eqb_sym (br_unit r)), (String.eqb_sym (br_service r)), (String.eqb_sym (br_dt r)), (String.eqb_sym b).
    destruct (_ && _ && _ && _); ring.
Qed.

(** ** Columns *)

(** The assignment that is one at [i] only. *)
Definition at_one (i : nat) : assignment := fun j => if Nat.eqb j i then 1 else 0.

Lemma sum_at_one {A} (f : A -> Q) (vid : A -> nat) i l :
  sumQ (fun a => f a * at_one i (vid a)) l == sumQ f (filter (fun a => Nat.eqb (vid a) i) l).
Proof.
  rewrite sumQ_filter. apply sumQ_ext. intros a. unfold at_one. destruct (Nat.eqb (vid a) i); ring.
Qed.

Lemma linear_at_one ts i : linear ts (at_one i) == sumQ snd (filter (fun t => Nat.eqb (fst t) i) ts).
Proof. rewrite linear_sum, <- sum_at_one. apply sumQ_ext. intros; ring. Qed.

(** Move [e] from variable [j] to variable [i]. *)
Definition shift (x : assignment) (i j : nat) (e : Q) : assignment := fun k => x k + e * (at_one i k - at_one j k).

Lemma row_value_shift rows x i j e k :
  row_value rows (shift x i j e) k == row_value rows x k + e * (row_value rows (at_one i) k - row_value rows (at_one j) k).
Proof.
  unfold row_value. rewrite <- sumQ_sub, <- sumQ_scale, <- sumQ_plus. apply sumQ_ext. intros l. unfold shift. ring.
Qed.

Lemma linear_shift ts x i j e : linear ts (shift x i j e) == linear ts x + e * (linear ts (at_one i) - linear ts (at_one j)).
Proof.
  rewrite !linear_sum, <- sumQ_sub, <- sumQ_scale, <- sumQ_plus. apply sumQ_ext. intros l. unfold shift. ring.
Qed.

(** ** The exchange argument *)

Lemma bid_pvar m v : In v (rows_or_nil (m_bids m)) -> In (PVar (bv_id v) (bv_lb v) (Some (bv_ub v))) (all_vars m).
Proof. intros H. unfold all_vars. apply in_or_app. left. unfold bid_pvars. apply in_map_iff. eauto. Qed.

Lemma pvar_unique m v w : wf m -> In v (all_vars m) -> In w (all_vars m) -> pv_id v = pv_id w -> v = w.
Proof. intros W. apply (NoDup_map_inj pv_id), wf_vars_NoDup, W. Qed.

Lemma weights_bid m w v : wf m -> In w (rows_or_nil (m_weights m)) -> In v (rows_or_nil (m_bids m)) -> wv_id w <> bv_id v.
Proof.
  intros W Hw Hv E. pose proof (wf_vars_NoDup m W) as ND. unfold all_vars in ND. rewrite map_app in ND.
  apply (NoDup_app_disjoint _ _ (bv_id v) ND).
  - unfold bid_pvars. rewrite map_map. apply in_map_iff. now exists v.
  - rewrite !map_app, !in_app_iff. do 2 right. left. unfold weight_pvars. rewrite map_map. apply in_map_iff. now exists w.
Qed.

Lemma exchange c m p x v w : reached c m -> assemble m = Ok p -> optimal p x ->
  In v (rows_or_nil (m_bids m)) -> In w (rows_or_nil (m_bids m)) -> bv_id v <> bv_id w ->
  (forall k, row_value (all_lhs m) (at_one (bv_id v)) k == row_value (all_lhs m) (at_one (bv_id w)) k) ->
  linear (p_obj p) (at_one (bv_id v)) < linear (p_obj p) (at_one (bv_id w)) ->
  0 < x (bv_id w) -> x (bv_id v) == bv_ub v.
Proof.
  intros R A [F Opt] Hv Hw N Rows Cost Pos.
  destruct (reached_owned c m R) as [[W O] C]. pose proof (reached_dyn c m R) as D.
  pose proof (proj1 (feasible_iff m p x W A) F) as [Fb [Fr [Fs2 Fs1]]].
  pose proof (Fb _ (bid_pvar m v Hv)) as [_ Bv]. cbn [pv_ub pv_id] in Bv.
  destruct (Qlt_le_dec (x (bv_id v)) (bv_ub v)) as [L|L]; [exfalso|now apply Qle_antisym].
  set (i := bv_id v) in *. set (j := bv_id w) in *.
  set (e := Qmin (bv_ub v - x i) (x j)).
  assert (Pe : 0 < e) by (unfold e; apply Q.min_glb_lt; lra).
  assert (E1 : e <= bv_ub v - x i) by (unfold e; apply Q.le_min_l).
  assert (E2 : e <= x j) by (unfold e; apply Q.le_min_r).
  assert (Vi : shift x i j e i == x i + e).
  { unfold shift, at_one. rewrite Nat.eqb_refl, (proj2 (Nat.eqb_neq i j) N). ring. }
  assert (Vj : shift x i j e j == x j - e).
  { unfold shift, at_one. rewrite Nat.eqb_refl, (proj2 (Nat.eqb_neq j i)) by congruence. ring. }
  assert (Vo : forall k, k <> i -> k <> j -> shift x i j e k == x k).
  { intros k K1 K2. unfold shift, at_one. rewrite (proj2 (Nat.eqb_neq k i) K1), (proj2 (Nat.eqb_neq k j) K2). ring. }
  assert (Vb : forall k, (forall b, In b (rows_or_nil (m_bids m)) -> k <> bv_id b) -> shift x i j e k == x k).
  { intros k K. apply Vo; apply K; assumption. }
  assert (F' : feasible p (shift x i j e)).
  { apply (feasible_iff m p _ W A). split; [|split; [|split]].
    - intros q Hq. specialize (Fb q Hq). destruct (Nat.eq_dec (pv_id q) i) as [Ei|Ni].
      + assert (X : q = PVar i (bv_lb v) (Some (bv_ub v))) by (apply (pvar_unique m); auto; now apply bid_pvar).
        subst q. destruct Fb as [B1 B2]. cbn [pv_lb pv_id pv_ub] in *. split; cbn [pv_lb pv_id pv_ub]; rewrite Vi; lra.
      + destruct (Nat.eq_dec (pv_id q) j) as [Ej|Nj].
        * assert (X : q = PVar j (bv_lb w) (Some (bv_ub w))) by (apply (pvar_unique m); auto; now apply bid_pvar).
          subst q. destruct Fb as [B1 B2]. cbn [pv_lb pv_id pv_ub] in *. pose proof (reached_bids c m w R Hw) as Lb.
          split; cbn [pv_lb pv_id pv_ub]; rewrite Vj; [rewrite Lb; lra|lra].
        * destruct Fb as [B1 B2]. split; [now rewrite (Vo _ Ni Nj)|]. destruct (pv_ub q); [|exact I]. now rewrite (Vo _ Ni Nj).
    - intros r Hr Hl. specialize (Fr r Hr Hl). refine (relation_same _ _ _ _ _ _ _ Fr).
      + rewrite row_value_shift, Rows. ring.
      + destruct (r_rhs r) as [q|k] eqn:Er; [reflexivity|]. cbn [rhs_value]. apply Vb. intros b Hb.
        unfold all_rhs in Hr. rewrite !in_app_iff in Hr. unfold static_rrows, dyn_rrows in Hr. rewrite !in_map_iff in Hr.
        destruct Hr as [[y [<- _]]|[[y [<- _]]|[y [<- Hy]]]]; try discriminate. cbn in Er. inversion Er; subst k.
        now apply D.
    - intros s Hs. apply (sos2_ext x); [|auto]. intros k Hk. symmetry. apply Vb. intros b Hb.
      unfold sos2_sets in Hs. apply in_map_iff in Hs. destruct Hs as [key [<- _]].
      apply in_map_iff in Hk. destruct Hk as [y [<- Hk]]. apply sort_rows_in in Hk. apply filter_In in Hk. destruct Hk as [Hk _].
      now apply (weights_bid m).
    - intros s Hs. apply (sos1_ext x); [|auto]. intros k Hk. symmetry. apply Vb. intros b Hb.
      unfold sos1_sets in Hs. apply in_map_iff in Hs. destruct Hs as [key [<- _]].
      apply in_map_iff in Hk. destruct Hk as [y [<- Hk]]. apply filter_In in Hk. destruct Hk as [Hk _].
      apply filter_In in Hk. destruct Hk as [Hk _]. now apply (inter_bid_distinct m). }
  specialize (Opt _ F'). unfold objective in Opt. rewrite linear_shift in Opt.
  assert (0 < e * (linear (p_obj p) (at_one j) - linear (p_obj p) (at_one i))) by (apply Qmult_lt_0_compat; lra).
  lra.
Qed.
