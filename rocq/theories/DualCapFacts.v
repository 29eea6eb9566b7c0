(** Violation costs bound the prices of elastic constraints. *)

From Coq Require Import QArith Qminmax Lqa String List Bool Arith Lia ZArith Permutation.
Import ListNotations.
From Verif Require Import PandasModel TablesModel VariableIdsModel MarketConstraintsModel
  UnitConstraintsModel RampModel FcasModel InterModel ElasticModel MarketModel SolverModel PricingModel ReportsModel FcasReportsModel
  SpecLp PandasFacts SpecHistory SpecIds SpecDispatch SpecNetwork SpecElastic SpecPricing SpecPrices SpecDual
  StepFacts InvariantFacts OwnerFacts SolverFacts
  MeaningFacts LimitFacts TableFacts BidFacts BalanceFacts DeficitFacts
  ElasticStateFacts ElasticFacts ElasticFacts2 ElasticTheoremFacts PriceStateFacts ExchangeFacts DualFacts DualMarketFacts DualBidFacts.
Open Scope string_scope.
Open Scope list_scope.

Lemma def_kept m p q i : wf m -> assemble m = Ok p -> priced_problem m p q -> In i (def_ids m) -> In (PVar i 0 None) (all_vars m) ->
  In (PVar i 0 None) (p_vars q).
Proof.
  intros W A PP Hd Hv. apply (kept_var m p q); auto.
  - destruct (assemble_parts m p A) as [-> _]. exact Hv.
  - intros j Hj E. cbn [pv_id] in E. destruct (m_inter m) as [is|] eqn:Ei; [|destruct Hj].
    apply (proj2 (inter_ids_lt m is j W Ei Hj)). now rewrite E.
  - intros j Hj E. cbn [pv_id] in E. destruct (wf_vars m W) as [V1 _]. unfold var_ids in V1.
    rewrite !NoDup_app_iff in V1. destruct (m_weights m) as [ws|] eqn:Ew; [|destruct Hj]. cbn [rows_or_nil] in Hj.
    unfold def_ids in Hd. rewrite <- E in Hd.
    destruct V1 as [_ [[_ [[_ [[_ [_ X]] _]] _]] _]]. apply (X (wv_id j)); [now apply in_map|exact Hd].
Qed.

Section Cap.
  Variables (c : config) (k : string) (v : vcost) (m : market) (g : list crow) (p q : problem) (x : assignment) (pi : nat -> Q).
  Hypothesis H_elastic : made_elastic c k v m.
  Hypothesis H_once : once v.
  Hypothesis H_group : group m k = Some g.
  Hypothesis H_rows : g <> [].
  Hypothesis H_costs : forall r, In r g -> exists q, cost_of v r q.
  Hypothesis H_assemble : assemble m = Ok p.
  Hypothesis H_problem : priced_problem m p q.
  Hypothesis H_shadow : shadow_prices q x pi.

  Lemma violation_reduced n con (d : drow) : In d (deficit_rows (costed v g) n) ->
    dget (deficit_key k) (m_lhs m) = Some (deficit_lhs (costed v g) n) ->
    dget (deficit_key k) (m_deficits m) = Some (deficit_variables (costed v g) n) ->
    dget (deficit_key k) (m_obj_def m) = Some (deficit_costs (costed v g) n) ->
    In con (p_cons q) -> pc_id con = cr_id (d_row d) -> pi (pc_id con) * d_coef d <= d_cost d.
  Proof.
    intros Hd HL HD HC Hc Ei.
    destruct (elastic_parts c k v m g H_elastic H_once H_group H_rows H_costs) as [O [T [K [Rin [ND _]]]]]. pose proof (proj1 O) as W.
    destruct (priced_shape m p q H_problem) as [Eo [F Ev]].
    pose proof (viol_has m k _ n HD d Hd) as Hv.
    assert (Vi : In (d_id d) (violation_vars m k)).
    { unfold violation_vars. change (k ++ "_deficit")%string with (deficit_key k). rewrite HD. cbn [rows_or_nil].
      rewrite <- deficit_row_ids. now apply in_map. }
    pose proof (def_kept m p q (d_id d) W H_assemble H_problem (violation_def m k _ Vi) Hv) as Hq.
    pose proof (reduced_up q x pi _ (vars_once m p q W H_assemble H_problem) H_shadow Hq) as R. cbn [pv_ub pv_id] in R.
    specialize (R ltac:(discriminate)). unfold reduced_cost in R.
    assert (Cost : linear (p_obj q) (at_one (d_id d)) == d_cost d).
    { rewrite Eo. destruct (assemble_parts m p H_assemble) as [_ [-> _]].
      pose proof (cost_change m k _ n T HD HC (fun _ => 0) (at_one (d_id d))) as Ch.
      assert (Z : linear (all_costs m) (fun _ => 0) == 0) by (rewrite linear_sum; apply sumQ_zero; intros; ring).
      rewrite Z in Ch.
      assert (Sb : same_but m k (fun _ => 0) (at_one (d_id d))).
      { intros i Hi. unfold at_one. destruct (Nat.eqb i (d_id d)) eqn:E; [|reflexivity]. apply Nat.eqb_eq in E. subst i. now destruct Hi. }
      specialize (Ch Sb).
      rewrite (sumQ_ext _ (fun p0 => if Nat.eqb (d_id p0) (d_id d) then d_cost p0 else 0)) in Ch
        by (intros a; unfold at_one; destruct (Nat.eqb (d_id a) (d_id d)); ring).
      rewrite (sumQ_pick d_cost (fun p0 => Nat.eqb (d_id p0) (d_id d)) d) in Ch; auto; [lra|apply Nat.eqb_refl| |].
      - intros b Hb E. apply Nat.eqb_eq in E. now apply (d_inj (costed v g) n).
      - pose proof (deficit_rows_NoDup (costed v g) n) as NDr. now apply NoDup_map_inv in NDr. }
    assert (Col : forall con', In con' (p_cons q) -> column con' (d_id d) == if Nat.eqb (cr_id (d_row d)) (pc_id con') then d_coef d else 0).
    { intros con' Hc'. destruct (like_in _ _ _ F Hc') as [con0 [Hc0 L]]. rewrite (like_column _ _ _ L).
      destruct (ElasticFacts.con_rhs m p con0 W H_assemble Hc0) as [r0 [Hr0 E0]].
      destruct (con_is m p con0 r0 W H_assemble Hc0 Hr0 (eq_sym E0)) as [Econ _]. unfold column.
      rewrite (con_value m p con0 r0 _ W H_assemble Hc0 Hr0 (eq_sym E0) eq_refl).
      rewrite (elastic_row m k _ n O T HL HD). destruct L as [L1 _].
      assert (Own : own_row m k (at_one (d_id d)) (r_id r0) == 0).
      { unfold own_row. apply row_value_zero. intros l _ _. unfold mask. destruct (is_violation m k (l_var l)) eqn:E; [reflexivity|].
        cbn [negb]. unfold at_one. destruct (Nat.eqb (l_var l) (d_id d)) eqn:E2; [|reflexivity]. apply Nat.eqb_eq in E2. rewrite E2 in E.
        apply is_violation_in in Vi. congruence. }
      assert (Rhs : match pc_rhs con0 with RNum _ => 0 | RVar w => at_one (d_id d) w end == 0).
      { rewrite Econ. cbn [pc_rhs]. destruct (r_rhs r0) as [|w] eqn:Er; [reflexivity|]. unfold at_one.
        destruct (Nat.eqb w (d_id d)) eqn:E2; [|reflexivity]. apply Nat.eqb_eq in E2. exfalso.
        apply violation_def in Vi. revert Vi. rewrite <- E2. apply (td_vars m T). unfold table_vars. rewrite !in_app_iff. right; left.
        unfold all_rhs in Hr0. rewrite !in_app_iff in Hr0. unfold static_rrows, dyn_rrows in Hr0. rewrite !in_map_iff in Hr0.
        destruct Hr0 as [[y [<- _]]|[[y [<- _]]|[y [<- Hy]]]]; try discriminate. cbn in Er. inversion Er; subst w. now apply in_map. }
      rewrite Own, Rhs.
      transitivity (sumQ (fun p0 => if Nat.eqb (d_id p0) (d_id d) then (if Nat.eqb (cr_id (d_row p0)) (pc_id con') then d_coef p0 else 0) else 0) (deficit_rows (costed v g) n)).
      - rewrite sumQ_filter. assert (Er : r_id r0 = pc_id con') by congruence. rewrite Er.
        rewrite (sumQ_ext _ (fun p0 => if Nat.eqb (d_id p0) (d_id d) then (if Nat.eqb (cr_id (d_row p0)) (pc_id con') then d_coef p0 else 0) else 0)); [ring|].
        intros a. unfold d_at, at_one. destruct (Nat.eqb (cr_id (d_row a)) (pc_id con')), (Nat.eqb (d_id a) (d_id d)); ring.
      - rewrite (sumQ_pick (fun p0 => if Nat.eqb (cr_id (d_row p0)) (pc_id con') then d_coef p0 else 0) (fun p0 => Nat.eqb (d_id p0) (d_id d)) d);
          auto; [reflexivity|apply Nat.eqb_refl| |].
        + intros b Hb E. apply Nat.eqb_eq in E. now apply (d_inj (costed v g) n).
        + pose proof (deficit_rows_NoDup (costed v g) n) as NDr. now apply NoDup_map_inv in NDr. }
    rewrite Cost in R.
    rewrite (sumQ_ext_in _ (fun con' => if Nat.eqb (cr_id (d_row d)) (pc_id con') then pi (pc_id con') * d_coef d else 0)) in R.
    - rewrite (sumQ_pick (fun con' => pi (pc_id con') * d_coef d) (fun con' => Nat.eqb (cr_id (d_row d)) (pc_id con')) con) in R; auto; [lra| | |].
      + rewrite Ei. apply Nat.eqb_refl.
      + intros b Hb E. apply Nat.eqb_eq in E. apply (NoDup_map_inj pc_id (p_cons q)); auto; [|congruence].
        rewrite (like_ids _ _ F). exact (cons_ids_NoDup m p H_assemble).
      + pose proof (cons_ids_NoDup m p H_assemble) as NDc. rewrite <- (like_ids _ _ F) in NDc. now apply NoDup_map_inv in NDc.
    - intros con' Hc'. rewrite (Col con' Hc'). destruct (Nat.eqb _ _); ring.
  Qed.

  Lemma price_cap con r cost : In con (p_cons q) -> In r g -> pc_id con = cr_id r -> cost_of v r cost ->
    (cr_type r = "<=" -> - cost <= pi (pc_id con) /\ pi (pc_id con) <= 0)
    /\ (cr_type r = ">=" -> 0 <= pi (pc_id con) /\ pi (pc_id con) <= cost)
    /\ (cr_type r = "=" -> - cost <= pi (pc_id con) /\ pi (pc_id con) <= cost).
  Proof.
    intros Hc Hr Ei Co.
    destruct (elastic_parts c k v m g H_elastic H_once H_group H_rows H_costs) as [O [T [K [Rin [ND [n [HL [HD HC]]]]]]]].
    pose proof (proj1 O) as W.
    assert (Ty : pc_type con = cr_type r).
    { destruct (priced_shape m p q H_problem) as [_ [F _]]. destruct (like_in _ _ _ F Hc) as [con0 [Hc0 [L1 [L2 _]]]].
      pose proof (group_static m k g r H_group Hr) as Ha. rewrite L2.
      destruct (con_is m p con0 _ W H_assemble Hc0 Ha) as [-> _]; [cbn; congruence|reflexivity]. }
    assert (Sg : signed_price (cr_type r) (pi (pc_id con))) by (rewrite <- Ty; now apply H_shadow).
    assert (Hrow : In (r, cost) (costed v g)) by (apply costed_in; auto).
    destruct (deficit_pick (costed v g) n r cost ND Hrow) as [P1 [P2 P3]].
    assert (B : forall i z, In ((i, (r, cost)), z) (filter (d_at (cr_id r)) (deficit_rows (costed v g) n)) -> pi (pc_id con) * z <= cost).
    { intros i z H. apply filter_In in H. destruct H as [H _].
      exact (violation_reduced n con ((i, (r, cost)), z) H HL HD HC Hc Ei). }
    destruct Sg as [S1 S2]. split; [|split]; intros E.
    - destruct (P2 E) as [i Hi]. specialize (B i (-(1))). rewrite Hi in B. specialize (B (or_introl eq_refl)). specialize (S1 E). split; lra.
    - destruct (P1 E) as [i Hi]. specialize (B i 1). rewrite Hi in B. specialize (B (or_introl eq_refl)). specialize (S2 E). split; lra.
    - destruct (P3 E) as [i [j Hi]]. pose proof (B i (-(1))) as B1. pose proof (B j 1) as B2. rewrite Hi in B1, B2.
      specialize (B1 (or_introl eq_refl)). specialize (B2 (or_intror (or_introl eq_refl))). split; lra.
  Qed.
End Cap.
