(** Interconnectors at the prices that dispatch reports. *)

From Coq Require Import QArith Qminmax Lqa String List Bool Arith Lia ZArith Permutation.
Import ListNotations.
From Verif Require Import PandasModel TablesModel VariableIdsModel MarketConstraintsModel
  UnitConstraintsModel RampModel FcasModel InterModel ElasticModel MarketModel SolverModel PricingModel ReportsModel FcasReportsModel
  SpecLp PandasFacts SpecHistory SpecIds SpecDispatch SpecNetwork SpecElastic SpecPricing SpecPrices SpecDual
  StepFacts InvariantFacts OwnerFacts SolverFacts
  MeaningFacts LimitFacts TableFacts BidFacts JointRampFacts BalanceFacts GenericFacts ReportFacts FcasReportFacts DeficitFacts
  ElasticFacts ElasticTheoremFacts PriceStateFacts PriceFacts ExchangeFacts DualFacts DualMarketFacts DualBidFacts.
Open Scope string_scope.
Open Scope list_scope.

Lemma costless_objective p x y : costless p x y -> objective p y == objective p x.
Proof.
  intros H. unfold objective. rewrite !linear_sum. apply sumQ_ext_in. intros [i q] Hi. cbn [fst snd]. now rewrite (H i q Hi).
Qed.

Section Links.
  Variables (c : config) (l : list demand_row) (v : option vcost) (dirs : list inter_row) (lf : list lossfn_row) (bps : list bp_row)
    (m : market) (p q : problem) (x : assignment) (pi : nat -> Q) (ps : list (string * Q)).
  Hypothesis H_demand : held c (OpDemand l v) m.
  Hypothesis H_network : network c dirs lf bps m.
  Hypothesis H_ends : forall d, In d dirs -> in_from d <> in_to d.
  Hypothesis H_assemble : assemble m = Ok p.
  Hypothesis H_priced : priced_problem m p q.
  Hypothesis H_report : energy_prices m pi = Ok ps.
  Hypothesis H_shadow : shadow_prices q x pi.
  Hypothesis H_supplied : forall d, In d l -> supplied m dirs (de_region d).

  Lemma no_arbitrage y : boxed q y ->
    (forall con, In con (p_cons q) -> (forall r, ~ balance_con m r con) -> met_or_free pi y con) ->
    same_violations m "demand" x y -> costless p x y ->
    qsum (map (fun a => snd a * (energy_balance m y dirs lf (fst a) - energy_balance m x dirs lf (fst a))) ps) <= 0.
  Proof.
    intros B K Sv Cl.
    pose proof (energy_marginal_all c l v dirs lf bps m p q x pi ps H_demand H_network H_ends H_assemble H_priced H_report y
      H_shadow H_supplied B K Sv) as M. rewrite (costless_objective p x y Cl) in M. lra.
  Qed.

  Variables (tv tp : bid_table) (d : inter_row) (y : assignment) (df dl : Q).
  Hypothesis H_bids : priced c tv tp m.
  Hypothesis H_link : In d dirs.
  Hypothesis H_shift : link_shift m dirs d x y df dl.

  Lemma shift_objective : objective p y == objective p x.
  Proof.
    destruct H_shift as [S1 [S2 _]]. pose proof (held_reached _ _ _ H_demand) as R.
    rewrite !(bids_objective c tv tp m p _ H_bids H_assemble). apply Qplus_comp.
    - unfold bids_cost. change (qsum (map ?f ?l)) with (sumQ f l). apply sumQ_ext. intros r.
      change (qsum (map ?f ?l)) with (sumQ f l). apply sumQ_ext. intros b. change (qsum (map ?f ?l)) with (sumQ f l). apply sumQ_ext. intros u.
      apply Qmult_comp; [reflexivity|]. unfold band_dispatch. change (qsum (map ?f ?l)) with (sumQ f l). apply sumQ_ext_in. intros w Hw.
      apply filter_In in Hw. now apply S1.
    - unfold violations_cost. change (qsum (map ?f ?l)) with (sumQ f l). apply sumQ_ext_in. intros k Hk.
      pose proof (cost_is_def m k (reached_paired c m R) Hk) as D. apply in_map_iff in D. destruct D as [w [<- Hw]]. now rewrite (S2 w Hw).
  Qed.

  Lemma shift_violations k : same_violations m k x y.
  Proof.
    destruct H_shift as [_ [S2 _]]. intros i Hi. unfold violation_vars in Hi. apply in_map_iff in Hi. destruct Hi as [w [<- Hw]].
    apply S2. destruct (dget (k ++ "_deficit")%string (m_deficits m)) as [ds|] eqn:E; [|destruct Hw]. apply dget_in in E.
    apply in_dconcat. eauto.
  Qed.

  Lemma shift_supply r s : region_supply m y r s == region_supply m x r s.
  Proof.
    destruct H_shift as [S1 _]. rewrite !region_supply_sum. apply sumQ_ext. intros u. apply Qmult_comp; [reflexivity|].
    unfold dispatch. change (qsum (map ?f ?l)) with (sumQ f l). apply sumQ_ext_in. intros w Hw. apply filter_In in Hw. now apply S1.
  Qed.

  Lemma shift_balance r : energy_balance m y dirs lf r - energy_balance m x dirs lf r
    == flow_effect d r df - sumQ (fun f => loss_charge d f r * dl) (filter (about_link d) lf).
  Proof.
    pose proof (network_inv _ _ _ _ _ H_network) as [_ [_ [k [nv T]]]]. pose proof (nt_links _ _ _ _ _ T) as UL.
    destruct H_shift as [_ [_ [S3 [S4 S5]]]]. unfold energy_balance. rewrite shift_supply.
    assert (E1 : inflow m y dirs r == inflow m x dirs r + flow_effect d r df).
    { unfold inflow. change (qsum (map ?f ?l)) with (sumQ f l). apply (sumQ_change _ _ d); auto; [now apply unique_links_NoDup| |].
      - unfold flow_effect. destruct (String.eqb (in_to d) r), (String.eqb (in_from d) r); rewrite ?S3; ring.
      - intros e He Ne. apply flow_effect_ext. now apply S5. }
    assert (E2 : losses m y dirs lf r == losses m x dirs lf r + sumQ (fun f => loss_charge d f r * dl) (filter (about_link d) lf)).
    { unfold losses. change (qsum (map ?f ?l)) with (sumQ f l). apply (sumQ_change _ _ d); auto; [now apply unique_links_NoDup| |].
      - change (qsum (map ?f ?l)) with (sumQ f l). rewrite <- sumQ_plus. apply sumQ_ext. intros f. rewrite S4. ring.
      - intros e He Ne. change (qsum (map ?f ?l)) with (sumQ f l). apply sumQ_ext. intros f. now rewrite (proj2 (S5 e He Ne)). }
    rewrite E1, E2. ring.
  Qed.

  Lemma prices_once : NoDup (map fst ps).
  Proof.
    destruct (held_demand _ _ _ _ H_demand) as [O [C [n [D1 [D2 G]]]]].
    unfold energy_prices, need in H_report. rewrite D1 in H_report. injection H_report as E. rewrite <- E.
    rewrite map_map. unfold energy_rhs. rewrite map_map.
    rewrite (map_ext _ (fun a => de_region (snd a))) by (now intros [i a]).
    rewrite <- (map_map snd de_region), save_index_snd. exact (demand_once c l v m H_demand).
  Qed.

  Lemma price_pick r price g : In (r, price) ps -> sumQ (fun a => snd a * (if String.eqb r (fst a) then g else 0)) ps == price * g.
  Proof.
    intros H. rewrite (sumQ_ext _ (fun a => if String.eqb r (fst a) then snd a * g else 0)) by (intros a; destruct (String.eqb r (fst a)); ring).
    rewrite (sumQ_pick (fun a => snd a * g) (fun a => String.eqb r (fst a)) (r, price)); [reflexivity|exact H|apply String.eqb_refl| |].
    - intros [r' p'] H' E. apply String.eqb_eq in E. cbn [fst] in E. subst r'.
      apply (NoDup_map_inj fst ps); auto. exact prices_once.
    - pose proof prices_once as ND. now apply NoDup_map_inv in ND.
  Qed.

  Lemma link_no_arbitrage from to : boxed q y ->
    (forall con, In con (p_cons q) -> (forall r, ~ balance_con m r con) -> met_or_free pi y con) ->
    In (in_from d, from) ps -> In (in_to d, to) ps ->
    (in_to_lf d * to - in_from_lf d * from) * df <= loss_value lf d from to * dl.
  Proof.
    intros B K Hf Ht.
    pose proof (energy_marginal_all c l v dirs lf bps m p q x pi ps H_demand H_network H_ends H_assemble H_priced H_report y
      H_shadow H_supplied B K (shift_violations "demand")) as M. rewrite shift_objective in M.
    change (qsum (map ?f ps)) with (sumQ f ps) in M.
    set (cg := sumQ (fun f => lf_share f * dl) (filter (about_link d) lf)).
    set (ct := sumQ (fun f => (1 - lf_share f) * dl) (filter (about_link d) lf)).
    assert (E : sumQ (fun a => snd a * (energy_balance m y dirs lf (fst a) - energy_balance m x dirs lf (fst a))) ps
      == sumQ (fun a => snd a * (if String.eqb (in_to d) (fst a) then in_to_lf d * df - ct else 0)) ps
         + sumQ (fun a => snd a * (if String.eqb (in_from d) (fst a) then - (in_from_lf d * df) - cg else 0)) ps).
    { rewrite <- sumQ_plus. apply sumQ_ext. intros [r pr]. cbn [fst snd]. rewrite shift_balance. unfold flow_effect.
      assert (L : sumQ (fun f => loss_charge d f r * dl) (filter (about_link d) lf)
        == (if String.eqb (in_from d) r then cg else 0) + (if String.eqb (in_to d) r then ct else 0)).
      { unfold loss_charge. destruct (String.eqb (in_from d) r) eqn:E1; destruct (String.eqb (in_to d) r) eqn:E2.
        - exfalso. apply String.eqb_eq in E1, E2. apply (H_ends d H_link). congruence.
        - unfold cg. ring.
        - unfold ct. ring.
        - rewrite sumQ_zero; [ring|intros; ring]. }
      rewrite L. destruct (String.eqb (in_from d) r), (String.eqb (in_to d) r); ring. }
    rewrite E, (price_pick _ to _ Ht), (price_pick _ from _ Hf) in M.
    assert (V : loss_value lf d from to * dl == from * cg + to * ct).
    { unfold loss_value, cg, ct. change (qsum (map ?f ?l)) with (sumQ f l).
      rewrite (Qmult_comm _ dl), <- !sumQ_scale, <- sumQ_plus. apply sumQ_ext. intros f. ring. }
    rewrite V. lra.
  Qed.
End Links.

(** A link without losses that could carry more and less joins its regions. *)
Lemma link_equal_prices c l v dirs lf bps m p q x pi ps tv tp d w from to :
  held c (OpDemand l v) m -> network c dirs lf bps m -> (forall d, In d dirs -> in_from d <> in_to d) ->
  assemble m = Ok p -> priced_problem m p q -> energy_prices m pi = Ok ps -> shadow_prices q x pi ->
  (forall d, In d l -> supplied m dirs (de_region d)) -> priced c tv tp m -> In d dirs ->
  In w (p_vars q) -> (exists i, In i (rows_or_nil (m_inter m)) /\ iv_inter i = in_inter d /\ iv_link i = in_link d /\ iv_id i = pv_id w) ->
  pv_lb w < x (pv_id w) -> (forall u, pv_ub w = Some u -> x (pv_id w) < u) ->
  (forall con, In con (p_cons q) -> mentions con (pv_id w) -> (forall r, ~ balance_con m r con) -> pi (pc_id con) == 0) ->
  In (in_from d, from) ps -> In (in_to d, to) ps ->
  in_to_lf d * to == in_from_lf d * from.
Proof.
  intros HD HN HE A PP Rep Sh Su P Hd Hw [i [Hi [I1 [I2 I3]]]] L U Fr Hf Ht.
  destruct (priced_inv c tv tp m P) as [R [I [[W O] [C _]]]].
  pose proof (vars_once m p q W A PP) as ND. pose proof Sh as [[Bx _] _].
  destruct (var_ids_parts m W) as [D1 [D2 [D3 [D4 D5]]]].
  assert (M : forall e, boxed q (moved x (pv_id w) e) -> (in_to_lf d * to - in_from_lf d * from) * e <= 0).
  { intros e Bm.
    assert (Ch : flow_changed m (in_inter d) (in_link d) e x (moved x (pv_id w) e)).
    { split.
      - intros j Hj E1 E2. assert (Ej : iv_id j = pv_id w); [|rewrite Ej; apply moved_here].
        pose proof (network_inv _ _ _ _ _ HN) as [_ [_ [k [nv T]]]]. rewrite <- I3. f_equal.
        rewrite (nt_inter _ _ _ _ _ T) in Hi, Hj. unfold inter_variables in Hi, Hj. apply in_map_iff in Hi, Hj.
        destruct Hi as [[a da] [<- Ha]]. destruct Hj as [[b db] [<- Hb]]. cbn [iv_inter iv_link] in *.
        destruct (unique_row dirs k da db a b (nt_links _ _ _ _ _ T) Ha Hb) as [-> ->]; [|reflexivity].
        apply same_link_eq. split; congruence.
      - intros n Hn. apply moved_other. intros E. subst n. now apply (Hn i Hi I1 I2). }
    destruct (flow_change m (in_inter d) (in_link d) e x _ W Ch) as [F1 [F2 F3]].
    assert (Lo : 0 == loss_value lf d from to * 0) by ring. rewrite Lo.
    apply (link_no_arbitrage c l v dirs lf bps m p q x pi ps HD HN HE A PP Rep Sh Su tv tp d (moved x (pv_id w) e) e 0); auto.
    - split; [|split; [|split; [|split]]].
      + intros b Hb. apply moved_other. rewrite <- I3. intros E. now apply (inter_bid_distinct m i b W Hi Hb).
      + intros b Hb. apply moved_other. rewrite <- I3. intros E. destruct (m_inter m) as [is|] eqn:Ei; [|destruct Hi].
        apply (proj2 (inter_ids_lt m is i W Ei Hi)). rewrite <- E. unfold def_ids. now apply in_map.
      + pose proof (network_inv _ _ _ _ _ HN) as [_ [_ [k [nv T]]]].
        assert (X : exists a, In (a, d) (save_index k dirs) /\ a = pv_id w).
        { rewrite (nt_inter _ _ _ _ _ T) in Hi. unfold inter_variables in Hi. apply in_map_iff in Hi.
          destruct Hi as [[a da] [<- Ha]]. cbn [iv_inter iv_link iv_id] in *. exists a. split; [|exact I3].
          destruct (save_index_in k dirs d Hd) as [a' Ha'].
          destruct (unique_row dirs k da d a a' (nt_links _ _ _ _ _ T) Ha Ha') as [-> ->]; [|exact Ha'].
          apply same_link_eq. split; congruence. }
        destruct X as [a [Ha ->]]. rewrite !(flow_of m _ dirs lf k nv _ d T Ha), moved_here. reflexivity.
      + rewrite F2. ring.
      + intros e' He Ne. split; [|apply F2]. apply F3. pose proof (network_inv _ _ _ _ _ HN) as [_ [_ [k [nv T]]]].
        apply (other_link dirs); auto. apply T.
    - intros con Hc N. destruct (mentions_dec con (pv_id w)) as [Y|Y].
      + right. now apply Fr.
      + left. apply unmentioned_holds; [exact Y|]. destruct Sh as [[_ [Hh _]] _]. auto. }
  destruct (Bx w Hw) as [B1 B2].
  assert (E : exists e, 0 < e /\ forall u, pv_ub w = Some u -> x (pv_id w) + e <= u).
  { destruct (pv_ub w) as [u|].
    - exists (u - x (pv_id w)). specialize (U u eq_refl). split; [lra|]. intros u' E. inversion E. lra.
    - exists 1. split; [lra|discriminate]. }
  destruct E as [e [Pe Ue]].
  pose proof (M e ltac:(apply moved_boxed; auto; lra)) as M1.
  assert (M2 : (in_to_lf d * to - in_from_lf d * from) * (pv_lb w - x (pv_id w)) <= 0).
  { apply M. apply moved_boxed; auto; [lra|]. intros u Eu. specialize (U u Eu). rewrite Eu in B2. lra. }
  set (K := in_to_lf d * to - in_from_lf d * from) in *.
  destruct (Qlt_le_dec 0 K) as [Y|Y]; [exfalso; assert (0 < K * e) by (apply Qmult_lt_0_compat; lra); lra|].
  destruct (Qlt_le_dec K 0) as [Z|Z]; [exfalso; assert (0 < (- K) * (x (pv_id w) - pv_lb w)) by (apply Qmult_lt_0_compat; lra); lra|].
  unfold K in *. lra.
Qed.
