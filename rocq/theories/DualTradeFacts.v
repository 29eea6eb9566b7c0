(** Energy and reserves together. *)

From Coq Require Import QArith Qabs Lqa String List Bool Arith.
Import ListNotations.
From Verif Require Import PandasModel TablesModel MarketModel MarketConstraintsModel SolverModel PricingModel ReportsModel FcasReportsModel DispatchPricesModel DispatchModel
  SpecLp SpecHistory SpecDispatch SpecNetwork SpecElastic SpecPricing SpecPrices SpecDual SpecTrade SpecSolver
  PandasFacts SolverFacts OwnerFacts MeaningFacts BidFacts LimitFacts ElasticFacts ElasticTheoremFacts BalanceFacts GenericFacts ReportFacts FcasReportFacts
  InvariantFacts TableFacts PriceStateFacts PriceFacts ExchangeFacts DeficitFacts DualFacts DualMarketFacts DualBidFacts DualLinkFacts DispatchFacts.
Open Scope string_scope.
Open Scope list_scope.

Lemma fcas_ids_in l n i a : In (i, a) (fcas_ids l n) -> In a l.
Proof. unfold fcas_ids. intros H. apply in_save_index in H. destruct H as [_ H]. now apply drop_duplicates_incl in H. Qed.

Lemma loss_bid m w v : wf m -> In w (rows_or_nil (m_loss m)) -> In v (rows_or_nil (m_bids m)) -> lv_id w <> bv_id v.
Proof.
  intros W Hw Hv E. pose proof (wf_vars_NoDup m W) as ND. unfold all_vars in ND. rewrite map_app in ND.
  apply (NoDup_app_disjoint _ _ (bv_id v) ND).
  - unfold bid_pvars. rewrite map_map. apply in_map_iff. now exists v.
  - rewrite !map_app, !in_app_iff. right. left. unfold loss_pvars. rewrite map_map. apply in_map_iff. now exists w.
Qed.

Section Trade.
  Variables (c : config) (l : list demand_row) (v : option vcost) (dirs : list inter_row) (lf : list lossfn_row) (bps : list bp_row)
    (lr : list fcas_req_row) (vr : option vcost) (gu : list gunit_row) (gr : list gregion_row) (gi : list ginter_row)
    (m : market) (p q : problem) (x : assignment) (pi : nat -> Q) (pe : list (string * Q)) (pf : list ((string * string) * Q)).
  Hypothesis H_demand : held c (OpDemand l v) m.
  Hypothesis H_network : network c dirs lf bps m.
  Hypothesis H_ends : forall d, In d dirs -> in_from d <> in_to d.
  Hypothesis H_req : held c (OpFcasReq lr vr) m.
  Hypothesis H_links : links c gu gr gi m.
  Hypothesis H_services : forall b, In b lr -> fq_service b <> "energy".
  Hypothesis H_assemble : assemble m = Ok p.
  Hypothesis H_all : forall k rows, In (k, rows) (m_mrhs m) -> all_present p rows.
  Hypothesis H_priced : priced_problem m p q.
  Hypothesis H_energy : energy_prices m pi = Ok pe.
  Hypothesis H_fcas : fcas_prices m pi = Ok pf.

  Lemma trade_marginal y : shadow_prices q x pi -> boxed q y ->
    (forall con, In con (p_cons q) -> (forall r, ~ balance_con m r con) -> (forall s, ~ set_con m s con) -> met_or_free pi y con) ->
    same_violations m "demand" x y -> same_violations m "fcas" x y ->
    (forall b, In b lr -> linked m y gu gr gi (fq_set b) == linked m x gu gr gi (fq_set b)) ->
    objective p x
      + qsum (map (fun a => snd a * (energy_balance m y dirs lf (fst a) - energy_balance m x dirs lf (fst a))) pe)
      + qsum (map (fun a => snd a * (region_supply m y (fst (fst a)) (snd (fst a)) - region_supply m x (fst (fst a)) (snd (fst a)))) pf)
    <= objective p y.
  Proof.
    intros Sh B K Sv Sf Lk. destruct (priced_shape m p q H_priced) as [Eo [F _]].
    destruct (held_demand _ _ _ _ H_demand) as [O [C [n [D1 [D2 _]]]]].
    destruct (held_fcas _ _ _ _ H_req) as [_ [_ [k [G1 [G2 _]]]]].
    set (dl := fun r => energy_balance m y dirs lf r - energy_balance m x dirs lf r).
    set (ds := fun s => set_total m y lr gu gr gi s - set_total m x lr gu gr gi s).
    set (rs := fun r s => region_supply m y r s - region_supply m x r s).
    set (sE := fun con : pcon => sumQ (fun a : nat * demand_row => if Nat.eqb (fst a) (pc_id con) then dl (de_region (snd a)) else 0) (save_index n l)).
    set (sF := fun con : pcon => sumQ (fun a : nat * fcas_req_row => if Nat.eqb (fst a) (pc_id con) then ds (fq_set (snd a)) else 0) (fcas_ids lr k)).
    pose proof (marginal q x pi y (fun con => sE con + sF con) Sh B) as M.
    assert (Ids : map pc_id (p_cons q) = map pc_id (p_cons p)) by exact (like_ids _ _ F).
    assert (NDq : NoDup (map pc_id (p_cons q))) by (rewrite Ids; exact (cons_ids_NoDup m p H_assemble)).
    assert (Here : forall k rows row, dget k (m_mrhs m) = Some rows -> In row rows -> exists con, In con (p_cons q) /\ pc_id con = cr_id row).
    { intros k0 rows row D Hr. destruct (H_all k0 rows (dget_in _ _ _ D) row Hr) as [con [Hc E]].
      assert (X : In (cr_id row) (map pc_id (p_cons q))) by (rewrite Ids, <- E; now apply in_map).
      apply in_map_iff in X. destruct X as [c' [E' Hc']]. eauto. }
    assert (SE : sumQ (fun con => pi (pc_id con) * sE con) (p_cons q) == sumQ (fun a => snd a * dl (fst a)) pe).
    { rewrite (sumQ_ext _ (fun con => sumQ (fun a : nat * demand_row => if Nat.eqb (fst a) (pc_id con) then pi (fst a) * dl (de_region (snd a)) else 0) (save_index n l))).
      - rewrite sum_by_key; [|exact NDq|].
        + unfold energy_prices, need in H_energy. rewrite D1 in H_energy. injection H_energy as E. rewrite <- E, sumQ_map.
          unfold energy_rhs. rewrite sumQ_map. apply sumQ_ext. intros [i d]. reflexivity.
        + intros [i d] Hi. cbn [fst]. apply (Here "demand" (energy_rhs l n) (CRow i "=" (de_demand d) (KRegion (de_region d))) D1).
          unfold energy_rhs. apply in_map_iff. exists (i, d). auto.
      - intros con. unfold sE. rewrite <- sumQ_scale. apply sumQ_ext. intros [i d]. cbn [fst snd].
        destruct (Nat.eqb i (pc_id con)) eqn:E; [apply Nat.eqb_eq in E; subst i|]; ring. }
    assert (Dset : forall a0, In a0 lr -> ds (fq_set a0) == sumQ (fun a => if String.eqb (fq_set a0) (fq_set a) then rs (fq_region a) (fq_service a) else 0) lr).
    { intros a0 Ha0. unfold ds, set_total. rewrite (Lk a0 Ha0). set (s := fq_set a0). unfold set_supply. change (qsum (map ?f ?l0)) with (sumQ f l0).
      rewrite !sumQ_filter. unfold rs.
      rewrite (sumQ_ext (fun a => if String.eqb s (fq_set a) then region_supply m y (fq_region a) (fq_service a) - region_supply m x (fq_region a) (fq_service a) else 0)
        (fun a => (if String.eqb s (fq_set a) then region_supply m y (fq_region a) (fq_service a) else 0)
                  - (if String.eqb s (fq_set a) then region_supply m x (fq_region a) (fq_service a) else 0)))
        by (intros a; destruct (String.eqb s (fq_set a)); ring).
      rewrite sumQ_sub. ring. }
    assert (SF : sumQ (fun con => pi (pc_id con) * sF con) (p_cons q) == sumQ (fun a => snd a * rs (fst (fst a)) (snd (fst a))) pf).
    { transitivity (sumQ (fun a : nat * fcas_req_row => pi (fst a) * ds (fq_set (snd a))) (fcas_ids lr k)).
      - rewrite (sumQ_ext _ (fun con => sumQ (fun a : nat * fcas_req_row => if Nat.eqb (fst a) (pc_id con) then pi (fst a) * ds (fq_set (snd a)) else 0) (fcas_ids lr k))).
        + rewrite sum_by_key; [reflexivity|exact NDq|]. intros [i b] Hb. cbn [fst].
          apply (Here "fcas" (fcas_rhs lr k) (CRow i (fq_type b) (fq_volume b) (KSet (fq_set b))) G1).
          unfold fcas_rhs. apply in_map_iff. exists (i, b). auto.
        + intros con. unfold sF. rewrite <- sumQ_scale. apply sumQ_ext. intros [i d]. cbn [fst snd].
          destruct (Nat.eqb i (pc_id con)) eqn:E; [apply Nat.eqb_eq in E; subst i|]; ring.
      - transitivity (sumQ (fun a => rs (fq_region a) (fq_service a) * pi (set_id lr k (fq_set a))) lr).
        + rewrite (sumQ_ext_in _ (fun a : nat * fcas_req_row => sumQ (fun b => if String.eqb (fq_set (snd a)) (fq_set b)
              then rs (fq_region b) (fq_service b) * pi (fst a) else 0) lr)).
          * rewrite sumQ_swap. apply sumQ_ext_in. intros b Hb. destruct (set_id_row lr k b Hb) as [a [Ha Ea]].
            rewrite (sumQ_pick (fun a0 : nat * fcas_req_row => rs (fq_region b) (fq_service b) * pi (fst a0))
              (fun a0 => String.eqb (fq_set (snd a0)) (fq_set b)) (set_id lr k (fq_set b), a)).
            -- reflexivity.
            -- exact Ha.
            -- cbn [snd]. rewrite Ea. apply String.eqb_refl.
            -- intros a' Ha' E'. apply String.eqb_eq in E'. apply (fcas_set_unique lr k); auto. cbn [snd]. congruence.
            -- unfold fcas_ids. apply save_index_NoDup.
          * intros [i a] Hia. cbn [fst snd]. rewrite (Dset a (fcas_ids_in lr k i a Hia)), <- sumQ_scale. apply sumQ_ext. intros b.
            destruct (String.eqb (fq_set a) (fq_set b)); ring.
        + unfold fcas_prices, need in H_fcas. rewrite G2, G1 in H_fcas. injection H_fcas as E. rewrite <- E.
          symmetry. etransitivity; [|etransitivity;
            [apply (groupby_sum_total rs_eqb (fun p0 : rcrow * crow => (rc_region (fst p0), rc_service (fst p0))) (fun p0 => pi (cr_id (snd p0))) (fun z => rs (fst z) (snd z))); exact rs_ok|]].
          { apply sumQ_ext. intros a. ring. }
          apply (price_sum lr k (fun g s z => rs g s * z) pi (fun s => pi (set_id lr k s))).
          * intros g s z1 z2 Ez. now rewrite Ez.
          * intros [i b] Hb. cbn [fst snd]. now rewrite (set_id_is lr k i b Hb). }
    change (qsum (map (fun a => snd a * (energy_balance m y dirs lf (fst a) - energy_balance m x dirs lf (fst a))) pe))
      with (sumQ (fun a => snd a * dl (fst a)) pe).
    change (qsum (map (fun a => snd a * (region_supply m y (fst (fst a)) (snd (fst a)) - region_supply m x (fst (fst a)) (snd (fst a)))) pf))
      with (sumQ (fun a => snd a * rs (fst (fst a)) (snd (fst a))) pf).
    unfold objective in *. rewrite Eo in M. rewrite <- SE, <- SF.
    rewrite (sumQ_ext (fun con => pi (pc_id con) * (sE con + sF con)) (fun con => pi (pc_id con) * sE con + pi (pc_id con) * sF con)) in M by (intros; ring).
    rewrite sumQ_plus, Qplus_assoc in M. apply M. clear M. intros con' Hc'.
    destruct (find (fun a : nat * demand_row => Nat.eqb (fst a) (pc_id con')) (save_index n l)) as [[i d]|] eqn:E.
    - right. apply find_some in E. destruct E as [Hi E]. cbn [fst] in E. apply Nat.eqb_eq in E. subst i.
      assert (Hrow : In (CRow (pc_id con') "=" (de_demand d) (KRegion (de_region d))) (energy_rhs l n)) by (unfold energy_rhs; apply in_map_iff; exists (pc_id con', d); auto).
      assert (Hb : balance_con m (de_region d) con').
      { exists (energy_rhs l n), (CRow (pc_id con') "=" (de_demand d) (KRegion (de_region d))). auto. }
      destruct (like_in _ _ _ F Hc') as [con [Hc L]].
      pose proof (balance_diff c l v dirs lf bps m p H_demand H_network H_ends H_assemble (de_region d) con con' x y Hc L Hb Sv) as X. fold (dl (de_region d)) in X.
      assert (Sd : sE con' == dl (de_region d)).
      { unfold sE. rewrite (sumQ_pick (fun a : nat * demand_row => dl (de_region (snd a))) (fun a => Nat.eqb (fst a) (pc_id con')) (pc_id con', d)); auto.
        - reflexivity.
        - cbn. apply Nat.eqb_refl.
        - intros a Ha Ea. apply Nat.eqb_eq in Ea. eapply save_index_inj; eauto.
        - apply save_index_NoDup. }
      assert (Zf : sF con' == 0).
      { unfold sF. apply sumQ_zero. intros [i b] Hb'. cbn [fst]. destruct (Nat.eqb i (pc_id con')) eqn:Ei; [|reflexivity]. exfalso.
        apply Nat.eqb_eq in Ei. subst i. destruct O as [_ [f [N Ow]]].
        assert (Hrow2 : In (CRow (pc_id con') (fq_type b) (fq_volume b) (KSet (fq_set b))) (fcas_rhs lr k)) by (unfold fcas_rhs; apply in_map_iff; exists (pc_id con', b); auto).
        pose proof (proj1 (ow_mrhs _ _ _ Ow _ _ _ (dget_in _ _ _ D1) Hrow)) as X1. pose proof (proj1 (ow_mrhs _ _ _ Ow _ _ _ (dget_in _ _ _ G1) Hrow2)) as X2.
        cbn [cr_id] in X1, X2. rewrite X1 in X2. discriminate. }
      rewrite Sd, Zf. lra.
    - pose proof (find_none _ _ E) as N.
      assert (ZE : sE con' == 0) by (unfold sE; apply sumQ_zero; intros a Ha; apply N in Ha; now rewrite Ha).
      assert (NB : forall r, ~ balance_con m r con').
      { intros r [rows' [row' [D' [Hr' [Ek Ei]]]]]. assert (rows' = energy_rhs l n) by congruence. subst rows'.
        destruct (demand_rows l n row' Hr') as [d' [Hd' [Hi' Er']]]. apply N in Hi'. cbn [fst] in Hi'. rewrite Ei, Nat.eqb_refl in Hi'. discriminate. }
      destruct (find (fun a : nat * fcas_req_row => Nat.eqb (fst a) (pc_id con')) (fcas_ids lr k)) as [[i b]|] eqn:Ef.
      + right. apply find_some in Ef. destruct Ef as [Hi Ef]. cbn [fst] in Ef. apply Nat.eqb_eq in Ef. subst i.
        assert (Sc : set_con m (fq_set b) con') by (apply (set_con_row lr m k (fq_set b) con' G1); exists b; auto).
        destruct (like_in _ _ _ F Hc') as [con [Hc L]].
        pose proof (set_diff c lr vr gu gr gi m p H_req H_links H_services H_assemble (fq_set b) con con' x y Hc L Sc Sf) as X. fold (ds (fq_set b)) in X.
        assert (Sd : sF con' == ds (fq_set b)).
        { unfold sF. rewrite (sumQ_pick (fun a : nat * fcas_req_row => ds (fq_set (snd a))) (fun a => Nat.eqb (fst a) (pc_id con')) (pc_id con', b)); auto.
          - reflexivity.
          - cbn. apply Nat.eqb_refl.
          - intros a Ha Ea. apply Nat.eqb_eq in Ea. unfold fcas_ids in *. eapply save_index_inj; eauto.
          - unfold fcas_ids. apply save_index_NoDup. }
        rewrite Sd, ZE. lra.
      + left. pose proof (find_none _ _ Ef) as Nf. split.
        * apply K; [exact Hc'|exact NB|]. intros s Sc. apply (set_con_row lr m k s con' G1) in Sc. destruct Sc as [b [Hb _]].
          apply Nf in Hb. cbn [fst] in Hb. rewrite Nat.eqb_refl in Hb. discriminate.
        * rewrite ZE. assert (ZF : sF con' == 0) by (unfold sF; apply sumQ_zero; intros a Ha; apply Nf in Ha; now rewrite Ha). rewrite ZF. ring.
  Qed.

  Lemma fcas_priced_service a : In a pf -> snd (fst a) <> "energy".
  Proof.
    intros Ha. destruct (held_fcas _ _ _ _ H_req) as [_ [_ [k [G1 [G2 _]]]]]. unfold fcas_prices, need in H_fcas. rewrite G2, G1 in H_fcas.
    injection H_fcas as E. rewrite <- E in Ha. destruct a as [key z]. cbn [fst]. apply group_row in Ha; [|exact rs_ok]. destruct Ha as [Ha _].
    apply in_map_iff in Ha. destruct Ha as [[a b'] [E' Hp]]. rewrite <- E'. cbn [fst snd].
    apply in_merge_p in Hp. cbn [fst] in Hp. destruct Hp as [Hp _]. unfold fcas_map in Hp. apply in_map_iff in Hp.
    destruct Hp as [[b0 [i0 a0]] [E0 Hp]]. apply in_merge_p in Hp. destruct Hp as [Hp _]. rewrite <- E0. cbn. now apply H_services.
  Qed.

End Trade.

Section Group.
  (** ** Only bids of a group change *)

  Variables (c : config) (l : list demand_row) (v : option vcost) (dirs : list inter_row) (lf : list lossfn_row)
    (m : market) (p : problem) (x : assignment) (pe : list (string * Q)) (pf : list ((string * string) * Q)).
  Variables (tv tp : bid_table) (group : string -> bool) (y : assignment).
  Hypothesis H_bids : priced c tv tp m.
  Hypothesis H_only : only_group m group x y.
  Hypothesis H_reserves : forall a, In a pf -> snd (fst a) <> "energy".
  Hypothesis H_demand : held c (OpDemand l v) m.
  Hypothesis H_assemble : assemble m = Ok p.

  Lemma group_dispatch u s d : group u = false -> dispatch m y u s d == dispatch m x u s d.
  Proof.
    intros G. destruct H_only as [S1 _]. unfold dispatch. change (qsum (map ?f ?l)) with (sumQ f l). apply sumQ_ext_in. intros w Hw.
    apply filter_In in Hw. destruct Hw as [Hw E]. rewrite !andb_true_iff, !String.eqb_eq in E. destruct E as [[E _] _]. subst u. now apply S1.
  Qed.
  Lemma group_band u s d b : group u = false -> band_dispatch m y u s d b == band_dispatch m x u s d b.
  Proof.
    intros G. destruct H_only as [S1 _]. unfold band_dispatch. change (qsum (map ?f ?l)) with (sumQ f l). apply sumQ_ext_in. intros w Hw.
    apply filter_In in Hw. destruct Hw as [Hw E]. rewrite !andb_true_iff, !String.eqb_eq in E. destruct E as [[[E _] _] _]. subst u. now apply S1.
  Qed.

  Lemma group_violations k : same_violations m k x y.
  Proof.
    pose proof (held_reached _ _ _ H_demand) as R. destruct (priced_inv c tv tp m H_bids) as [_ [_ [[W _] _]]].
    destruct H_only as [_ S2]. intros i Hi. apply S2. intros w Hw E. apply (bid_not_violation m k w i W Hw Hi). now symmetry.
  Qed.

  Lemma group_flow d : link_flow m y (in_inter d) (in_link d) == link_flow m x (in_inter d) (in_link d).
  Proof.
    destruct (priced_inv c tv tp m H_bids) as [_ [_ [[W _] _]]]. destruct H_only as [_ S2].
    unfold link_flow. change (qsum (map ?f ?l)) with (sumQ f l). apply sumQ_ext_in. intros i Hi. apply filter_In in Hi.
    apply S2. intros w Hw E. apply (inter_bid_distinct m i w W (proj1 Hi) Hw). now symmetry.
  Qed.

  Lemma group_loss d : link_loss m y (in_inter d) (in_link d) == link_loss m x (in_inter d) (in_link d).
  Proof.
    destruct (priced_inv c tv tp m H_bids) as [_ [_ [[W _] _]]]. destruct H_only as [_ S2].
    unfold link_loss. change (qsum (map ?f ?l)) with (sumQ f l). apply sumQ_ext_in. intros i Hi. apply filter_In in Hi.
    apply S2. intros w Hw E. apply (loss_bid m i w W (proj1 Hi) Hw). now symmetry.
  Qed.

  Lemma group_balance r : energy_balance m y dirs lf r - energy_balance m x dirs lf r
    == region_supply m y r "energy" - region_supply m x r "energy".
  Proof.
    unfold energy_balance.
    assert (I : inflow m y dirs r == inflow m x dirs r).
    { unfold inflow. change (qsum (map ?f ?l)) with (sumQ f l). apply sumQ_ext. intros d. unfold flow_effect. pose proof (group_flow d) as E.
      destruct (String.eqb (in_to d) r), (String.eqb (in_from d) r); rewrite ?E; reflexivity. }
    assert (L : losses m y dirs lf r == losses m x dirs lf r).
    { unfold losses. change (qsum (map ?f ?l)) with (sumQ f l). apply sumQ_ext. intros d.
      change (qsum (map ?f ?l)) with (sumQ f l). apply sumQ_ext. intros f. pose proof (group_loss d) as E. rewrite E. reflexivity. }
    rewrite I, L. ring.
  Qed.

  Lemma income_diff : income c m group pe pf y - income c m group pe pf x
    == qsum (map (fun a => snd a * (energy_balance m y dirs lf (fst a) - energy_balance m x dirs lf (fst a))) pe)
     + qsum (map (fun a => snd a * (region_supply m y (fst (fst a)) (snd (fst a)) - region_supply m x (fst (fst a)) (snd (fst a)))) pf).
  Proof.
    destruct (priced_inv c tv tp m H_bids) as [_ [_ [_ [C _]]]].
    change (qsum (map ?f ?l)) with (sumQ f l).
    rewrite (sumQ_ext (fun a => snd a * (energy_balance m y dirs lf (fst a) - energy_balance m x dirs lf (fst a)))
      (fun a => sumQ (fun ui => if group (ui_unit ui) then (if String.eqb (fst a) (ui_region ui)
         then earns "energy" (ui_dt ui) (snd a) * (dispatch m y (ui_unit ui) "energy" (ui_dt ui) - dispatch m x (ui_unit ui) "energy" (ui_dt ui)) else 0) else 0) (c_ui c))).
    2:{ intros [r z]. cbn [fst snd]. rewrite group_balance, !region_supply_sum, C, !sumQ_filter, <- sumQ_sub, <- sumQ_scale.
        apply sumQ_ext. intros ui. destruct (String.eqb r (ui_region ui)); [|destruct (group (ui_unit ui)); ring].
        destruct (group (ui_unit ui)) eqn:G; [|rewrite (group_dispatch _ _ _ G); ring].
        unfold earns, rsign. destruct (_ && _); ring. }
    rewrite (sumQ_ext (fun a => snd a * (region_supply m y (fst (fst a)) (snd (fst a)) - region_supply m x (fst (fst a)) (snd (fst a))))
      (fun a => sumQ (fun ui => if group (ui_unit ui) then (if String.eqb (fst (fst a)) (ui_region ui)
         then earns (snd (fst a)) (ui_dt ui) (snd a) * (dispatch m y (ui_unit ui) (snd (fst a)) (ui_dt ui) - dispatch m x (ui_unit ui) (snd (fst a)) (ui_dt ui)) else 0) else 0) (c_ui c))).
    2:{ intros [[r s] z]. cbn [fst snd]. rewrite !region_supply_sum, C, !sumQ_filter, <- sumQ_sub, <- sumQ_scale.
        apply sumQ_ext. intros ui. destruct (String.eqb r (ui_region ui)); [|destruct (group (ui_unit ui)); ring].
        destruct (group (ui_unit ui)) eqn:G; [|rewrite (group_dispatch _ _ _ G); ring].
        unfold earns, rsign. destruct (_ && _); ring. }
    rewrite !(sumQ_swap _ _ (c_ui c)), <- sumQ_plus. unfold income. change (qsum (map ?f ?l)) with (sumQ f l).
    rewrite !sumQ_filter, <- sumQ_sub. apply sumQ_ext. intros ui. destruct (group (ui_unit ui)).
    2:{ rewrite !sumQ_zero by reflexivity. ring. }
    unfold energy_income, fcas_income. change (qsum (map ?f ?l)) with (sumQ f l). rewrite !sumQ_filter.
    match goal with |- ?a + ?b - (?c + ?d) == ?e + ?f => setoid_replace (a + b - (c + d)) with ((a - c) + (b - d)) by ring end.
    rewrite <- !sumQ_sub. apply Qplus_comp.
    - apply sumQ_ext. intros a. destruct (String.eqb _ _); ring.
    - apply sumQ_ext_in. intros a Ha. pose proof (H_reserves a Ha) as Na. destruct (String.eqb _ _); [|ring].
      unfold earns. rewrite (proj2 (String.eqb_neq _ _) Na), andb_false_r. ring.
  Qed.

  Lemma asked_diff : objective p y - objective p x == asked c m tp group y - asked c m tp group x.
  Proof.
    rewrite !(bids_objective c tv tp m p _ H_bids H_assemble).
    assert (V : violations_cost m y == violations_cost m x).
    { unfold violations_cost. change (qsum (map ?f ?l)) with (sumQ f l). apply sumQ_ext_in. intros k Hk.
      pose proof (held_reached _ _ _ H_demand) as R. pose proof (cost_is_def m k (reached_paired c m R) Hk) as D.
      apply in_map_iff in D. destruct D as [w [Ew Hw]]. apply in_dconcat in Hw. destruct Hw as [kk [ds [Hd Hw]]].
      destruct (priced_inv c tv tp m H_bids) as [_ [_ [[W _] _]]]. destruct H_only as [_ S2]. apply Qmult_comp; [reflexivity|].
      apply S2. intros b Hb E. destruct (m_bids m) as [vs|] eqn:Eb; [|destruct Hb]. apply (proj2 (bid_ids_lt m vs b W Eb Hb)).
      rewrite E, <- Ew. exact (in_def_ids m _ ds w Hd Hw). }
    rewrite V. unfold asked, bids_cost. cbn [bt_rows bt_bands]. change (qsum (map ?f ?l)) with (sumQ f l).
    rewrite !sumQ_filter.
    match goal with |- ?a + ?v - (?b + ?v) == ?c - ?d => setoid_replace (a + v - (b + v)) with (a - b) by ring end.
    rewrite <- !sumQ_sub. apply sumQ_ext. intros r. destruct (group (br_unit r)) eqn:G; [reflexivity|].
    change (qsum (map ?f ?l)) with (sumQ f l). rewrite <- sumQ_sub. rewrite sumQ_zero; [ring|]. intros b _.
    change (qsum (map ?f ?l)) with (sumQ f l). rewrite <- sumQ_sub. rewrite sumQ_zero; [reflexivity|]. intros u _.
    rewrite (group_band _ _ _ _ G). ring.
  Qed.

  Lemma idle_profit : (forall w, In w (rows_or_nil (m_bids m)) -> group (bv_unit w) = true -> y (bv_id w) == 0) ->
    profit c m tp group pe pf y == 0.
  Proof.
    intros Z. unfold profit, income, asked, bids_cost. change (qsum (map ?f ?l)) with (sumQ f l).
    assert (D : forall u s d, group u = true -> dispatch m y u s d == 0).
    { intros u s d G. unfold dispatch. change (qsum (map ?f ?l)) with (sumQ f l). apply sumQ_zero. intros w Hw. apply filter_In in Hw.
      destruct Hw as [Hw E]. rewrite !andb_true_iff, !String.eqb_eq in E. destruct E as [[E _] _]. subst u. auto. }
    assert (Db : forall u s d b, group u = true -> band_dispatch m y u s d b == 0).
    { intros u s d b G. unfold band_dispatch. change (qsum (map ?f ?l)) with (sumQ f l). apply sumQ_zero. intros w Hw. apply filter_In in Hw.
      destruct Hw as [Hw E]. rewrite !andb_true_iff, !String.eqb_eq in E. destruct E as [[[E _] _] _]. subst u. auto. }
    rewrite !sumQ_zero; [ring|..].
    - intros r Hr. cbn [bt_rows bt_bands] in *. apply filter_In in Hr. destruct Hr as [_ G]. change (qsum (map ?f ?l)) with (sumQ f l). apply sumQ_zero. intros b _.
      change (qsum (map ?f ?l)) with (sumQ f l). apply sumQ_zero. intros u _. rewrite (Db _ _ _ _ G). ring.
    - intros ui Hu. apply filter_In in Hu. destruct Hu as [_ G]. unfold energy_income, fcas_income. change (qsum (map ?f ?l)) with (sumQ f l).
      rewrite !sumQ_zero; [reflexivity|intros a _; rewrite (D _ _ _ G); ring|intros a _; rewrite (D _ _ _ G); ring].
  Qed.
End Group.

(** No group gains by running differently. *)
Lemma no_gain c l v dirs lf bps lr vr gu gr gi m p q x pi pe pf tv tp group y :
  held c (OpDemand l v) m -> network c dirs lf bps m -> (forall d, In d dirs -> in_from d <> in_to d) ->
  held c (OpFcasReq lr vr) m -> links c gu gr gi m -> (forall b, In b lr -> fq_service b <> "energy") ->
  assemble m = Ok p -> (forall k rows, In (k, rows) (m_mrhs m) -> all_present p rows) ->
  priced_problem m p q -> shadow_prices q x pi -> energy_prices m pi = Ok pe -> fcas_prices m pi = Ok pf ->
  priced c tv tp m -> only_group m group x y -> boxed q y ->
  (forall con, In con (p_cons q) -> (forall r, ~ balance_con m r con) -> (forall s, ~ set_con m s con) -> met_or_free pi y con) ->
  (forall b, In b lr -> linked m y gu gr gi (fq_set b) == linked m x gu gr gi (fq_set b)) ->
  profit c m tp group pe pf y <= profit c m tp group pe pf x.
Proof.
  intros H1 H2 H3 H4 H5 H6 H7 H8 H9 Sh H10 H11 P O B K Lk.
  pose proof (trade_marginal c l v dirs lf bps lr vr gu gr gi m p q x pi pe pf H1 H2 H3 H4 H5 H6 H7 H8 H9 H10 H11 y Sh B K
    (group_violations c l v m x tv tp group y P O H1 "demand") (group_violations c l v m x tv tp group y P O H1 "fcas") Lk) as M.
  pose proof (income_diff c dirs lf m x pe pf tv tp group y P O (fcas_priced_service c lr vr m pi pf H4 H6 H11)) as I.
  pose proof (asked_diff c l v m p x tv tp group y P O H1 H7) as A. unfold profit.
  set (e := qsum (map _ pe)) in *. set (f := qsum (map _ pf)) in *. lra.
Qed.

Lemma no_gain_energy c l v dirs lf bps m p q x pi pe tv tp group y :
  held c (OpDemand l v) m -> network c dirs lf bps m -> (forall d, In d dirs -> in_from d <> in_to d) ->
  assemble m = Ok p -> (forall d, In d l -> supplied m dirs (de_region d)) ->
  priced_problem m p q -> shadow_prices q x pi -> energy_prices m pi = Ok pe ->
  priced c tv tp m -> only_group m group x y -> boxed q y ->
  (forall con, In con (p_cons q) -> (forall r, ~ balance_con m r con) -> met_or_free pi y con) ->
  profit c m tp group pe [] y <= profit c m tp group pe [] x.
Proof.
  intros H1 H2 H3 H7 H8 H9 Sh H10 P O B K.
  pose proof (energy_marginal_all c l v dirs lf bps m p q x pi pe H1 H2 H3 H7 H9 H10 y Sh H8 B K (group_violations c l v m x tv tp group y P O H1 "demand")) as M.
  pose proof (income_diff c dirs lf m x pe [] tv tp group y P O ltac:(intros a [])) as I. cbn [map qsum] in I.
  pose proof (asked_diff c l v m p x tv tp group y P O H1 H7) as A. unfold profit.
  set (e := qsum (map _ pe)) in *. unfold qsum in I at 1. cbn in I. lra.
Qed.

Lemma no_loss c l v dirs lf bps lr vr gu gr gi m p q x pi pe pf tv tp group y :
  held c (OpDemand l v) m -> network c dirs lf bps m -> (forall d, In d dirs -> in_from d <> in_to d) ->
  held c (OpFcasReq lr vr) m -> links c gu gr gi m -> (forall b, In b lr -> fq_service b <> "energy") ->
  assemble m = Ok p -> (forall k rows, In (k, rows) (m_mrhs m) -> all_present p rows) ->
  priced_problem m p q -> shadow_prices q x pi -> energy_prices m pi = Ok pe -> fcas_prices m pi = Ok pf ->
  priced c tv tp m -> only_group m group x y ->
  (forall w, In w (rows_or_nil (m_bids m)) -> group (bv_unit w) = true -> y (bv_id w) == 0) -> boxed q y ->
  (forall con, In con (p_cons q) -> (forall r, ~ balance_con m r con) -> (forall s, ~ set_con m s con) -> met_or_free pi y con) ->
  (forall b, In b lr -> linked m y gu gr gi (fq_set b) == linked m x gu gr gi (fq_set b)) ->
  asked c m tp group x <= income c m group pe pf x.
Proof.
  intros H1 H2 H3 H4 H5 H6 H7 H8 H9 Sh H10 H11 P O Z B K Lk.
  pose proof (no_gain c l v dirs lf bps lr vr gu gr gi m p q x pi pe pf tv tp group y H1 H2 H3 H4 H5 H6 H7 H8 H9 Sh H10 H11 P O B K Lk) as G.
  rewrite (idle_profit c m pe pf tp group y Z) in G. unfold profit in G. lra.
Qed.

Lemma recorded_no_gain c l v dirs lr vr gu gr gi s a m old new tv tp p :
  reached c m -> sound s -> dispatch_market s a m old = (new, None) -> da_rerun a = false -> m_loss m = None -> assemble m = Ok p -> no_sets p ->
  held c (OpDemand l v) m -> network c dirs [] [] m -> (forall d, In d dirs -> in_from d <> in_to d) ->
  held c (OpFcasReq lr vr) m -> links c gu gr gi m -> (forall b, In b lr -> fq_service b <> "energy") -> priced c tv tp m ->
  exists x pi pe pf, d_value new = Some x /\ prices_recorded m new pi /\ recorded_energy_prices m new = Ok pe /\ fcas_prices m pi = Ok pf
    /\ forall group y, only_group m group x y -> boxed p y ->
       (forall con, In con (p_cons p) -> (forall r, ~ balance_con m r con) -> (forall s, ~ set_con m s con) -> con_holds y con) ->
       (forall b, In b lr -> linked m y gu gr gi (fq_set b) == linked m x gu gr gi (fq_set b)) ->
       profit c m tp group pe pf y <= profit c m tp group pe pf x.
Proof.
  intros R S D A L As Z H1 H2 H3 H4 H5 H6 P.
  destruct (lossless_prices c s a m old new R S D L A) as [p' [x [pi [As' [V [Rc [En Sh]]]]]]].
  rewrite As in As'. injection As' as <-. destruct (Sh Z) as [Sh1 Sh2].
  destruct (dispatch_records c s a m old new R S D) as [p' [_ [_ [_ [_ [As' [_ [_ [_ [_ [_ [_ [_ [_ All]]]]]]]]]]]]]].
  rewrite As in As'. injection As' as <-.
  destruct (held_demand _ _ _ _ H1) as [_ [_ [n [D1 _]]]]. destruct (held_fcas _ _ _ _ H4) as [_ [_ [k [G1 [G2 _]]]]].
  destruct (energy_prices m pi) as [pe|e] eqn:Ep; [|unfold energy_prices, need in Ep; rewrite D1 in Ep; discriminate].
  destruct (fcas_prices m pi) as [pf|e] eqn:Ef; [|unfold fcas_prices, need in Ef; rewrite G2, G1 in Ef; discriminate].
  exists x, pi, pe, pf. split; [exact V|]. split; [exact Rc|]. split; [exact En|]. split; [exact Ef|].
  intros group y O B K Lk.
  apply (no_gain c l v dirs [] [] lr vr gu gr gi m p p x pi pe pf tv tp group y); auto.
  intros con Hc N1 N2. left. auto.
Qed.
