(** Bids and interconnector flows at the prices that dispatch reports. *)

From Coq Require Import QArith Qminmax Lqa String List Bool Arith Lia ZArith Permutation.
Import ListNotations.
From Verif Require Import PandasModel TablesModel VariableIdsModel MarketConstraintsModel
  UnitConstraintsModel RampModel FcasModel InterModel ElasticModel MarketModel SolverModel PricingModel ReportsModel FcasReportsModel
  SpecLp PandasFacts SpecHistory SpecIds SpecDispatch SpecNetwork SpecElastic SpecPricing SpecPrices SpecDual
  StepFacts InvariantFacts OwnerFacts SolverFacts
  MeaningFacts LimitFacts TableFacts BidFacts JointRampFacts BalanceFacts GenericFacts ReportFacts FcasReportFacts DeficitFacts
  ElasticFacts ElasticTheoremFacts PriceStateFacts PriceFacts ExchangeFacts DualFacts DualMarketFacts.
Open Scope string_scope.
Open Scope list_scope.

(** ** Variables that the pricing problem leaves alone *)

Lemma unused_weights_ids sort x vs ws i : sorts sort -> In i (unused_weights sort x vs ws) -> exists w, In w ws /\ wv_id w = i.
Proof.
  intros S H. unfold unused_weights in H. apply in_flat_map in H. destruct H as [k [_ H]].
  apply in_map_iff in H. destruct H as [[a j] [E H]]. cbn [snd] in E. subst j.
  assert (K : In (a, i) (sort (map snd (filter (fun r => String.eqb (fst (fst r)) (fst k) && String.eqb (snd (fst r)) (snd k)) (weight_rows x vs ws))))).
  { rewrite <- (firstn_skipn 3 (sort _)). apply in_or_app. now right. }
  apply (Permutation_in _ (Permutation_sym (proj1 (S _)))) in K. apply in_map_iff in K. destruct K as [[kk nn] [E K]]. cbn [snd] in E. subst nn.
  apply filter_In in K. destruct K as [K _]. unfold weight_rows in K. apply in_map_iff in K. destruct K as [[v w] [E K]].
  apply in_merge_p in K. destruct K as [_ [K _]]. injection E as _ _ E. exists w. auto.
Qed.

Lemma disable_keeps ids p w : In w (p_vars p) -> ~ In (pv_id w) ids -> In w (p_vars (disable ids p)).
Proof.
  intros H N. unfold disable. cbn [p_vars]. apply in_map_iff. exists w. split; [|exact H].
  destruct (existsb (Nat.eqb (pv_id w)) ids) eqn:E; [|reflexivity]. exfalso. apply existsb_exists in E.
  destruct E as [i [Hi E]]. apply Nat.eqb_eq in E. subst i. now apply N.
Qed.

Lemma kept_var m p q w : priced_problem m p q -> In w (p_vars p) ->
  (forall i, In i (rows_or_nil (m_inter m)) -> iv_id i <> pv_id w) -> (forall i, In i (rows_or_nil (m_weights m)) -> wv_id i <> pv_id w) ->
  In w (p_vars q).
Proof.
  intros [sort [x0 [S H]]] Hw N1 N2.
  assert (K : In w (p_vars (pricing_problem sort m x0 p))).
  { unfold pricing_problem. destruct (m_loss m); [|exact Hw]. apply disable_keeps; [apply disable_keeps; [exact Hw|]|].
    - intros X. destruct (unused_weights_ids _ _ _ _ _ S X) as [i [Hi E]]. now apply (N2 i Hi).
    - intros X. unfold unused_links in X. apply in_map_iff in X. destruct X as [i [E X]]. apply filter_In in X. now apply (N1 i (proj1 X)). }
  destruct H as [->|[ec [ef [fc [prices H]]]]]; [exact K|].
  unfold rerun_problem in H. destruct (_ && _); [|discriminate]. injection H as <-. exact K.
Qed.

Lemma vars_once m p q : wf m -> assemble m = Ok p -> priced_problem m p q -> NoDup (map pv_id (p_vars q)).
Proof.
  intros W A P. destruct (priced_shape m p q P) as [_ [_ ->]]. destruct (assemble_parts m p A) as [-> _]. now apply wf_vars_NoDup.
Qed.

(** ** Moving one variable *)

Lemma mentions_dec con i : mentions con i \/ ~ mentions con i.
Proof.
  assert (N : existsb (fun t => Nat.eqb (fst t) i) (pc_terms con) = false -> forall z, ~ In (i, z) (pc_terms con)).
  { intros E z Hz. assert (X : existsb (fun t => Nat.eqb (fst t) i) (pc_terms con) = true); [|congruence].
    apply existsb_exists. eexists. split; [exact Hz|]. apply Nat.eqb_refl. }
  destruct (existsb (fun t => Nat.eqb (fst t) i) (pc_terms con)) eqn:E.
  - left. left. apply existsb_exists in E. destruct E as [[j z] [Hj E]]. apply Nat.eqb_eq in E. cbn in E. subst j. eauto.
  - destruct (pc_rhs con) as [z|j] eqn:Er.
    + right. intros [[z' Hz]|Hz]; [now apply (N eq_refl) in Hz|congruence].
    + destruct (Nat.eq_dec j i) as [->|Nj]; [left; now right|]. right. intros [[z' Hz]|Hz]; [now apply (N eq_refl) in Hz|congruence].
Qed.

Lemma region_term_moved vs x i e r s : region_term vs (moved x i e) r s == region_term vs x r s + e * region_term vs (at_one i) r s.
Proof. unfold region_term. rewrite <- sumQ_scale, <- sumQ_plus. apply sumQ_ext. intros t. unfold moved. ring. Qed.

Lemma region_term_at_one vs i r s : region_term vs (at_one i) r s
  == sumQ rv_coef (filter (fun v => String.eqb r (rv_region v) && String.eqb s (rv_service v)) (filter (fun v => Nat.eqb (rv_id v) i) vs)).
Proof.
  unfold region_term. rewrite !sumQ_filter. apply sumQ_ext. intros v. unfold at_one.
  destruct (Nat.eqb (rv_id v) i), (String.eqb r (rv_region v)), (String.eqb s (rv_service v)); cbn; ring.
Qed.

Lemma bid_not_violation m k v i : wf m -> In v (rows_or_nil (m_bids m)) -> In i (violation_vars m k) -> i <> bv_id v.
Proof.
  intros W Hv Hi E. subst i. destruct (m_bids m) as [vs|] eqn:Eb; [|destruct Hv]. apply (proj2 (bid_ids_lt m vs v W Eb Hv)).
  unfold violation_vars in Hi. apply in_map_iff in Hi. destruct Hi as [d [E Hd]]. rewrite <- E.
  destruct (dget (k ++ "_deficit")%string (m_deficits m)) as [ds|] eqn:Ed; [|destruct Hd].
  apply dget_in in Ed. exact (in_def_ids m _ ds d Ed Hd).
Qed.

(** One band: where its variable is, what it costs. *)
Section Band.
  Variables (c : config) (tv tp : bid_table) (m : market) (p q : problem) (x : assignment) (pi : nat -> Q)
    (u s d b : string) (v k : Q) (ui : unit_info_row).
  Hypothesis H_priced : priced c tv tp m.
  Hypothesis H_assemble : assemble m = Ok p.
  Hypothesis H_problem : priced_problem m p q.
  Hypothesis H_shadow : shadow_prices q x pi.
  Hypothesis H_volume : offered tv u s d b v.
  Hypothesis H_large : 1#10000 <= v.
  Hypothesis H_price : offered tp u s d b k.
  Hypothesis H_unit : In ui (c_ui c).
  Hypothesis H_name : ui_unit ui = u.
  Hypothesis H_side : ui_dt ui = d.

  Lemma band_facts : exists w, band_vars m u s d b = [w] /\ In w (rows_or_nil (m_bids m))
    /\ bv_unit w = u /\ bv_service w = s /\ bv_dt w = d
    /\ In (PVar (bv_id w) 0 (Some v)) (p_vars q)
    /\ linear (p_obj p) (at_one (bv_id w)) == mw_cost (ui_lf ui) s d k
    /\ places m (bv_id w) = [RV (bv_id w) (ui_region ui) s (region_sign s d)]
    /\ band_dispatch m x u s d b == x (bv_id w).
  Proof.
    destruct (priced_inv c tv tp m H_priced) as [R [I [[W O] [C _]]]].
    destruct H_volume as [rv [Hv [V1 [V2 [V3 [V4 V5]]]]]]. destruct H_price as [rp [Hp [P1 [P2 [P3 [P4 P5]]]]]].
    destruct (band_var c tv tp m rv b H_priced Hv V4) as [w [B1 [B2 [B3 [B4 [B5 [B6 [B7 B8]]]]]]]]; [now rewrite <- V5|].
    rewrite V1, V2, V3 in *. exists w. split; [exact B1|]. split; [exact B2|]. do 3 (split; [assumption|]).
    destruct (cost_of_var c tv tp m p w rp ui H_priced H_assemble B2 Hp) as [k' [K1 K2]]; try congruence.
    split; [|split; [|split]].
    - apply (kept_var m p q); auto.
      + destruct (assemble_parts m p H_assemble) as [-> _]. rewrite V5, <- B7, <- B8. now apply bid_pvar.
      + intros i Hi. now apply (inter_bid_distinct m).
      + intros i Hi. now apply (weights_bid m).
    - rewrite linear_at_one. unfold only_cost in K1. rewrite K1, sumQ_cons, sumQ_nil. cbn [snd]. rewrite K2, B4, B5, B6, P5. ring.
    - rewrite <- B4, <- B5. apply place_rows; auto; [now apply (reached_tidy c)|now rewrite C|congruence|congruence].
    - unfold band_dispatch. fold (band_vars m u s d b). rewrite B1. cbn. ring.
  Qed.

  (** A bid that gains from every step towards a bound is at the bound. *)
  Lemma band_at_price w gain : In (PVar (bv_id w) 0 (Some v)) (p_vars q) -> band_dispatch m x u s d b == x (bv_id w) ->
    linear (p_obj p) (at_one (bv_id w)) == mw_cost (ui_lf ui) s d k ->
    (forall e, boxed q (moved x (bv_id w) e) -> objective p x + gain * e <= objective p (moved x (bv_id w) e)) ->
    (mw_cost (ui_lf ui) s d k < gain -> band_dispatch m x u s d b == v)
    /\ (gain < mw_cost (ui_lf ui) s d k -> band_dispatch m x u s d b == 0).
  Proof.
    clear H_volume H_large H_price H_unit H_name H_side. intros Hw E Cost H. rewrite E. destruct (priced_inv c tv tp m H_priced) as [R [I [[W O] [C _]]]].
    pose proof (vars_once m p q W H_assemble H_problem) as ND. pose proof H_shadow as [[Bx _] _].
    destruct (Bx _ Hw) as [B1 B2]. cbn [pv_lb pv_ub pv_id] in B1, B2.
    assert (M : forall e, 0 <= x (bv_id w) + e -> x (bv_id w) + e <= v -> gain * e <= e * mw_cost (ui_lf ui) s d k).
    { intros e L U. pose proof (H e) as X. unfold objective in X. rewrite linear_moved, Cost in X.
      assert (Y : boxed q (moved x (bv_id w) e)).
      { apply (moved_boxed q x (PVar (bv_id w) 0 (Some v)) e ND Bx Hw); cbn; [exact L|]. intros u' Eu. inversion Eu; subst; exact U. }
      specialize (X Y). lra. }
    set (K := mw_cost (ui_lf ui) s d k) in *. split; intros G.
    - destruct (Qlt_le_dec (x (bv_id w)) v) as [L|L]; [exfalso|now apply Qle_antisym].
      specialize (M (v - x (bv_id w)) ltac:(lra) ltac:(lra)).
      assert (0 < (v - x (bv_id w)) * (gain - K)) by (apply Qmult_lt_0_compat; lra). lra.
    - destruct (Qlt_le_dec 0 (x (bv_id w))) as [L|L]; [exfalso|now apply Qle_antisym].
      specialize (M (- x (bv_id w)) ltac:(lra) ltac:(lra)).
      assert (0 < x (bv_id w) * (K - gain)) by (apply Qmult_lt_0_compat; lra). lra.
  Qed.
End Band.

(** ** Energy bids *)

Lemma energy_band c l v0 dirs lf bps m p q x pi ps tv tp u d b v k ui price :
  held c (OpDemand l v0) m -> network c dirs lf bps m -> (forall d, In d dirs -> in_from d <> in_to d) ->
  assemble m = Ok p -> priced_problem m p q -> shadow_prices q x pi -> energy_prices m pi = Ok ps ->
  priced c tv tp m -> offered tv u "energy" d b v -> 1#10000 <= v -> offered tp u "energy" d b k ->
  In ui (c_ui c) -> ui_unit ui = u -> ui_dt ui = d -> In (ui_region ui, price) ps ->
  (forall w con, In w (band_vars m u "energy" d b) -> In con (p_cons q) -> mentions con (bv_id w) ->
     ~ balance_con m (ui_region ui) con -> pi (pc_id con) == 0) ->
  (mw_cost (ui_lf ui) "energy" d k < earns "energy" d price -> band_dispatch m x u "energy" d b == v)
  /\ (earns "energy" d price < mw_cost (ui_lf ui) "energy" d k -> band_dispatch m x u "energy" d b == 0).
Proof.
  intros HD HN HE A PP Sh Rep P Ov Lv Op Hu U1 U2 Hp Fr.
  destruct (band_facts c tv tp m p q x u "energy" d b v k ui P A PP Ov Lv Op Hu U1 U2) as [w [B1 [B2 [B3 [B4 [B5 [B6 [B7 [B8 B9]]]]]]]]].
  apply (band_at_price c tv tp m p q x pi u "energy" d b v k ui P A PP Sh w); auto.
  intros e Bx. destruct (priced_inv c tv tp m P) as [R [I [[W O] [C _]]]].
  assert (Eg : earns "energy" d price * e == price * (region_sign "energy" d * e)).
  { unfold earns, region_sign. destruct (_ && _); ring. }
  rewrite Eg.
  apply (energy_marginal c l v0 dirs lf bps m p q x pi ps HD HN HE A PP Rep (ui_region ui)); auto.
  - left. exists ui. rewrite C. split; [exact Hu|]. split; [reflexivity|]. exists w. split; [exact B2|]. split; [congruence|]. split; congruence.
  - intros con Hc N.
    destruct (mentions_dec con (bv_id w)) as [Y|Y].
    + right. apply (Fr w con); auto. rewrite B1. now left.
    + left. apply unmentioned_holds; [exact Y|]. destruct Sh as [[_ [Hh _]] _]. auto.
  - intros i Hi. apply moved_other. now apply (bid_not_violation m "demand" w i).
  - pose proof (network_inv _ _ _ _ _ HN) as [_ [_ [k' [nv T]]]].
    rewrite <- !(balance_value m _ dirs lf k' nv _ W T HE), region_term_moved, region_term_at_one.
    unfold places in B8. rewrite B8. cbn [filter rv_region rv_service]. rewrite !String.eqb_refl. cbn [andb]. rewrite sumQ_cons, sumQ_nil.
    cbn [rv_coef]. ring.
Qed.

(** ** FCAS bids *)

Lemma dispatch_other m x w e u s d : wf m -> In w (rows_or_nil (m_bids m)) -> (u, s, d) <> (bv_unit w, bv_service w, bv_dt w) ->
  dispatch m (moved x (bv_id w) e) u s d == dispatch m x u s d.
Proof.
  intros W Hw N. unfold dispatch. change (qsum (map ?f ?l)) with (sumQ f l). apply sumQ_ext_in. intros v Hv. apply filter_In in Hv.
  destruct Hv as [Hv E]. rewrite !andb_true_iff, !String.eqb_eq in E. apply moved_other. intros Ei.
  assert (v = w) by (apply (NoDup_map_inj bv_id (rows_or_nil (m_bids m))); auto; now apply bid_ids_NoDup). subst v.
  apply N. destruct E as [[-> ->] ->]. reflexivity.
Qed.

Lemma flow_unmoved m x w e i : wf m -> In w (rows_or_nil (m_bids m)) ->
  interconnector_flow m (moved x (bv_id w) e) i == interconnector_flow m x i.
Proof.
  intros W Hw. unfold interconnector_flow. change (qsum (map ?f ?l)) with (sumQ f l). apply sumQ_ext_in. intros v Hv. apply filter_In in Hv.
  rewrite moved_other; [reflexivity|]. apply (inter_bid_distinct m); tauto.
Qed.

Lemma linked_unmoved m x w e gu gr gi s ui : wf m -> In w (rows_or_nil (m_bids m)) -> In ui (c_ui (m_cfg m)) ->
  ui_unit ui = bv_unit w -> ui_dt ui = bv_dt w -> NoDup (map (fun u => (ui_unit u, ui_dt u)) (c_ui (m_cfg m))) ->
  unlinked gu gr (bv_unit w) (ui_region ui) (bv_service w) ->
  linked m (moved x (bv_id w) e) gu gr gi s == linked m x gu gr gi s.
Proof.
  intros W Hw Hu U1 U2 ND [N1 N2]. unfold linked. change (qsum (map ?f ?l)) with (sumQ f l).
  apply Qplus_comp; [apply Qplus_comp|]; apply sumQ_ext_in; intros g Hg; apply filter_In in Hg; destruct Hg as [Hg _];
    (apply Qmult_comp; [reflexivity|]).
  - assert (X : forall d, dispatch m (moved x (bv_id w) e) (gu_unit g) (gu_service g) d == dispatch m x (gu_unit g) (gu_service g) d).
    { intros d. apply dispatch_other; auto. intros E. injection E as E1 E2 E3. now apply (N1 g). }
    unfold unit_output. destruct (has_side (m_cfg m) (gu_unit g) "generator"), (has_side (m_cfg m) (gu_unit g) "load");
      destruct (String.eqb (gu_service g) "energy"); cbn [andb]; rewrite ?X; reflexivity.
  - unfold region_dispatch. change (qsum (map ?f ?l)) with (sumQ f l). apply sumQ_ext_in. intros u Hu'. apply filter_In in Hu'.
    destruct Hu' as [Hu' E]. apply String.eqb_eq in E. apply dispatch_other; auto. intros E'. injection E' as E1 E2 E3.
    assert (u = ui) by (apply (NoDup_map_inj (fun u => (ui_unit u, ui_dt u)) (c_ui (m_cfg m))); auto; congruence). subst u.
    now apply (N2 g).
  - now apply flow_unmoved.
Qed.

Lemma fcas_band c l v0 gu gr gi m p q x pi ps tv tp u s d b v k ui price :
  held c (OpFcasReq l v0) m -> links c gu gr gi m -> (forall b, In b l -> fq_service b <> "energy") ->
  assemble m = Ok p -> priced_problem m p q -> shadow_prices q x pi -> fcas_prices m pi = Ok ps ->
  priced c tv tp m -> offered tv u s d b v -> 1#10000 <= v -> offered tp u s d b k ->
  In ui (c_ui c) -> ui_unit ui = u -> ui_dt ui = d -> In ((ui_region ui, s), price) ps ->
  unlinked gu gr u (ui_region ui) s ->
  (forall w con, In w (band_vars m u s d b) -> In con (p_cons q) -> mentions con (bv_id w) ->
     (forall set, set_con m set con -> ~ required l set (ui_region ui) s) -> pi (pc_id con) == 0) ->
  (k < price -> band_dispatch m x u s d b == v) /\ (price < k -> band_dispatch m x u s d b == 0).
Proof.
  intros HD HN HE A PP Sh Rep P Ov Lv Op Hu U1 U2 Hp Un Fr.
  destruct (priced_inv c tv tp m P) as [R [I [[W O] [C _]]]].
  destruct (held_fcas _ _ _ _ HD) as [_ [_ [n [D1 [D2 G]]]]].
  assert (Se : s <> "energy").
  { unfold fcas_prices, need in Rep. rewrite D2, D1 in Rep. injection Rep as E. rewrite <- E in Hp.
    apply group_row in Hp; [|exact rs_ok]. destruct Hp as [Hp _]. apply in_map_iff in Hp. destruct Hp as [[a b'] [E' Hp]].
    apply in_merge_p in Hp. cbn [fst] in E', Hp. destruct Hp as [Hp _]. unfold fcas_map in Hp. apply in_map_iff in Hp.
    destruct Hp as [[b0 [i0 a0]] [E0 Hp]]. apply in_merge_p in Hp. destruct Hp as [Hp _]. rewrite <- E0 in E'. cbn in E'. injection E' as E1 E2.
    rewrite <- E2. now apply HE. }
  destruct (band_facts c tv tp m p q x u s d b v k ui P A PP Ov Lv Op Hu U1 U2) as [w [B1 [B2 [B3 [B4 [B5 [B6 [B7 [B8 B9]]]]]]]]].
  assert (Cost : mw_cost (ui_lf ui) s d k = k) by (unfold mw_cost; now rewrite (proj2 (String.eqb_neq s "energy") Se)).
  rewrite <- Cost.
  apply (band_at_price c tv tp m p q x pi u s d b v k ui P A PP Sh w); auto.
  intros e Bx.
  apply (fcas_marginal c l v0 gu gr gi m p q x pi ps HD HN HE A PP Rep (ui_region ui) s); auto.
  - exists ui. rewrite C. split; [exact Hu|]. split; [reflexivity|]. exists w. split; [exact B2|]. split; [congruence|]. split; congruence.
  - intros con Hc N. destruct (mentions_dec con (bv_id w)) as [Y|Y].
    + right. apply (Fr w con); auto. rewrite B1. now left.
    + left. apply unmentioned_holds; [exact Y|]. destruct Sh as [[_ [Hh _]] _]. auto.
  - intros i Hi. apply moved_other. now apply (bid_not_violation m "fcas" w i).
  - intros set [b0 [Hb [R1 [R2 R3]]]]. unfold set_total.
    assert (ND : NoDup (map (fun u => (ui_unit u, ui_dt u)) (c_ui (m_cfg m)))).
    { apply FOP_NoDup_map. pose proof (wf_cfg m W) as Ck. unfold check_unit_info in Ck.
      apply (FOP_impl (fun a b => String.eqb (ui_unit a) (ui_unit b) && String.eqb (ui_dt a) (ui_dt b) = false)).
      - intros a a' E E2. injection E2 as E2 E3. rewrite E2, E3, !String.eqb_refl in E. discriminate.
      - eapply no_repeats_in; [exact Ck|cbn; auto 10]. }
    rewrite (linked_unmoved m x w e gu gr gi set ui) by (auto; try congruence; rewrite B3, B4; exact Un).
    assert (EO : energy_only m) by now apply (reached_energy_only c).
    assert (V : set_supply m (moved x (bv_id w) e) l set == set_supply m x l set + e); [|rewrite V; ring].
    unfold set_supply. change (qsum (map ?f ?l)) with (sumQ f l).
    rewrite (sumQ_ext_in _ (fun r => region_supply m x (fq_region r) (fq_service r) + (if wanted (ui_region ui) s r then e else 0))).
    + rewrite sumQ_plus. apply Qplus_comp; [reflexivity|].
      rewrite (sumQ_pick (fun _ => e) (wanted (ui_region ui) s) b0); [reflexivity|..].
      * apply filter_In. rewrite R1. split; [exact Hb|apply String.eqb_refl].
      * now apply wanted_ok.
      * intros a Ha Wa. apply filter_In in Ha. destruct Ha as [Ha Ea]. apply String.eqb_eq in Ea. apply wanted_ok in Wa.
        apply (NoDup_map_inj (fun r => (fq_set r, fq_region r, fq_service r)) l); auto; [exact (requirement_once c l v0 m HD)|].
        destruct Wa as [-> ->]. congruence.
      * apply NoDup_filter. pose proof (requirement_once c l v0 m HD) as NDl. now apply NoDup_map_inv in NDl.
    + intros a Ha. apply filter_In in Ha. destruct Ha as [Ha _]. pose proof (HE a Ha) as Na.
      rewrite <- !(ancillary_value m _ _ _ W EO Na), region_term_moved, region_term_at_one. unfold places in B8. rewrite B8.
      unfold wanted. cbn [filter rv_region rv_service]. rewrite (String.eqb_sym (fq_region a)), (String.eqb_sym (fq_service a)).
      destruct (String.eqb (ui_region ui) (fq_region a) && String.eqb s (fq_service a)).
      * rewrite sumQ_cons, sumQ_nil. cbn [rv_coef]. unfold region_sign.
        rewrite (proj2 (String.eqb_neq s "energy") Se), andb_false_r. ring.
      * rewrite sumQ_nil. ring.
Qed.
