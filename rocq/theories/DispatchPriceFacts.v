(** When the prices of market constraints can be read. *)

From Coq Require Import QArith Qminmax Lqa String List Bool Arith Lia ZArith Permutation.
Import ListNotations.
From Verif Require Import PandasModel TablesModel VariableIdsModel MarketConstraintsModel
  UnitConstraintsModel RampModel FcasModel InterModel ElasticModel MarketModel SolverModel PricingModel ReportsModel FcasReportsModel DispatchPricesModel
  SpecLp PandasFacts SpecHistory SpecIds SpecDispatch SpecNetwork SpecElastic SpecPricing SpecPrices SpecDual
  StepFacts InvariantFacts OwnerFacts SolverFacts
  MeaningFacts LimitFacts TableFacts BidFacts BalanceFacts DeficitFacts
  ElasticStateFacts ElasticFacts ElasticFacts2 ElasticTheoremFacts PriceStateFacts ExchangeFacts DualFacts DualMarketFacts DualBidFacts DualCapFacts.
Open Scope string_scope.
Open Scope list_scope.

Lemma price_constraints_ok q pi ids : (forall i, In i ids -> In i (map pc_id (p_cons q))) ->
  price_constraints q pi ids = Ok (map (fun i => (i, pi i)) ids).
Proof.
  induction ids as [|i t IH]; intros H; [reflexivity|]. cbn [price_constraints map].
  assert (E : price_constraint q pi i = Ok (i, pi i)).
  { unfold price_constraint. destruct (existsb _ _) eqn:E; [reflexivity|]. exfalso.
    assert (X : In i (map pc_id (p_cons q))) by (apply H; now left). apply in_map_iff in X. destruct X as [c [Ec Hc]].
    assert (Y : existsb (fun c => Nat.eqb (pc_id c) i) (p_cons q) = true); [|congruence].
    apply existsb_exists. exists c. split; [exact Hc|]. now apply Nat.eqb_eq. }
  rewrite E. cbn [bind]. rewrite IH by (intros; apply H; now right). reflexivity.
Qed.

Lemma price_constraints_err q pi ids i : In i ids -> ~ In i (map pc_id (p_cons q)) -> price_constraints q pi ids = Err EAttribute.
Proof.
  induction ids as [|j t IH]; intros H N; [destruct H|]. cbn [price_constraints].
  destruct (price_constraint q pi j) as [a|e] eqn:E.
  - cbn [bind]. destruct H as [->|H].
    + unfold price_constraint in E. destruct (existsb _ _) eqn:X; [|discriminate]. apply existsb_exists in X. destruct X as [c [Hc X]].
      apply Nat.eqb_eq in X. destruct N. rewrite <- X. now apply in_map.
    + now rewrite (IH H N).
  - cbn [bind]. unfold price_constraint in E. destruct (existsb _ _); [discriminate|]. congruence.
Qed.

(** Every row of the group is in the problem. *)
Lemma price_groups_ok q pi d : (forall k rows, In (k, rows) d -> all_present q rows) ->
  price_groups q pi d = Ok (map (fun a => (fst a, map (fun r => (cr_id r, pi (cr_id r))) (snd a))) d).
Proof.
  induction d as [|[k rows] t IH]; intros H; [reflexivity|]. cbn [price_groups map fst snd].
  rewrite price_constraints_ok.
  - cbn [bind]. rewrite IH by (intros k' r' H'; apply (H k'); now right). cbn [bind]. now rewrite map_map.
  - intros i Hi. apply in_map_iff in Hi. destruct Hi as [r [<- Hr]].
    destruct (H k rows (or_introl eq_refl) r Hr) as [c [Hc E]]. rewrite <- E. now apply in_map.
Qed.

Lemma price_groups_err q pi d k rows r : In (k, rows) d -> In r rows -> ~ In (cr_id r) (map pc_id (p_cons q)) ->
  price_groups q pi d = Err EAttribute.
Proof.
  induction d as [|[k' rows'] t IH]; intros H Hr N; [destruct H|]. cbn [price_groups].
  destruct H as [H|H].
  - injection H as -> ->. rewrite (price_constraints_err q pi _ (cr_id r)); auto. now apply in_map.
  - destruct (price_constraints q pi (map cr_id rows')) as [a|e] eqn:E.
    + cbn [bind]. rewrite (IH H Hr N). reflexivity.
    + cbn [bind]. revert E. clear. induction (map cr_id rows') as [|i l IHl]; cbn [price_constraints]; [discriminate|].
      unfold price_constraint. destruct (existsb _ _); cbn [bind]; [|intros E; injection E as <-; reflexivity].
      destruct (price_constraints q pi l) as [b|e']; cbn [bind]; [discriminate|]. intros E. apply IHl. exact E.
Qed.

Lemma present_dec (q : problem) rows : all_present q rows \/ exists r, In r rows /\ ~ In (cr_id r) (map pc_id (p_cons q)).
Proof.
  induction rows as [|r t IH]; [left; intros r []|]. destruct (in_dec Nat.eq_dec (cr_id r) (map pc_id (p_cons q))) as [Y|N].
  - destruct IH as [IH|[r' [H N]]]; [|right; exists r'; split; [now right|exact N]].
    left. intros r' [<-|H]; [|now apply IH]. apply in_map_iff in Y. destruct Y as [c [E Hc]]. exists c. auto.
  - right. exists r. split; [now left|exact N].
Qed.

(** Prices come back exactly if every row is in the problem; otherwise the read fails. *)
Lemma price_market_exact m p q pi : priced_problem m p q ->
  (price_market m q pi = Ok (map (fun a => (fst a, map (fun r => (cr_id r, pi (cr_id r))) (snd a))) (m_mrhs m))
     /\ forall k rows, In (k, rows) (m_mrhs m) -> all_present p rows)
  \/ (price_market m q pi = Err EAttribute /\ exists k rows, In (k, rows) (m_mrhs m) /\ ~ all_present p rows).
Proof.
  intros PP. destruct (priced_shape m p q PP) as [_ [F _]]. pose proof (like_ids _ _ F) as Ids.
  assert (Pr : forall rows, all_present q rows <-> all_present p rows).
  { intros rows. unfold all_present. split; intros H r Hr; destruct (H r Hr) as [c [Hc E]];
      assert (X : In (cr_id r) (map pc_id (p_cons p))) by (first [rewrite <- Ids, <- E; now apply in_map|rewrite <- E; now apply in_map]);
      [|rewrite <- Ids in X]; apply in_map_iff in X; destruct X as [c' [E' Hc']]; exists c'; auto. }
  assert (D : (forall k rows, In (k, rows) (m_mrhs m) -> all_present q rows)
    \/ exists k rows r, In (k, rows) (m_mrhs m) /\ In r rows /\ ~ In (cr_id r) (map pc_id (p_cons q))).
  { induction (m_mrhs m) as [|[k rows] t IH]; [left; intros k rows []|].
    destruct (present_dec q rows) as [Y|[r [Hr N]]].
    - destruct IH as [IH|[k' [rows' [r [H1 [H2 H3]]]]]]; [left|right; exists k', rows', r; split; [now right|auto]].
      intros k' rows' [H|H]; [injection H as <- <-; exact Y|now apply (IH k')].
    - right. exists k, rows, r. split; [now left|auto]. }
  unfold price_market. destruct D as [D|[k [rows [r [H1 [H2 H3]]]]]].
  - left. split; [now apply price_groups_ok|]. intros k rows H. apply Pr. now apply (D k).
  - right. split; [now apply (price_groups_err q pi _ k rows r)|]. exists k, rows. split; [exact H1|]. intros X. apply Pr in X.
    destruct (X r H2) as [c [Hc E]]. apply H3. rewrite <- E. now apply in_map.
Qed.

(** ** The price of energy and its cap *)

Lemma elastic_present c k v m g p : made_elastic c k v m -> once v -> group m k = Some g ->
  (forall r, In r g -> exists q, cost_of v r q) -> assemble m = Ok p -> (forall r, In r g -> mem_str (cr_type r) ["<="; ">="; "="] = true) ->
  all_present p g.
Proof.
  intros M Ov G P A Ty r Hr. assert (Ne : g <> []) by (intros ->; destruct Hr).
  destruct (elastic_parts c k v m g M Ov G Ne P) as [O [T [K [Rin [ND [n [HL [HD HC]]]]]]]].
  destruct (P r Hr) as [q Hq]. assert (Hrow : In (r, q) (costed v g)) by (apply costed_in; auto).
  assert (X : exists d, In d (filter (d_at (cr_id r)) (deficit_rows (costed v g) n))).
  { destruct (deficit_pick (costed v g) n r q ND Hrow) as [P1 [P2 P3]]. specialize (Ty r Hr). cbn in Ty.
    rewrite !orb_true_iff, !String.eqb_eq in Ty. destruct Ty as [Ty|[Ty|[Ty|Ty]]]; [| | |discriminate].
    - destruct (P2 Ty) as [i Hi]. rewrite Hi. eexists. now left.
    - destruct (P1 Ty) as [i Hi]. rewrite Hi. eexists. now left.
    - destruct (P3 Ty) as [i [j Hi]]. rewrite Hi. eexists. now left. }
  destruct X as [d Hd]. apply filter_In in Hd. destruct Hd as [Hd E]. unfold d_at in E. apply Nat.eqb_eq in E.
  assert (Hl : In (LRow (cr_id r) (d_id d) (d_coef d)) (all_lhs m)).
  { unfold all_lhs. apply in_or_app. left. apply in_dconcat. exists (deficit_key k), (deficit_lhs (costed v g) n).
    split; [now apply dget_in|]. unfold deficit_lhs. apply in_map_iff. exists d. split; [|exact Hd]. rewrite <- E. now destruct d as [[i [r' q']] z]. }
  destruct (lhs_con m p _ A Hl) as [con [Hc Ec]].
  - eexists. exact (group_static m k g r G Hr).
  - exists con. auto.
Qed.

Lemma energy_price_cap c l v0 v cap m p q x pi ps r price : held c (OpDemand l v0) m -> made_elastic c "demand" v m -> v = VNum cap ->
  assemble m = Ok p -> priced_problem m p q -> shadow_prices q x pi -> energy_prices m pi = Ok ps ->
  In (r, price) ps -> - cap <= price <= cap.
Proof.
  intros HD M -> A PP Sh Rep Hp. destruct (held_demand _ _ _ _ HD) as [O [C [n [D1 [D2 G]]]]].
  unfold energy_prices, need in Rep. rewrite D1 in Rep. injection Rep as E. rewrite <- E in Hp.
  apply in_map_iff in Hp. destruct Hp as [row [E' Hr]]. injection E' as _ <-.
  assert (Gr : group m "demand" = Some (energy_rhs l n)) by (unfold group; now rewrite D1).
  assert (P : forall r0, In r0 (energy_rhs l n) -> exists q0, cost_of (VNum cap) r0 q0) by (intros; eexists; reflexivity).
  assert (Ty : forall r0, In r0 (energy_rhs l n) -> cr_type r0 = "=").
  { intros r0 H0. destruct (demand_rows l n r0 H0) as [d [_ [_ ->]]]. reflexivity. }
  destruct (elastic_present c "demand" (VNum cap) m _ p M I Gr P A ltac:(intros r0 H0; rewrite (Ty r0 H0); reflexivity) row Hr) as [con [Hc Ec]].
  destruct (priced_shape m p q PP) as [_ [F _]]. pose proof (like_ids _ _ F) as Ids.
  assert (X : In (cr_id row) (map pc_id (p_cons q))) by (rewrite Ids, <- Ec; now apply in_map).
  apply in_map_iff in X. destruct X as [con' [E2 Hc']].
  assert (Ne : energy_rhs l n <> []) by (intros Z; rewrite Z in Hr; destruct Hr).
  destruct (price_cap c "demand" (VNum cap) m _ p q x pi M I Gr Ne P A PP Sh con' row cap Hc' Hr E2 eq_refl) as [_ [_ B]].
  rewrite <- E2. now apply B, Ty.
Qed.

(** Demand in supplied regions has a price. *)
Lemma demand_present c l v dirs lf bps m p : held c (OpDemand l v) m -> network c dirs lf bps m -> assemble m = Ok p ->
  (forall d, In d l -> supplied m dirs (de_region d)) -> exists g, group m "demand" = Some g /\ all_present p g.
Proof.
  intros HD HN A Su. destruct (held_demand _ _ _ _ HD) as [O [C [n [D1 [D2 G]]]]]. exists (energy_rhs l n).
  split; [unfold group; now rewrite D1|]. intros row Hr. destruct (demand_rows l n row Hr) as [d [Hd [Hi E]]].
  exact (balance_present c l v dirs lf bps m p HD HN A (de_region d) (cr_id row) n d (Su d Hd) D1 Hi eq_refl).
Qed.

Lemma fcas_present c l v m p : held c (OpFcasReq l v) m -> assemble m = Ok p ->
  (forall b, In b l -> exists b', In b' l /\ fq_set b' = fq_set b /\ region_offers m (fq_region b') (fq_service b')) ->
  exists g, group m "fcas" = Some g /\ all_present p g.
Proof.
  intros HF A Of. destruct (held_fcas _ _ _ _ HF) as [O [C [n [D1 [D2 G]]]]]. exists (fcas_rhs l n).
  split; [unfold group; now rewrite D1|]. intros row Hr. unfold fcas_rhs in Hr. apply in_map_iff in Hr. destruct Hr as [[i b] [<- Hb]].
  cbn [cr_id]. assert (Hl : In b l).
  { unfold fcas_ids in Hb. apply in_save_index in Hb. destruct Hb as [_ Hb]. now apply drop_duplicates_incl in Hb. }
  destruct (Of b Hl) as [b' [Hb' [E R]]].
  destruct (set_present l m p A n b' D1 D2 (proj1 O) Hb' R) as [con [Hc Ec]].
  exists con. split; [exact Hc|]. rewrite Ec, E. now apply set_id_is.
Qed.

(** Every group elastic: every constraint has a price. *)
Lemma elastic_prices c m p q pi : (forall k g, In (k, g) (m_mrhs m) -> exists v, made_elastic c k v m /\ once v
    /\ (forall r, In r g -> mem_str (cr_type r) ["<="; ">="; "="] = true /\ exists cost, cost_of v r cost)) ->
  assemble m = Ok p -> priced_problem m p q ->
  price_market m q pi = Ok (map (fun a => (fst a, map (fun r => (cr_id r, pi (cr_id r))) (snd a))) (m_mrhs m)).
Proof.
  intros El A PP. destruct (price_market_exact m p q pi PP) as [[X _]|[_ [k [g [H N]]]]]; [exact X|]. exfalso. apply N.
  destruct (El k g H) as [v [M [Ov P]]]. apply (elastic_present c k v m g p); auto.
  - unfold group. destruct (reached_owned c m (proj1 (made_elastic_state c k v m M))) as [O _].
    destruct O as [_ [f [n O]]]. pose proof (proj1 (proj2 (ow_keys f n m O))) as ND. now rewrite (in_dget k _ g ND H).
  - intros r Hr. now apply P.
  - intros r Hr. now apply P.
Qed.

(** ** The problem behind the prices *)

Lemma pricing_keeps m p q : priced_problem m p q -> p_obj q = p_obj p
  /\ (forall con', In con' (p_cons q) -> exists con, In con (p_cons p) /\ pc_id con' = pc_id con /\ pc_type con' = pc_type con /\ pc_terms con' = pc_terms con)
  /\ map pc_id (p_cons q) = map pc_id (p_cons p)
  /\ map pv_id (p_vars q) = map pv_id (p_vars p)
  /\ (forall w, In w (p_vars p) ->
       (forall i, In i (rows_or_nil (m_inter m)) -> iv_id i = pv_id w -> iv_inter i = iv_link i) ->
       (forall i, In i (rows_or_nil (m_weights m)) -> wv_id i <> pv_id w) -> In w (p_vars q)).
Proof.
  intros PP. destruct (priced_shape m p q PP) as [E [F V]]. split; [exact E|]. split; [|split; [now apply like_ids|split; [exact V|]]].
  - intros con' H. destruct (like_in _ _ _ F H) as [con [Hc [L1 [L2 [L3 _]]]]]. exists con. auto.
  - destruct PP as [sort [x0 [S H]]]. intros w Hw N1 N2.
    assert (K : In w (p_vars (pricing_problem sort m x0 p))).
    { unfold pricing_problem. destruct (m_loss m); [|exact Hw]. apply disable_keeps; [apply disable_keeps; [exact Hw|]|].
      - intros X. destruct (unused_weights_ids _ _ _ _ _ S X) as [i [Hi Ei]]. now apply (N2 i Hi).
      - intros X. unfold unused_links in X. apply in_map_iff in X. destruct X as [i [Ei X]]. apply filter_In in X. destruct X as [Hi X].
        rewrite (N1 i Hi Ei), String.eqb_refl in X. discriminate. }
    destruct H as [->|[ec [ef [fc [prices H]]]]]; [exact K|].
    unfold rerun_problem in H. destruct (_ && _); [|discriminate]. injection H as <-. exact K.
Qed.

(** Without a re-run also the right-hand sides stay. *)
Lemma pricing_same_cons sort m x0 p : p_cons (pricing_problem sort m x0 p) = p_cons p.
Proof. exact (proj1 (proj2 (pricing_shape sort m x0 p))). Qed.
