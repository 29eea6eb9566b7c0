(** C67-C71: reported prices. *)

From Coq Require Import QArith Qabs Lqa String List Bool Arith.
Import ListNotations.
From Verif Require Import PandasModel TablesModel MarketModel SolverModel PricingModel ReportsModel FcasReportsModel DispatchPricesModel
  SpecLp SpecHistory SpecDispatch SpecNetwork SpecElastic SpecPricing SpecPrices SpecDual
  Fixtures CheckFacts CheckLpFacts CheckNetworkFacts CheckPricingFacts CheckElasticFacts CheckDualFacts
  DualFacts DualMarketFacts DualBidFacts DualLinkFacts DualCapFacts DispatchPriceFacts.
Open Scope string_scope.
Open Scope list_scope.

(** ** A market with losses, a load, a reserve and elastic constraints *)

Definition du_config : config :=
  Config ["NSW"; "VIC"] [UnitInfo "A" "NSW" "generator" (9#10); UnitInfo "B" "NSW" "generator" 1;
                         UnitInfo "C" "VIC" "generator" 1; UnitInfo "L" "NSW" "load" 1] 5.
Definition du_volumes : bid_table := BidTable ["1"; "2"]
  [BidRow "A" "energy" "generator" (fx_two 40 40); BidRow "B" "energy" "generator" (fx_two 60 0);
   BidRow "C" "energy" "generator" (fx_two 82 0); BidRow "L" "energy" "load" (fx_two 10 0);
   BidRow "A" "raise_6s" "generator" (fx_two 10 0); BidRow "B" "raise_6s" "generator" (fx_two 20 0)].
Definition du_prices : bid_table := BidTable ["1"; "2"]
  [BidRow "A" "energy" "generator" (fx_two 36 45); BidRow "B" "energy" "generator" (fx_two 45 45);
   BidRow "C" "energy" "generator" (fx_two 10 10); BidRow "L" "energy" "load" (fx_two 60 60);
   BidRow "A" "raise_6s" "generator" (fx_two 2 2); BidRow "B" "raise_6s" "generator" (fx_two 6 6)].
Definition du_link : inter_row := Inter "VNI" "VNI" "NSW" "VIC" 150 0 1 1 1.
Definition du_loss : list lossfn_row := [LossFn "VNI" "VNI" (1#2) (fun f => f * f / 1000)].
Definition du_points : list bp_row := [Bp "VNI" "VNI" 1 0; Bp "VNI" "VNI" 2 50; Bp "VNI" "VNI" 3 100; Bp "VNI" "VNI" 4 150].
Definition du_demand : list demand_row := [Demand "NSW" 120; Demand "VIC" 20].
Definition du_reserve : list fcas_req_row := [FcasReq "R6" "NSW" "raise_6s" 15 ">="].
Definition du_rest : list op :=
  [OpDemand du_demand None; OpFcasReq du_reserve None; OpInterconnectors [du_link]; OpLosses du_loss du_points;
   OpElastic "demand" (VNum 1000); OpElastic "fcas" (VTable [("R6", 700)])].
Definition du_ops : list op := OpVolumeBids du_volumes :: OpPriceBids du_prices :: du_rest.
Definition du_market : market := final du_config du_ops.
Definition du_problem : problem :=
  Eval vm_compute in match assemble du_market with Ok p => p | Err _ => Problem [] [] [] [] [] end.
(** A 1, A 1 reserve, A 2, B 1, B 1 reserve, C 1, L 1; flow, losses; weights; violations *)
Definition du_x : nat -> Q := values [40; 10; 0; 32; 5; 82; 10; 60; 4; 0; 4#5; 1#5].
(** NSW, VIC, R6; sum of the weights, losses, flow *)
Definition du_pi : nat -> Q := values [45; 1665#43; 6; -9000#43; -1800#43; 270#43].
Definition du_lin : problem := Eval vm_compute in pricing_problem by_distance du_market du_x du_problem.

Lemma du_assemble : assemble du_market = Ok du_problem.
Proof. vm_compute. reflexivity. Qed.
Lemma du_priced_problem : priced_problem du_market du_problem du_lin.
Proof. exists by_distance, du_x. split; [exact by_distance_sorts|]. left. vm_compute. reflexivity. Qed.
Lemma du_shadow : shadow_prices du_lin du_x du_pi.
Proof. apply shadowb_ok; [vm_compute; reflexivity|]. unfold du_lin, du_pi, du_x. no_cheaper. Qed.
Lemma du_held : held du_config (OpDemand du_demand None) du_market.
Proof. held_by 2%nat. Qed.
Lemma du_held_reserve : held du_config (OpFcasReq du_reserve None) du_market.
Proof. held_by 3%nat. Qed.
Lemma du_network : network du_config [du_link] du_loss du_points du_market.
Proof. network_at 4%nat 5%nat. Qed.
Lemma du_links : links du_config [] [] [] du_market.
Proof. apply linksb_none. vm_compute. reflexivity. Qed.
Lemma du_priced : priced du_config du_volumes du_prices du_market.
Proof. apply (pricedb_ok du_config [] [] du_rest). vm_compute. reflexivity. Qed.
Lemma du_ends d : In d [du_link] -> in_from d <> in_to d.
Proof. intros [<-|[]]. discriminate. Qed.
Lemma du_supplied r : r = "NSW" \/ r = "VIC" -> supplied du_market [du_link] r.
Proof. intros H. right. exists du_link. split; [now left|]. cbn. destruct H; auto. Qed.
Definition du_ps : list (string * Q) := [("NSW", 45); ("VIC", 1665#43)].
Lemma du_energy : energy_prices du_market du_pi = Ok du_ps.
Proof. vm_compute. reflexivity. Qed.
Lemma du_fcas : exists price, fcas_prices du_market du_pi = Ok [(("NSW", "raise_6s"), price)] /\ price == 6.
Proof. eexists. split; [vm_compute; reflexivity|vm_compute; reflexivity]. Qed.

(** ** C67: a reported price is a marginal cost *)

Theorem C67_energy_price_is_marginal :
  forall c l v dirs lf bps m p q x pi ps r price y delta,
    held c (OpDemand l v) m -> network c dirs lf bps m -> (forall d, In d dirs -> in_from d <> in_to d) ->
    assemble m = Ok p -> priced_problem m p q -> energy_prices m pi = Ok ps -> shadow_prices q x pi ->
    In (r, price) ps -> supplied m dirs r ->
    boxed q y -> (forall con, In con (p_cons q) -> ~ balance_con m r con -> met_or_free pi y con) ->
    same_violations m "demand" x y -> energy_balance m y dirs lf r == energy_balance m x dirs lf r + delta ->
    objective p x + price * delta <= objective p y.
Proof. intros c l v dirs lf bps m p q x pi ps r price y delta H1 H2 H3 H4 H5 H6. exact (energy_marginal c l v dirs lf bps m p q x pi ps H1 H2 H3 H4 H5 H6 r price y delta). Qed.
Print Assumptions C67_energy_price_is_marginal.

Theorem C67_energy_prices_together :
  forall c l v dirs lf bps m p q x pi ps y,
    held c (OpDemand l v) m -> network c dirs lf bps m -> (forall d, In d dirs -> in_from d <> in_to d) ->
    assemble m = Ok p -> priced_problem m p q -> energy_prices m pi = Ok ps -> shadow_prices q x pi ->
    (forall d, In d l -> supplied m dirs (de_region d)) ->
    boxed q y -> (forall con, In con (p_cons q) -> (forall r, ~ balance_con m r con) -> met_or_free pi y con) ->
    same_violations m "demand" x y ->
    objective p x + qsum (map (fun a => snd a * (energy_balance m y dirs lf (fst a) - energy_balance m x dirs lf (fst a))) ps)
      <= objective p y.
Proof. intros c l v dirs lf bps m p q x pi ps y H1 H2 H3 H4 H5 H6. exact (energy_marginal_all c l v dirs lf bps m p q x pi ps H1 H2 H3 H4 H5 H6 y). Qed.
Print Assumptions C67_energy_prices_together.

Theorem C67_fcas_price_is_marginal :
  forall c l v gu gr gi m p q x pi ps r sv price y delta,
    held c (OpFcasReq l v) m -> links c gu gr gi m -> (forall b, In b l -> fq_service b <> "energy") ->
    assemble m = Ok p -> priced_problem m p q -> fcas_prices m pi = Ok ps -> shadow_prices q x pi ->
    In ((r, sv), price) ps -> region_offers m r sv ->
    boxed q y -> (forall con, In con (p_cons q) -> (forall s, set_con m s con -> ~ required l s r sv) -> met_or_free pi y con) ->
    same_violations m "fcas" x y ->
    (forall s, required l s r sv -> set_total m y l gu gr gi s == set_total m x l gu gr gi s + delta) ->
    objective p x + price * delta <= objective p y.
Proof. intros c l v gu gr gi m p q x pi ps r sv price y delta H1 H2 H3 H4 H5 H6. exact (fcas_marginal c l v gu gr gi m p q x pi ps H1 H2 H3 H4 H5 H6 r sv price y delta). Qed.
Print Assumptions C67_fcas_price_is_marginal.

(** The problem that gives the prices is the dispatch problem: same costs, same
    variables, same constraints (a re-run moves right-hand sides), and the same
    bounds of all variables but the weights of the loss functions and the links of
    interconnectors with several links. *)
Theorem C67_prices_of_the_dispatch_problem :
  forall m p q, priced_problem m p q -> p_obj q = p_obj p
    /\ (forall con', In con' (p_cons q) -> exists con, In con (p_cons p)
          /\ pc_id con' = pc_id con /\ pc_type con' = pc_type con /\ pc_terms con' = pc_terms con)
    /\ map pc_id (p_cons q) = map pc_id (p_cons p)
    /\ map pv_id (p_vars q) = map pv_id (p_vars p)
    /\ (forall w, In w (p_vars p) ->
         (forall i, In i (rows_or_nil (m_inter m)) -> iv_id i = pv_id w -> iv_inter i = iv_link i) ->
         (forall i, In i (rows_or_nil (m_weights m)) -> wv_id i <> pv_id w) -> In w (p_vars q)).
Proof. exact pricing_keeps. Qed.
Print Assumptions C67_prices_of_the_dispatch_problem.
Theorem C67_prices_of_the_dispatch_constraints :
  forall sort m x0 p, p_cons (pricing_problem sort m x0 p) = p_cons p.
Proof. exact pricing_same_cons. Qed.
Print Assumptions C67_prices_of_the_dispatch_constraints.

(** Serving one MW more in NSW: B produces it.  One MW more reserve: B as well. *)
Definition du_more : nat -> Q := values [40; 10; 0; 33; 5; 82; 10; 60; 4; 0; 4#5; 1#5].
Definition du_safer : nat -> Q := values [40; 10; 0; 32; 6; 82; 10; 60; 4; 0; 4#5; 1#5].
Example C67_case :
  held du_config (OpDemand du_demand None) du_market /\ network du_config [du_link] du_loss du_points du_market
  /\ (forall d, In d [du_link] -> in_from d <> in_to d)
  /\ assemble du_market = Ok du_problem /\ priced_problem du_market du_problem du_lin
  /\ energy_prices du_market du_pi = Ok du_ps /\ shadow_prices du_lin du_x du_pi
  /\ In ("NSW", 45) du_ps /\ (forall d, In d du_demand -> supplied du_market [du_link] (de_region d))
  /\ boxed du_lin du_more
  /\ (forall con, In con (p_cons du_lin) -> ~ balance_con du_market "NSW" con -> met_or_free du_pi du_more con)
  /\ same_violations du_market "demand" du_x du_more
  /\ energy_balance du_market du_more [du_link] du_loss "NSW" == energy_balance du_market du_x [du_link] du_loss "NSW" + 1
  /\ objective du_problem du_x + 45 * 1 == objective du_problem du_more.
Proof.
  split; [exact du_held|]. split; [exact du_network|]. split; [exact du_ends|]. split; [exact du_assemble|].
  split; [exact du_priced_problem|]. split; [exact du_energy|]. split; [exact du_shadow|]. split; [now left|].
  split; [intros d [<-|[<-|[]]]; apply du_supplied; auto|].
  split; [apply boxedb_ok; vm_compute; reflexivity|]. split; [apply others_met; vm_compute; reflexivity|].
  split; [refine (sameb_ok _ _ _ _); vm_compute; reflexivity|]. split; vm_compute; reflexivity.
Qed.
Example C67_together_case :
  (forall con, In con (p_cons du_lin) -> (forall r, ~ balance_con du_market r con) -> met_or_free du_pi du_more con)
  /\ boxed du_lin du_more /\ same_violations du_market "demand" du_x du_more.
Proof.
  split; [apply (all_others_met _ _ _ _ ["NSW"]); vm_compute; reflexivity|].
  split; [apply boxedb_ok; vm_compute; reflexivity|]. refine (sameb_ok _ _ _ _); vm_compute; reflexivity.
Qed.
Example C67_fcas_case :
  held du_config (OpFcasReq du_reserve None) du_market /\ links du_config [] [] [] du_market
  /\ (forall b, In b du_reserve -> fq_service b <> "energy")
  /\ (exists price, fcas_prices du_market du_pi = Ok [(("NSW", "raise_6s"), price)] /\ price == 6)
  /\ region_offers du_market "NSW" "raise_6s"
  /\ boxed du_lin du_safer
  /\ (forall con, In con (p_cons du_lin) -> (forall s, set_con du_market s con -> ~ required du_reserve s "NSW" "raise_6s")
        -> met_or_free du_pi du_safer con)
  /\ same_violations du_market "fcas" du_x du_safer
  /\ (forall s, required du_reserve s "NSW" "raise_6s" ->
        set_total du_market du_safer du_reserve [] [] [] s == set_total du_market du_x du_reserve [] [] [] s + 1)
  /\ objective du_problem du_x + 6 * 1 == objective du_problem du_safer.
Proof.
  split; [exact du_held_reserve|]. split; [exact du_links|]. split; [intros b [<-|[]]; discriminate|]. split; [exact du_fcas|].
  split; [apply region_offersb_ok; vm_compute; reflexivity|].
  split; [apply boxedb_ok; vm_compute; reflexivity|].
  split; [apply (other_sets _ _ _ _ _ (metb du_pi du_safer)); [apply metb_ok|vm_compute; reflexivity]|].
  split; [refine (sameb_ok _ _ _ _); vm_compute; reflexivity|].
  split; [|vm_compute; reflexivity]. intros s [b [[<-|[]] [<- _]]]. vm_compute. reflexivity.
Qed.

(** ** C68: dispatch agrees with the prices *)

Theorem C68_energy_bids_follow_price :
  forall c l v0 dirs lf bps m p q x pi ps tv tp u d b v k ui price,
    held c (OpDemand l v0) m -> network c dirs lf bps m -> (forall e, In e dirs -> in_from e <> in_to e) ->
    assemble m = Ok p -> priced_problem m p q -> shadow_prices q x pi -> energy_prices m pi = Ok ps ->
    priced c tv tp m -> offered tv u "energy" d b v -> 1#10000 <= v -> offered tp u "energy" d b k ->
    In ui (c_ui c) -> ui_unit ui = u -> ui_dt ui = d -> In (ui_region ui, price) ps -> ~ ui_lf ui == 0 ->
    (forall w con, In w (band_vars m u "energy" d b) -> In con (p_cons q) -> mentions con (bv_id w) ->
       ~ balance_con m (ui_region ui) con -> pi (pc_id con) == 0) ->
    (mw_cost (ui_lf ui) "energy" d k < earns "energy" d price -> band_dispatch m x u "energy" d b == v)
    /\ (earns "energy" d price < mw_cost (ui_lf ui) "energy" d k -> band_dispatch m x u "energy" d b == 0).
Proof.
  intros c l v0 dirs lf bps m p q x pi ps tv tp u d b v k ui price H1 H2 H3 H4 H5 H6 H7 H8 H9 H10 H11 H12 H13 H14 H15 _.
  exact (energy_band c l v0 dirs lf bps m p q x pi ps tv tp u d b v k ui price H1 H2 H3 H4 H5 H6 H7 H8 H9 H10 H11 H12 H13 H14 H15).
Qed.
Print Assumptions C68_energy_bids_follow_price.

Theorem C68_fcas_bids_follow_price :
  forall c l v0 gu gr gi m p q x pi ps tv tp u s d b v k ui price,
    held c (OpFcasReq l v0) m -> links c gu gr gi m -> (forall a, In a l -> fq_service a <> "energy") ->
    assemble m = Ok p -> priced_problem m p q -> shadow_prices q x pi -> fcas_prices m pi = Ok ps ->
    priced c tv tp m -> offered tv u s d b v -> 1#10000 <= v -> offered tp u s d b k ->
    In ui (c_ui c) -> ui_unit ui = u -> ui_dt ui = d -> In ((ui_region ui, s), price) ps -> unlinked gu gr u (ui_region ui) s ->
    (forall w con, In w (band_vars m u s d b) -> In con (p_cons q) -> mentions con (bv_id w) ->
       (forall set, set_con m set con -> ~ required l set (ui_region ui) s) -> pi (pc_id con) == 0) ->
    (k < price -> band_dispatch m x u s d b == v) /\ (price < k -> band_dispatch m x u s d b == 0).
Proof. exact fcas_band. Qed.
Print Assumptions C68_fcas_bids_follow_price.

Ltac du_offer v := exists v; cbn; auto 15.
(** Cheap C runs in full; the second band of A is too dear; L is worth serving. *)
Example C68_case :
  priced du_config du_volumes du_prices du_market
  /\ (offered du_volumes "C" "energy" "generator" "1" 82 /\ offered du_prices "C" "energy" "generator" "1" 10
      /\ mw_cost 1 "energy" "generator" 10 < earns "energy" "generator" (1665#43)
      /\ (forall w con, In w (band_vars du_market "C" "energy" "generator" "1") -> In con (p_cons du_lin) -> mentions con (bv_id w) ->
            ~ balance_con du_market "VIC" con -> du_pi (pc_id con) == 0)
      /\ band_dispatch du_market du_x "C" "energy" "generator" "1" == 82)
  /\ (offered du_volumes "A" "energy" "generator" "2" 40 /\ offered du_prices "A" "energy" "generator" "2" 45
      /\ earns "energy" "generator" 45 < mw_cost (9#10) "energy" "generator" 45
      /\ (forall w con, In w (band_vars du_market "A" "energy" "generator" "2") -> In con (p_cons du_lin) -> mentions con (bv_id w) ->
            ~ balance_con du_market "NSW" con -> du_pi (pc_id con) == 0)
      /\ band_dispatch du_market du_x "A" "energy" "generator" "2" == 0)
  /\ (offered du_volumes "L" "energy" "load" "1" 10 /\ offered du_prices "L" "energy" "load" "1" 60
      /\ mw_cost 1 "energy" "load" 60 < earns "energy" "load" 45
      /\ (forall w con, In w (band_vars du_market "L" "energy" "load" "1") -> In con (p_cons du_lin) -> mentions con (bv_id w) ->
            ~ balance_con du_market "NSW" con -> du_pi (pc_id con) == 0)
      /\ band_dispatch du_market du_x "L" "energy" "load" "1" == 10).
Proof.
  split; [exact du_priced|]. split; [|split].
  - split; [du_offer (BidRow "C" "energy" "generator" (fx_two 82 0))|]. split; [du_offer (BidRow "C" "energy" "generator" (fx_two 10 10))|].
    split; [vm_compute; reflexivity|]. split; [apply band_free; vm_compute; reflexivity|vm_compute; reflexivity].
  - split; [du_offer (BidRow "A" "energy" "generator" (fx_two 40 40))|]. split; [du_offer (BidRow "A" "energy" "generator" (fx_two 36 45))|].
    split; [vm_compute; reflexivity|]. split; [apply band_free; vm_compute; reflexivity|vm_compute; reflexivity].
  - split; [du_offer (BidRow "L" "energy" "load" (fx_two 10 0))|]. split; [du_offer (BidRow "L" "energy" "load" (fx_two 60 60))|].
    split; [vm_compute; reflexivity|]. split; [apply band_free; vm_compute; reflexivity|vm_compute; reflexivity].
Qed.
Example C68_fcas_case :
  offered du_volumes "A" "raise_6s" "generator" "1" 10 /\ offered du_prices "A" "raise_6s" "generator" "1" 2
  /\ unlinked [] [] "A" "NSW" "raise_6s"
  /\ (forall w con, In w (band_vars du_market "A" "raise_6s" "generator" "1") -> In con (p_cons du_lin) -> mentions con (bv_id w) ->
       (forall set, set_con du_market set con -> ~ required du_reserve set "NSW" "raise_6s") -> du_pi (pc_id con) == 0)
  /\ 2 < 6 /\ band_dispatch du_market du_x "A" "raise_6s" "generator" "1" == 10.
Proof.
  split; [du_offer (BidRow "A" "raise_6s" "generator" (fx_two 10 0))|].
  split; [du_offer (BidRow "A" "raise_6s" "generator" (fx_two 2 2))|].
  split; [split; intros g []|]. split; [apply reserve_free; vm_compute; reflexivity|]. split; vm_compute; reflexivity.
Qed.

(** ** C69: no gain in moving power between regions *)

Theorem C69_no_arbitrage :
  forall c l v dirs lf bps m p q x pi ps y,
    held c (OpDemand l v) m -> network c dirs lf bps m -> (forall d, In d dirs -> in_from d <> in_to d) ->
    assemble m = Ok p -> priced_problem m p q -> energy_prices m pi = Ok ps -> shadow_prices q x pi ->
    (forall d, In d l -> supplied m dirs (de_region d)) ->
    boxed q y -> (forall con, In con (p_cons q) -> (forall r, ~ balance_con m r con) -> met_or_free pi y con) ->
    same_violations m "demand" x y -> costless p x y ->
    qsum (map (fun a => snd a * (energy_balance m y dirs lf (fst a) - energy_balance m x dirs lf (fst a))) ps) <= 0.
Proof. intros c l v dirs lf bps m p q x pi ps y H1 H2 H3 H4 H5 H6 H7 H8. exact (no_arbitrage c l v dirs lf bps m p q x pi ps H1 H2 H3 H4 H5 H6 H7 H8 y). Qed.
Print Assumptions C69_no_arbitrage.

Theorem C69_link_no_arbitrage :
  forall c l v dirs lf bps m p q x pi ps tv tp d y df dl from to,
    held c (OpDemand l v) m -> network c dirs lf bps m -> (forall e, In e dirs -> in_from e <> in_to e) ->
    assemble m = Ok p -> priced_problem m p q -> energy_prices m pi = Ok ps -> shadow_prices q x pi ->
    (forall e, In e l -> supplied m dirs (de_region e)) -> priced c tv tp m ->
    In d dirs -> link_shift m dirs d x y df dl ->
    boxed q y -> (forall con, In con (p_cons q) -> (forall r, ~ balance_con m r con) -> met_or_free pi y con) ->
    In (in_from d, from) ps -> In (in_to d, to) ps ->
    (in_to_lf d * to - in_from_lf d * from) * df <= loss_value lf d from to * dl.
Proof.
  intros c l v dirs lf bps m p q x pi ps tv tp d y df dl from to H1 H2 H3 H4 H5 H6 H7 H8 H9 H10 H11.
  exact (link_no_arbitrage c l v dirs lf bps m p q x pi ps H1 H2 H3 H4 H5 H6 H7 H8 tv tp d y df dl H9 H10 H11 from to).
Qed.
Print Assumptions C69_link_no_arbitrage.

Theorem C69_free_link_equal_prices :
  forall c l v dirs lf bps m p q x pi ps tv tp d w from to,
    held c (OpDemand l v) m -> network c dirs lf bps m -> (forall e, In e dirs -> in_from e <> in_to e) ->
    assemble m = Ok p -> priced_problem m p q -> energy_prices m pi = Ok ps -> shadow_prices q x pi ->
    (forall e, In e l -> supplied m dirs (de_region e)) -> priced c tv tp m ->
    In d dirs -> In w (p_vars q) ->
    (exists i, In i (rows_or_nil (m_inter m)) /\ iv_inter i = in_inter d /\ iv_link i = in_link d /\ iv_id i = pv_id w) ->
    pv_lb w < x (pv_id w) -> (forall u, pv_ub w = Some u -> x (pv_id w) < u) ->
    (forall con, In con (p_cons q) -> mentions con (pv_id w) -> (forall r, ~ balance_con m r con) -> pi (pc_id con) == 0) ->
    In (in_from d, from) ps -> In (in_to d, to) ps -> in_to_lf d * to == in_from_lf d * from.
Proof. exact link_equal_prices. Qed.
Print Assumptions C69_free_link_equal_prices.

(** One MW more over the link loses 0.15 MW more: the two sides of the bound are equal. *)
Definition du_shifted : nat -> Q := values [40; 10; 0; 32; 5; 82; 10; 61; 415#100; 0; 78#100; 22#100].
Example C69_case :
  link_shift du_market [du_link] du_link du_x du_shifted 1 (15#100)
  /\ boxed du_lin du_shifted /\ costless du_problem du_x du_shifted /\ same_violations du_market "demand" du_x du_shifted
  /\ (forall con, In con (p_cons du_lin) -> (forall r, ~ balance_con du_market r con) -> met_or_free du_pi du_shifted con)
  /\ In ("VIC", 1665#43) du_ps /\ In ("NSW", 45) du_ps
  /\ 45 - (1665#43) == loss_value du_loss du_link (1665#43) 45 * (15#100).
Proof.
  split; [|split; [apply boxedb_ok; vm_compute; reflexivity|]].
  - split; [|split; [|split; [vm_compute; reflexivity|split; [vm_compute; reflexivity|]]]].
    + intros v Hv. refine (sameb_ok (map bv_id (rows_or_nil (m_bids du_market))) du_x du_shifted _ _ (in_map bv_id _ v Hv)). vm_compute. reflexivity.
    + intros w Hw. refine (sameb_ok (map df_id (dconcat (m_deficits du_market))) du_x du_shifted _ _ (in_map df_id _ w Hw)). vm_compute. reflexivity.
    + intros e [<-|[]] N. now destruct N.
  - split; [|split; [refine (sameb_ok _ _ _ _); vm_compute; reflexivity|split; [apply (all_others_met _ _ _ _ ["NSW"; "VIC"]); vm_compute; reflexivity|]]].
    + intros i q H. refine (sameb_ok (map fst (p_obj du_problem)) du_x du_shifted _ _ (in_map fst _ (i, q) H)). vm_compute. reflexivity.
    + split; [right; now left|]. split; [now left|vm_compute; reflexivity].
Qed.

(** The same market with a link without losses, 9/10 of the power sent reaches NSW. *)
Definition df_link : inter_row := Inter "VNI" "VNI" "NSW" "VIC" 150 0 1 1 (9#10).
Definition df_rest : list op := [OpDemand du_demand None; OpInterconnectors [df_link]].
Definition df_ops : list op := OpVolumeBids du_volumes :: OpPriceBids du_prices :: df_rest.
Definition df_market : market := final du_config df_ops.
Definition df_problem : problem :=
  Eval vm_compute in match assemble df_market with Ok p => p | Err _ => Problem [] [] [] [] [] end.
Definition df_x : nat -> Q := values [40; 0; 0; 342#10; 0; 82; 10; 62].
Definition df_pi : nat -> Q := values [45; 405#10].
Example C69_free_case :
  held du_config (OpDemand du_demand None) df_market /\ network du_config [df_link] [] [] df_market
  /\ assemble df_market = Ok df_problem /\ priced_problem df_market df_problem df_problem
  /\ energy_prices df_market df_pi = Ok [("NSW", 45); ("VIC", 405#10)] /\ shadow_prices df_problem df_x df_pi
  /\ (forall e, In e du_demand -> supplied df_market [df_link] (de_region e)) /\ priced du_config du_volumes du_prices df_market
  /\ (exists w, In w (p_vars df_problem)
        /\ (exists i, In i (rows_or_nil (m_inter df_market)) /\ iv_inter i = "VNI" /\ iv_link i = "VNI" /\ iv_id i = pv_id w)
        /\ pv_lb w < df_x (pv_id w) /\ (forall u, pv_ub w = Some u -> df_x (pv_id w) < u)
        /\ (forall con, In con (p_cons df_problem) -> mentions con (pv_id w) -> (forall r, ~ balance_con df_market r con) -> df_pi (pc_id con) == 0))
  /\ (9#10) * 45 == 1 * (405#10).
Proof.
  split; [held_by 2%nat|]. split; [apply (networkb_lossless _ _ 3); vm_compute; reflexivity|]. split; [vm_compute; reflexivity|].
  split; [exists by_distance, df_x; split; [exact by_distance_sorts|left; vm_compute; reflexivity]|].
  split; [vm_compute; reflexivity|].
  split; [apply shadowb_ok; [vm_compute; reflexivity|]; unfold df_problem, df_pi, df_x; no_cheaper|].
  split; [intros e [<-|[<-|[]]]; right; exists df_link; cbn; auto|].
  split; [apply (pricedb_ok du_config [] [] df_rest); vm_compute; reflexivity|].
  split; [|vm_compute; reflexivity].
  exists (PVar 7 0 (Some 150)). split; [cbn; auto 12|].
  split; [eexists; split; [vm_compute; left; reflexivity|cbn; auto]|].
  split; [vm_compute; reflexivity|]. split; [intros u [= <-]; vm_compute; reflexivity|].
  apply (flow_free _ _ _ _ ["NSW"; "VIC"]). vm_compute. reflexivity.
Qed.

(** ** C70: violation costs cap the prices *)

Theorem C70_violation_cost_caps_price :
  forall c k v m g p q x pi con r cost,
    made_elastic c k v m -> once v -> group m k = Some g -> g <> [] -> (forall r, In r g -> exists q, cost_of v r q) ->
    assemble m = Ok p -> priced_problem m p q -> shadow_prices q x pi ->
    In con (p_cons q) -> In r g -> pc_id con = cr_id r -> cost_of v r cost ->
    (cr_type r = "<=" -> - cost <= pi (pc_id con) <= 0)
    /\ (cr_type r = ">=" -> 0 <= pi (pc_id con) <= cost)
    /\ (cr_type r = "=" -> - cost <= pi (pc_id con) <= cost).
Proof. intros c k v m g p q x pi con r cost H1 H2 H3 H4 H5 H6 H7 H8. exact (price_cap c k v m g p q x pi H1 H2 H3 H4 H5 H6 H7 H8 con r cost). Qed.
Print Assumptions C70_violation_cost_caps_price.

Theorem C70_energy_price_capped :
  forall c l v0 cap m p q x pi ps r price,
    held c (OpDemand l v0) m -> made_elastic c "demand" (VNum cap) m ->
    assemble m = Ok p -> priced_problem m p q -> shadow_prices q x pi -> energy_prices m pi = Ok ps ->
    In (r, price) ps -> - cap <= price <= cap.
Proof.
  intros c l v0 cap m p q x pi ps r price H1 H2.
  exact (energy_price_cap c l v0 (VNum cap) cap m p q x pi ps r price H1 H2 eq_refl).
Qed.
Print Assumptions C70_energy_price_capped.

Lemma du_elastic : made_elastic du_config "demand" (VNum 1000) du_market.
Proof.
  exists (OpElastic "demand" (VNum 1000)), (final du_config (firstn 6 du_ops)).
  split; [in_force_met 6%nat|]. split; [now left|]. split; [reflexivity|]. discriminate.
Qed.
Lemma du_elastic_reserve : made_elastic du_config "fcas" (VTable [("R6", 700)]) du_market.
Proof.
  exists (OpElastic "fcas" (VTable [("R6", 700)])), (final du_config (firstn 7 du_ops)).
  split; [in_force_met 7%nat|]. split; [now left|]. split; [reflexivity|]. discriminate.
Qed.
Example C70_case :
  made_elastic du_config "demand" (VNum 1000) du_market /\ shadow_prices du_lin du_x du_pi /\ In ("NSW", 45) du_ps
  /\ made_elastic du_config "fcas" (VTable [("R6", 700)]) du_market /\ once (VTable [("R6", 700)])
  /\ group du_market "fcas" = Some [CRow 2 ">=" 15 (KSet "R6")]
  /\ cost_of (VTable [("R6", 700)]) (CRow 2 ">=" 15 (KSet "R6")) 700
  /\ In 2%nat (map pc_id (p_cons du_lin)) /\ du_pi 2 == 6.
Proof.
  split; [exact du_elastic|]. split; [exact du_shadow|]. split; [now left|]. split; [exact du_elastic_reserve|].
  split; [repeat constructor; intros []|]. split; [vm_compute; reflexivity|].
  split; [exists "R6"; cbn; auto|]. split; [cbn; auto|vm_compute; reflexivity].
Qed.

(** ** C71: dispatch finds a price for every market constraint *)

(** What is read, exactly: the prices of all rows if every one of them is in the
    problem, and a failed attribute access otherwise. *)
Theorem C71_prices_exact_partial :
  forall m p q pi, priced_problem m p q ->
    (price_market m q pi = Ok (map (fun a => (fst a, map (fun r => (cr_id r, pi (cr_id r))) (snd a))) (m_mrhs m))
       /\ forall k rows, In (k, rows) (m_mrhs m) -> all_present p rows)
    \/ (price_market m q pi = Err EAttribute /\ exists k rows, In (k, rows) (m_mrhs m) /\ ~ all_present p rows).
Proof. exact price_market_exact. Qed.
Print Assumptions C71_prices_exact_partial.

(** Demand in regions that somebody supplies, and requirements that somebody offers, are there. *)
Theorem C71_supplied_demand_partial :
  forall c l v dirs lf bps m p, held c (OpDemand l v) m -> network c dirs lf bps m -> assemble m = Ok p ->
    (forall d, In d l -> supplied m dirs (de_region d)) -> exists g, group m "demand" = Some g /\ all_present p g.
Proof. exact demand_present. Qed.
Print Assumptions C71_supplied_demand_partial.
Theorem C71_offered_reserve_partial :
  forall c l v m p, held c (OpFcasReq l v) m -> assemble m = Ok p ->
    (forall b, In b l -> exists b', In b' l /\ fq_set b' = fq_set b /\ region_offers m (fq_region b') (fq_service b')) ->
    exists g, group m "fcas" = Some g /\ all_present p g.
Proof. exact fcas_present. Qed.
Print Assumptions C71_offered_reserve_partial.
(** Nothing more is needed if every group is elastic. *)
Theorem C71_elastic_groups_priced_partial :
  forall c m p q pi,
    (forall k g, In (k, g) (m_mrhs m) -> exists v, made_elastic c k v m /\ once v
       /\ (forall r, In r g -> mem_str (cr_type r) ["<="; ">="; "="] = true /\ exists cost, cost_of v r cost)) ->
    assemble m = Ok p -> priced_problem m p q ->
    price_market m q pi = Ok (map (fun a => (fst a, map (fun r => (cr_id r, pi (cr_id r))) (snd a))) (m_mrhs m)).
Proof. exact elastic_prices. Qed.
Print Assumptions C71_elastic_groups_priced_partial.

Example C71_case :
  priced_problem du_market du_problem du_lin
  /\ (forall b, In b du_reserve -> exists b', In b' du_reserve /\ fq_set b' = fq_set b /\ region_offers du_market (fq_region b') (fq_service b'))
  /\ (forall k g, In (k, g) (m_mrhs du_market) -> exists v, made_elastic du_config k v du_market /\ once v
       /\ (forall r, In r g -> mem_str (cr_type r) ["<="; ">="; "="] = true /\ exists cost, cost_of v r cost))
  /\ price_market du_market du_lin du_pi = Ok [("demand", [(0%nat, 45); (1%nat, 1665#43)]); ("fcas", [(2%nat, 6)])].
Proof.
  split; [exact du_priced_problem|].
  split; [intros b [<-|[]]; exists (FcasReq "R6" "NSW" "raise_6s" 15 ">="); split; [now left|];
          split; [reflexivity|apply region_offersb_ok; vm_compute; reflexivity]|].
  split; [|vm_compute; reflexivity].
  assert (E : m_mrhs du_market = [("demand", [CRow 0 "=" 120 (KRegion "NSW"); CRow 1 "=" 20 (KRegion "VIC")]); ("fcas", [CRow 2 ">=" 15 (KSet "R6")])])
    by (vm_compute; reflexivity).
  intros k g H. rewrite E in H. destruct H as [[= <- <-]|[[= <- <-]|[]]].
  - exists (VNum 1000). split; [exact du_elastic|]. split; [exact I|]. intros r [<-|[<-|[]]]; (split; [reflexivity|eexists; reflexivity]).
  - exists (VTable [("R6", 700)]). split; [exact du_elastic_reserve|]. split; [repeat constructor; intros []|].
    intros r [<-|[]]. split; [reflexivity|]. exists 700, "R6". cbn. auto.
Qed.

(** Demand in TAS, where there are neither units nor links: the solver finds dispatch
    and prices, and reading the prices fails. *)
Definition tp_config : config := Config ["NSW"; "TAS"] [UnitInfo "A" "NSW" "generator" 1] 5.
Definition tp_bids : list op :=
  [OpVolumeBids (BidTable ["1"] [BidRow "A" "energy" "generator" (fun _ => 100)]);
   OpPriceBids (BidTable ["1"] [BidRow "A" "energy" "generator" (fun _ => 30)])].
Definition tp_ops : list op := tp_bids ++ [OpDemand [Demand "NSW" 60; Demand "TAS" 40] None].
Theorem C71_unsupplied_region_refuted :
  exists c l m p q x pi, in_force c (OpDemand l None) m /\ assemble m = Ok p /\ priced_problem m p q
    /\ shadow_prices q x pi /\ price_market m q pi = Err EAttribute.
Proof.
  exists tp_config, [Demand "NSW" 60; Demand "TAS" 40], (final tp_config tp_ops).
  pose (p := Problem [PVar 0 0 (Some 100)] [(0%nat, 30)] [PCon 0 "=" [(0%nat, 1)] (RNum 60)] [] []).
  exists p, p, (values [60]), (values [30]). split; [in_force_at 2%nat|]. split; [vm_compute; reflexivity|].
  split; [exists by_distance, (values [60]); split; [exact by_distance_sorts|left; vm_compute; reflexivity]|].
  split; [apply shadowb_ok; [vm_compute; reflexivity|]; unfold p; no_cheaper|vm_compute; reflexivity].
Qed.
Print Assumptions C71_unsupplied_region_refuted.

(** A requirement for a service that nobody offers fails in the same way. *)
Theorem C71_unoffered_reserve_refuted :
  exists c l m p q x pi, in_force c (OpFcasReq l None) m /\ assemble m = Ok p /\ priced_problem m p q
    /\ shadow_prices q x pi /\ price_market m q pi = Err EAttribute.
Proof.
  exists tp_config, [FcasReq "R6" "NSW" "raise_6s" 10 ">="],
    (final tp_config (tp_bids ++ [OpDemand [Demand "NSW" 60] None; OpFcasReq [FcasReq "R6" "NSW" "raise_6s" 10 ">="] None])).
  pose (p := Problem [PVar 0 0 (Some 100)] [(0%nat, 30)] [PCon 0 "=" [(0%nat, 1)] (RNum 60)] [] []).
  exists p, p, (values [60]), (values [30]). split; [in_force_at 3%nat|]. split; [vm_compute; reflexivity|].
  split; [exists by_distance, (values [60]); split; [exact by_distance_sorts|left; vm_compute; reflexivity]|].
  split; [apply shadowb_ok; [vm_compute; reflexivity|]; unfold p; no_cheaper|vm_compute; reflexivity].
Qed.
Print Assumptions C71_unoffered_reserve_refuted.
