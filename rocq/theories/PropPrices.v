(** C21 - C24: prices of bids. *)

From Coq Require Import QArith String List Bool Lqa Arith.
Import ListNotations.
From Verif Require Import PandasModel TablesModel MarketModel SolverModel UnitsModel SpecLp SpecHistory SpecDispatch SpecPrices
  Fixtures CheckFacts CheckLpFacts PriceTheoremFacts ExchangeFacts.
Open Scope string_scope.
Open Scope list_scope.

(** ** C21 *)

Theorem C21_price_order :
  forall c tv tp m p x u s d b b' ui v v' q q',
    priced c tv tp m -> untied m -> assemble m = Ok p -> optimal p x ->
    offered tv u s d b v -> offered tv u s d b' v' -> 1#10000 <= v -> 1#10000 <= v' ->
    offered tp u s d b q -> offered tp u s d b' q' ->
    In ui (c_ui c) -> ui_unit ui = u -> ui_dt ui = d -> (s = "energy" -> 0 < ui_lf ui) ->
    (if String.eqb s "energy" && String.eqb d "load" then q' < q else q < q') ->
    0 < band_dispatch m x u s d b' -> band_dispatch m x u s d b == v.
Proof. exact price_order. Qed.
Print Assumptions C21_price_order.

(** A generator limited to 75 MW and a load that is worth serving in part. *)
Definition po_config : config :=
  Config ["NSW"] [UnitInfo "A" "NSW" "generator" (9#10); UnitInfo "L" "NSW" "load" 1] 5.
Definition po_volumes : bid_table := BidTable ["1"; "2"]
  [BidRow "A" "energy" "generator" (fx_two 40 40); BidRow "L" "energy" "load" (fx_two 10 10)].
Definition po_prices : bid_table := BidTable ["1"; "2"]
  [BidRow "A" "energy" "generator" (fx_two 36 45); BidRow "L" "energy" "load" (fx_two 100 60)].
Definition po_ops : list op :=
  [OpVolumeBids po_volumes; OpPriceBids po_prices; OpDemand [Demand "NSW" 60] None; OpCapacity [Limit "A" "generator" 75] None].
Definition po_market : market := final po_config po_ops.
Definition po_problem : problem :=
  Eval vm_compute in match assemble po_market with Ok p => p | Err _ => Problem [] [] [] [] [] end.
Lemma po_assemble : assemble po_market = Ok po_problem.
Proof. vm_compute. reflexivity. Qed.
(** A 1, A 2, L 1, L 2 *)
Definition po_x : nat -> Q := values [40; 35; 10; 5].
Lemma po_optimal : optimal po_problem po_x.
Proof.
  split.
  - assert (S : solution po_market po_x) by solves. destruct S as [p [A F]]. rewrite po_assemble in A. now inversion A; subst.
  - unfold po_problem, po_x. no_better.
Qed.
Lemma po_priced : priced po_config po_volumes po_prices po_market.
Proof. apply (pricedb_ok po_config [] [] [OpDemand [Demand "NSW" 60] None; OpCapacity [Limit "A" "generator" 75] None]). vm_compute. reflexivity. Qed.

Example C21_case :
  priced po_config po_volumes po_prices po_market /\ untied po_market /\ assemble po_market = Ok po_problem
  /\ optimal po_problem po_x
  /\ offered po_volumes "L" "energy" "load" "1" 10 /\ offered po_prices "L" "energy" "load" "1" 100
  /\ offered po_prices "L" "energy" "load" "2" 60
  /\ band_dispatch po_market po_x "L" "energy" "load" "2" == 5
  /\ band_dispatch po_market po_x "A" "energy" "generator" "2" == 35
  /\ band_dispatch po_market po_x "A" "energy" "generator" "1" == 40.
Proof.
  split; [exact po_priced|]. split; [reflexivity|]. split; [exact po_assemble|]. split; [exact po_optimal|].
  split; [|split; [|split]].
  - exists (BidRow "L" "energy" "load" (fx_two 10 10)). cbn. auto 10.
  - exists (BidRow "L" "energy" "load" (fx_two 100 60)). cbn. auto 10.
  - exists (BidRow "L" "energy" "load" (fx_two 100 60)). cbn. auto 10.
  - all_decided.
Qed.

(** ** C22 *)

Theorem C22_merit_order :
  forall c tv tp m p x u u' b b' ui ui' v v' q q',
    priced c tv tp m -> no_unit_limits m -> assemble m = Ok p -> optimal p x ->
    offered tv u "energy" "generator" b v -> offered tv u' "energy" "generator" b' v' -> 1#10000 <= v -> 1#10000 <= v' ->
    offered tp u "energy" "generator" b q -> offered tp u' "energy" "generator" b' q' ->
    In ui (c_ui c) -> ui_unit ui = u -> ui_dt ui = "generator" ->
    In ui' (c_ui c) -> ui_unit ui' = u' -> ui_dt ui' = "generator" -> ui_region ui' = ui_region ui ->
    q / ui_lf ui < q' / ui_lf ui' ->
    0 < band_dispatch m x u' "energy" "generator" b' -> band_dispatch m x u "energy" "generator" b == v.
Proof. exact merit_order_energy. Qed.
Print Assumptions C22_merit_order.

(** The same for any service, and for loads, with the cost of one MW. *)
Theorem C22_merit_order_services :
  forall c tv tp m p x s d u u' b b' ui ui' v v' q q',
    priced c tv tp m -> no_unit_limits m -> assemble m = Ok p -> optimal p x ->
    offered tv u s d b v -> offered tv u' s d b' v' -> 1#10000 <= v -> 1#10000 <= v' ->
    offered tp u s d b q -> offered tp u' s d b' q' ->
    In ui (c_ui c) -> ui_unit ui = u -> ui_dt ui = d -> In ui' (c_ui c) -> ui_unit ui' = u' -> ui_dt ui' = d ->
    ui_region ui' = ui_region ui ->
    mw_cost (ui_lf ui) s d q < mw_cost (ui_lf ui') s d q' ->
    0 < band_dispatch m x u' s d b' -> band_dispatch m x u s d b == v.
Proof. exact merit_order. Qed.
Print Assumptions C22_merit_order_services.

(** B offers at the same price as the second band of A, but closer to the
    reference node; an interconnector brings power from VIC. *)
Definition mo_config : config :=
  Config ["NSW"; "VIC"] [UnitInfo "A" "NSW" "generator" (9#10); UnitInfo "B" "NSW" "generator" 1;
                         UnitInfo "C" "VIC" "generator" 1] 5.
Definition mo_volumes : bid_table := BidTable ["1"; "2"]
  [BidRow "A" "energy" "generator" (fx_two 40 40); BidRow "B" "energy" "generator" (fx_two 30 0);
   BidRow "C" "energy" "generator" (fx_two 100 0)].
Definition mo_prices : bid_table := BidTable ["1"; "2"]
  [BidRow "A" "energy" "generator" (fx_two 36 45); BidRow "B" "energy" "generator" (fx_two 45 45);
   BidRow "C" "energy" "generator" (fx_two 10 10)].
Definition mo_ops : list op :=
  [OpVolumeBids mo_volumes; OpPriceBids mo_prices; OpDemand [Demand "NSW" 100; Demand "VIC" 50] None;
   OpInterconnectors [Inter "VNI" "VNI" "NSW" "VIC" 20 (-20) 1 1 1]].
Definition mo_market : market := final mo_config mo_ops.
Definition mo_problem : problem :=
  Eval vm_compute in match assemble mo_market with Ok p => p | Err _ => Problem [] [] [] [] [] end.
Lemma mo_assemble : assemble mo_market = Ok mo_problem.
Proof. vm_compute. reflexivity. Qed.
(** A 1, A 2, B 1, C 1, flow *)
Definition mo_x : nat -> Q := values [40; 10; 30; 70; 20].
Lemma mo_optimal : optimal mo_problem mo_x.
Proof.
  split.
  - assert (S : solution mo_market mo_x) by solves. destruct S as [p [A F]]. rewrite mo_assemble in A. now inversion A; subst.
  - unfold mo_problem, mo_x. no_better.
Qed.
Lemma mo_priced : priced mo_config mo_volumes mo_prices mo_market.
Proof.
  apply (pricedb_ok mo_config [] [] [OpDemand [Demand "NSW" 100; Demand "VIC" 50] None;
    OpInterconnectors [Inter "VNI" "VNI" "NSW" "VIC" 20 (-20) 1 1 1]]). vm_compute. reflexivity.
Qed.
Example C22_case :
  priced mo_config mo_volumes mo_prices mo_market /\ no_unit_limits mo_market /\ assemble mo_market = Ok mo_problem
  /\ optimal mo_problem mo_x
  /\ offered mo_volumes "B" "energy" "generator" "1" 30 /\ offered mo_prices "B" "energy" "generator" "1" 45
  /\ offered mo_prices "A" "energy" "generator" "2" 45
  /\ 45 / 1 < 45 / (9#10)
  /\ band_dispatch mo_market mo_x "A" "energy" "generator" "2" == 10
  /\ band_dispatch mo_market mo_x "B" "energy" "generator" "1" == 30.
Proof.
  split; [exact mo_priced|]. split; [repeat split|]. split; [exact mo_assemble|]. split; [exact mo_optimal|].
  split; [|split; [|split]].
  - exists (BidRow "B" "energy" "generator" (fx_two 30 0)). cbn. auto 10.
  - exists (BidRow "B" "energy" "generator" (fx_two 45 45)). cbn. auto 10.
  - exists (BidRow "A" "energy" "generator" (fx_two 36 45)). cbn. auto 10.
  - all_decided.
Qed.

(** ** C23 *)

Theorem C23_objective :
  forall c tv tp m p x, priced c tv tp m -> assemble m = Ok p ->
    objective p x == bids_cost c m tp x + violations_cost m x.
Proof. exact bids_objective. Qed.
Print Assumptions C23_objective.

Example C23_case :
  priced po_config po_volumes po_prices po_market /\ assemble po_market = Ok po_problem
  /\ bids_cost po_config po_market po_prices po_x == 36/(9#10)*40 + 45/(9#10)*35 - 100*10 - 60*5
  /\ objective po_problem po_x == 2050.
Proof. split; [exact po_priced|]. split; [exact po_assemble|]. split; vm_compute; reflexivity. Qed.

Theorem C23_unscale_round_trip :
  forall c tv t tp m p u s d b v q ui,
    unscale_price_bids t (c_ui c) = Ok tp -> priced c tv tp m -> assemble m = Ok p ->
    offered tv u s d b v -> 1#10000 <= v -> offered t u s d b q -> In b ten_bands ->
    In ui (c_ui c) -> ui_unit ui = u -> ui_dt ui = d -> ~ ui_lf ui == 0 ->
    exists w k, band_vars m u s d b = [w] /\ only_cost p (bv_id w) k
      /\ k == (if String.eqb s "energy" && String.eqb d "load" then - q else q).
Proof. exact unscale_round_trip. Qed.
Print Assumptions C23_unscale_round_trip.

Definition hp_volumes : bid_table := BidTable ten_bands
  [BidRow "A" "energy" "generator" (fun _ => 10); BidRow "A" "raise_reg" "generator" (fun _ => 5); BidRow "L" "energy" "load" (fun _ => 10)].
Definition hp_prices : bid_table := BidTable ten_bands
  [BidRow "A" "energy" "generator" (fun _ => 50); BidRow "A" "raise_reg" "generator" (fun _ => 7);
   BidRow "L" "energy" "load" (fun _ => 80); BidRow "X" "energy" "generator" (fun _ => 1)].
Definition hp_unscaled : bid_table :=
  match unscale_price_bids hp_prices (c_ui po_config) with Ok t => t | Err _ => hp_prices end.
Definition hp_market : market := final po_config [OpVolumeBids hp_volumes; OpPriceBids hp_unscaled; OpDemand [Demand "NSW" 60] None].
Example C23_round_trip_case :
  unscale_price_bids hp_prices (c_ui po_config) = Ok hp_unscaled
  /\ priced po_config hp_volumes hp_unscaled hp_market
  /\ (exists p, assemble hp_market = Ok p /\ only_cost p 0 (50 * (9#10) / (9#10)) /\ only_cost p 20 (-(1) * (80 * 1) / 1))
  /\ offered hp_volumes "L" "energy" "load" "1" 10 /\ offered hp_prices "L" "energy" "load" "1" 80.
Proof.
  split; [reflexivity|]. split; [|split].
  - apply (pricedb_ok po_config [] [] [OpDemand [Demand "NSW" 60] None]). vm_compute. reflexivity.
  - eexists. split; [vm_compute; reflexivity|]. split; vm_compute; reflexivity.
  - split; [exists (BidRow "L" "energy" "load" (fun _ => 10))|exists (BidRow "L" "energy" "load" (fun _ => 80))]; cbn; auto 20.
Qed.

(** ** C24 *)

Theorem C24_priced_and_located :
  forall c tv tp m p u s d b v q ui, priced c tv tp m -> assemble m = Ok p ->
    offered tv u s d b v -> 1#10000 <= v -> offered tp u s d b q ->
    In ui (c_ui c) -> ui_unit ui = u -> ui_dt ui = d ->
    exists w k, band_vars m u s d b = [w] /\ only_cost p (bv_id w) k /\ k == mw_cost (ui_lf ui) s d q
      /\ places m (bv_id w) = [RV (bv_id w) (ui_region ui) s (if String.eqb d "load" && String.eqb s "energy" then -(1) else 1)].
Proof. exact priced_and_located. Qed.
Print Assumptions C24_priced_and_located.

Example C24_case :
  priced mo_config mo_volumes mo_prices mo_market /\ assemble mo_market = Ok mo_problem
  /\ offered mo_volumes "A" "energy" "generator" "2" 40 /\ offered mo_prices "A" "energy" "generator" "2" 45
  /\ only_cost mo_problem 1 (45 / (9#10)) /\ places mo_market 1 = [RV 1 "NSW" "energy" 1].
Proof.
  split; [exact mo_priced|]. split; [exact mo_assemble|]. split; [|split].
  - exists (BidRow "A" "energy" "generator" (fx_two 40 40)). cbn. auto 10.
  - exists (BidRow "A" "energy" "generator" (fx_two 36 45)). cbn. auto 10.
  - split; vm_compute; reflexivity.
Qed.

(** Without the two conditions the claim fails: a band with volume but without a
    price is dispatched for free ahead of everything that costs something ... *)
Definition fr_volumes : bid_table := BidTable ["1"; "2"] [BidRow "A" "energy" "generator" (fx_two 40 40)].
Definition fr_prices : bid_table := BidTable ["1"] [BidRow "A" "energy" "generator" (fx_two 36 45)].
Definition fr_market : market := final po_config [OpVolumeBids fr_volumes; OpPriceBids fr_prices; OpDemand [Demand "NSW" 60] None].
Definition fr_problem : problem :=
  Eval vm_compute in match assemble fr_market with Ok p => p | Err _ => Problem [] [] [] [] [] end.
Theorem C24_unpriced_band_refuted :
  exists c tv tp m p x u s d b v, priced c tv tp m /\ assemble m = Ok p /\ offered tv u s d b v /\ 1#10000 <= v
    /\ optimal p x /\ band_dispatch m x u s d b == v
    /\ (forall w, In w (band_vars m u s d b) -> filter (fun t => Nat.eqb (fst t) (bv_id w)) (p_obj p) = [])
    /\ (exists b' q, offered tp u s d b' q /\ band_dispatch m x u s d b' < v).
Proof.
  exists po_config, fr_volumes, fr_prices, fr_market, fr_problem, (values [20; 40]), "A", "energy", "generator", "2", 40.
  split; [apply (pricedb_ok po_config [] [] [OpDemand [Demand "NSW" 60] None]); vm_compute; reflexivity|].
  split; [vm_compute; reflexivity|]. split; [exists (BidRow "A" "energy" "generator" (fx_two 40 40)); cbn; auto 10|].
  split; [vm_compute; discriminate|]. split; [split|].
  - assert (A : assemble fr_market = Ok fr_problem) by (vm_compute; reflexivity).
    assert (S : solution fr_market (values [20; 40])) by solves. destruct S as [p [A' F]]. rewrite A in A'. now inversion A'; subst.
  - unfold fr_problem. no_better.
  - split; [vm_compute; reflexivity|]. split.
    + intros w [<-|[]]. vm_compute. reflexivity.
    + exists "1", 36. split; [exists (BidRow "A" "energy" "generator" (fx_two 36 45)); cbn; auto 10|vm_compute; reflexivity].
Qed.
Print Assumptions C24_unpriced_band_refuted.

(** ... and bids of a unit under a dispatch type it is not registered with are
    accepted but have neither a price nor a region. *)
Definition ur_volumes : bid_table := BidTable ["1"]
  [BidRow "A" "energy" "generator" (fun _ => 40); BidRow "A" "energy" "load" (fun _ => 40)].
Theorem C24_unregistered_band_refuted :
  exists c tv tp m p u s d b v q, priced c tv tp m /\ assemble m = Ok p /\ offered tv u s d b v /\ 1#10000 <= v
    /\ offered tp u s d b q
    /\ (exists w, band_vars m u s d b = [w] /\ filter (fun t => Nat.eqb (fst t) (bv_id w)) (p_obj p) = [] /\ places m (bv_id w) = []).
Proof.
  eexists po_config, ur_volumes, ur_volumes, (final po_config [OpVolumeBids ur_volumes; OpPriceBids ur_volumes; OpDemand [Demand "NSW" 30] None]),
    _, "A", "energy", "load", "1", 40, 40.
  split; [apply (pricedb_ok po_config [] [] [OpDemand [Demand "NSW" 30] None]); vm_compute; reflexivity|].
  split; [vm_compute; reflexivity|]. split; [exists (BidRow "A" "energy" "load" (fun _ => 40)); cbn; auto 10|].
  split; [vm_compute; discriminate|]. split; [exists (BidRow "A" "energy" "load" (fun _ => 40)); cbn; auto 10|].
  eexists. split; [vm_compute; reflexivity|]. split; vm_compute; reflexivity.
Qed.
Print Assumptions C24_unregistered_band_refuted.
