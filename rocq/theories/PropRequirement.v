(** C95: the price of an FCAS requirement set does not fall when its requirement rises,
    and bounds what the rise costs. *)

From Coq Require Import QArith Qabs Lqa String List Bool Arith Permutation.
Import ListNotations.
From Verif Require Import PandasModel TablesModel MarketModel SolverModel PricingModel ReportsModel FcasReportsModel DispatchPricesModel DispatchModel
  SpecLp SpecHistory SpecDispatch SpecNetwork SpecElastic SpecPricing SpecPrices SpecDual SpecSolver SpecReports SpecRequirement
  Fixtures CheckFacts CheckLpFacts CheckNetworkFacts CheckPricingFacts CheckElasticFacts CheckDualFacts CheckDispatchFacts
  DualFacts DispatchFacts RequirementFacts PropReplace PropDual PropDispatch.
Open Scope string_scope.
Open Scope list_scope.

(** One set's requirement is set again and the market runs once more: the change of the
    cost lies between what the change of the requirement is worth at the old and at the
    new price of the set. *)
Theorem C95_cost_between_prices :
  forall c l1 l2 v gu gr gi m m2 p p2 x x2 pi pi2 pr pr2 s q1 q2,
  held c (OpFcasReq l1 v) m -> violation_vars m "fcas" = [] -> links c gu gr gi m -> (forall b, In b l1 -> fq_service b <> "energy") ->
  (forall b, In b l1 -> region_offers m (fq_region b) (fq_service b)) ->
  step (OpFcasReq l2 None) m = (m2, None) -> other_volumes l1 l2 -> one_volume_each l1 -> one_volume_each l2 -> only_set s l1 l2 ->
  asks l1 s q1 -> asks l2 s q2 -> assemble m = Ok p -> assemble m2 = Ok p2 ->
  shadow_prices p x pi -> shadow_prices p2 x2 pi2 -> set_prices m pi pr -> set_prices m2 pi2 pr2 ->
  pr s * (q2 - q1) <= objective p2 x2 - objective p x <= pr2 s * (q2 - q1).
Proof. exact requirement_cost. Qed.
Print Assumptions C95_cost_between_prices.

(** The requirement rises: the price of the set does not fall. *)
Theorem C95_price_does_not_fall :
  forall c l1 l2 v gu gr gi m m2 p p2 x x2 pi pi2 pr pr2 s q1 q2,
  held c (OpFcasReq l1 v) m -> violation_vars m "fcas" = [] -> links c gu gr gi m -> (forall b, In b l1 -> fq_service b <> "energy") ->
  (forall b, In b l1 -> region_offers m (fq_region b) (fq_service b)) ->
  step (OpFcasReq l2 None) m = (m2, None) -> other_volumes l1 l2 -> one_volume_each l1 -> one_volume_each l2 -> only_set s l1 l2 ->
  asks l1 s q1 -> asks l2 s q2 -> assemble m = Ok p -> assemble m2 = Ok p2 ->
  shadow_prices p x pi -> shadow_prices p2 x2 pi2 -> set_prices m pi pr -> set_prices m2 pi2 pr2 ->
  q1 < q2 -> pr s <= pr2 s.
Proof. exact requirement_price. Qed.
Print Assumptions C95_price_does_not_fall.

(** Both for what dispatch records. *)
Theorem C95_recorded :
  forall c l1 l2 v gu gr gi m m2 p p2 s q1 q2 sv a old new sv2 a2 old2 new2 price price2,
  held c (OpFcasReq l1 v) m -> violation_vars m "fcas" = [] -> links c gu gr gi m -> (forall b, In b l1 -> fq_service b <> "energy") ->
  (forall b, In b l1 -> region_offers m (fq_region b) (fq_service b)) -> m_loss m = None ->
  step (OpFcasReq l2 None) m = (m2, None) -> other_volumes l1 l2 -> one_volume_each l1 -> one_volume_each l2 -> only_set s l1 l2 ->
  asks l1 s q1 -> asks l2 s q2 -> assemble m = Ok p -> assemble m2 = Ok p2 -> no_sets p -> no_sets p2 ->
  sound sv -> dispatch_market sv a m old = (new, None) -> da_rerun a = false -> recorded_set_price m new s price ->
  sound sv2 -> dispatch_market sv2 a2 m2 old2 = (new2, None) -> da_rerun a2 = false -> recorded_set_price m2 new2 s price2 ->
  exists x x2, d_value new = Some x /\ d_value new2 = Some x2
    /\ price * (q2 - q1) <= objective p2 x2 - objective p x <= price2 * (q2 - q1) /\ (q1 < q2 -> price <= price2).
Proof. exact recorded_requirement. Qed.
Print Assumptions C95_recorded.

(** R6 asks for raise 6 s in NSW and VIC together, N6 in NSW alone.  R6 rises from 8 to
    15: A's 10 MW at 2 no longer do, B's at 6 are needed too.  The price of R6 rises
    from 2 to 6 and the cost by 34, between 7 times 2 and 7 times 6. *)
Definition rq_config : config := Config ["NSW"; "VIC"] [UnitInfo "A" "NSW" "generator" 1; UnitInfo "B" "VIC" "generator" 1] 5.
Definition rq_volumes : bid_table := BidTable ["1"]
  [BidRow "A" "energy" "generator" (fun _ => 100); BidRow "A" "raise_6s" "generator" (fun _ => 10);
   BidRow "B" "energy" "generator" (fun _ => 100); BidRow "B" "raise_6s" "generator" (fun _ => 20)].
Definition rq_prices : bid_table := BidTable ["1"]
  [BidRow "A" "energy" "generator" (fun _ => 30); BidRow "A" "raise_6s" "generator" (fun _ => 2);
   BidRow "B" "energy" "generator" (fun _ => 40); BidRow "B" "raise_6s" "generator" (fun _ => 6)].
Definition rq_before : list fcas_req_row :=
  [FcasReq "R6" "NSW" "raise_6s" 8 ">="; FcasReq "R6" "VIC" "raise_6s" 8 ">="; FcasReq "N6" "NSW" "raise_6s" 3 ">="].
Definition rq_after : list fcas_req_row :=
  [FcasReq "R6" "NSW" "raise_6s" 15 ">="; FcasReq "R6" "VIC" "raise_6s" 15 ">="; FcasReq "N6" "NSW" "raise_6s" 3 ">="].
Definition rq_ops : list op :=
  [OpVolumeBids rq_volumes; OpPriceBids rq_prices; OpDemand [Demand "NSW" 60; Demand "VIC" 20] None; OpFcasReq rq_before None].
Definition rq_market : market := final rq_config rq_ops.
Definition rq_market2 : market := final rq_config (rq_ops ++ [OpFcasReq rq_after None]).
Definition rq_problem : problem :=
  Eval vm_compute in match assemble rq_market with Ok p => p | Err _ => Problem [] [] [] [] [] end.
Definition rq_problem2 : problem :=
  Eval vm_compute in match assemble rq_market2 with Ok p => p | Err _ => Problem [] [] [] [] [] end.
Definition rq_x : nat -> Q := values [60; 8; 20; 0].
Definition rq_x2 : nat -> Q := values [60; 10; 20; 5].
Definition rq_pi : nat -> Q := values [30; 40; 2; 0].
(** The sets have new constraint ids after the second call. *)
Definition rq_pi2 : nat -> Q := values [30; 40; 0; 0; 6; 0].
Definition rq_pr (s : string) : Q := if String.eqb s "R6" then 2 else 0.
Definition rq_pr2 (s : string) : Q := if String.eqb s "R6" then 6 else 0.
Definition rq_solver : solver := table_solver [(rq_problem, rq_x)] [(rq_problem, (rq_x, rq_pi))] by_distance.
Definition rq_solver2 : solver := table_solver [(rq_problem2, rq_x2)] [(rq_problem2, (rq_x2, rq_pi2))] by_distance.
Lemma rq_shadow : shadow_prices rq_problem rq_x rq_pi.
Proof. apply shadowb_ok; [vm_compute; reflexivity|]. unfold rq_problem, rq_pi, rq_x. no_cheaper. Qed.
Lemma rq_shadow2 : shadow_prices rq_problem2 rq_x2 rq_pi2.
Proof. apply shadowb_ok; [vm_compute; reflexivity|]. unfold rq_problem2, rq_pi2, rq_x2. no_cheaper. Qed.
Lemma rq_sound : sound rq_solver.
Proof.
  apply table_sound; [exact by_distance_sorts| |].
  - intros p x [E|[]]. injection E as <- <-. exact (shadow_optimal _ _ _ rq_shadow).
  - intros q y pi [E|[]]. injection E as <- <- <-. exact rq_shadow.
Qed.
Lemma rq_sound2 : sound rq_solver2.
Proof.
  apply table_sound; [exact by_distance_sorts| |].
  - intros p x [E|[]]. injection E as <- <-. exact (shadow_optimal _ _ _ rq_shadow2).
  - intros q y pi [E|[]]. injection E as <- <- <-. exact rq_shadow2.
Qed.
Example C95_case :
  held rq_config (OpFcasReq rq_before None) rq_market /\ violation_vars rq_market "fcas" = [] /\ links rq_config [] [] [] rq_market
  /\ (forall b, In b rq_before -> fq_service b <> "energy") /\ (forall b, In b rq_before -> region_offers rq_market (fq_region b) (fq_service b))
  /\ m_loss rq_market = None /\ step (OpFcasReq rq_after None) rq_market = (rq_market2, None) /\ other_volumes rq_before rq_after
  /\ one_volume_each rq_before /\ one_volume_each rq_after /\ only_set "R6" rq_before rq_after /\ asks rq_before "R6" 8 /\ asks rq_after "R6" 15
  /\ assemble rq_market = Ok rq_problem /\ assemble rq_market2 = Ok rq_problem2 /\ no_sets rq_problem /\ no_sets rq_problem2
  /\ shadow_prices rq_problem rq_x rq_pi /\ shadow_prices rq_problem2 rq_x2 rq_pi2
  /\ set_prices rq_market rq_pi rq_pr /\ set_prices rq_market2 rq_pi2 rq_pr2
  /\ sound rq_solver /\ (exists new, dispatch_market rq_solver no_limits rq_market nothing = (new, None) /\ recorded_set_price rq_market new "R6" 2)
  /\ sound rq_solver2 /\ (exists new, dispatch_market rq_solver2 no_limits rq_market2 nothing = (new, None) /\ recorded_set_price rq_market2 new "R6" 6)
  /\ da_rerun no_limits = false /\ objective rq_problem2 rq_x2 - objective rq_problem rq_x == 34.
Proof.
  split; [held_by 3%nat|]. split; [vm_compute; reflexivity|]. split; [apply linksb_none; vm_compute; reflexivity|].
  split; [intros b [<-|[<-|[<-|[]]]]; discriminate|].
  split.
  { intros b [<-|[<-|[<-|[]]]]; [exists (UnitInfo "A" "NSW" "generator" 1)|exists (UnitInfo "B" "VIC" "generator" 1)|exists (UnitInfo "A" "NSW" "generator" 1)];
      (split; [cbn; tauto|]; split; [reflexivity|]; vm_compute; eauto 12). }
  split; [vm_compute; reflexivity|]. split; [vm_compute; reflexivity|]. split; [apply Permutation_refl|].
  split; [intros a b [<-|[<-|[<-|[]]]] [<-|[<-|[<-|[]]]] E; try discriminate E; split; reflexivity|].
  split; [intros a b [<-|[<-|[<-|[]]]] [<-|[<-|[<-|[]]]] E; try discriminate E; split; reflexivity|].
  split; [intros a b [<-|[<-|[<-|[]]]] [<-|[<-|[<-|[]]]] E N; try discriminate E; try (destruct N; reflexivity); reflexivity|].
  split; [eexists; split; [left; reflexivity|split; reflexivity]|]. split; [eexists; split; [left; reflexivity|split; reflexivity]|].
  split; [vm_compute; reflexivity|]. split; [vm_compute; reflexivity|]. split; [split; reflexivity|]. split; [split; reflexivity|].
  split; [exact rq_shadow|]. split; [exact rq_shadow2|].
  split.
  { intros rows row s D. vm_compute in D. injection D as <-. intros [<-|[<-|[]]] K; injection K as <-; vm_compute; reflexivity. }
  split.
  { intros rows row s D. vm_compute in D. injection D as <-. intros [<-|[<-|[]]] K; injection K as <-; vm_compute; reflexivity. }
  split; [exact rq_sound|].
  split.
  { eexists. split; [vm_compute; reflexivity|]. do 3 eexists. split; [vm_compute; reflexivity|]. split; [left; reflexivity|].
    split; [reflexivity|]. split; [vm_compute; reflexivity|left; reflexivity]. }
  split; [exact rq_sound2|].
  split.
  { eexists. split; [vm_compute; reflexivity|]. do 3 eexists. split; [vm_compute; reflexivity|]. split; [left; reflexivity|].
    split; [reflexivity|]. split; [vm_compute; reflexivity|left; reflexivity]. }
  split; vm_compute; reflexivity.
Qed.
