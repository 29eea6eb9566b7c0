(** C76: prices do not fall when demand rises, and bound what the rise costs. *)

From Coq Require Import QArith Qabs Lqa String List Bool Arith.
Import ListNotations.
From Verif Require Import PandasModel TablesModel MarketModel SolverModel PricingModel ReportsModel FcasReportsModel DispatchPricesModel DispatchModel
  SpecLp SpecHistory SpecDispatch SpecNetwork SpecElastic SpecPricing SpecPrices SpecDual SpecSolver SpecDemand
  Fixtures CheckFacts CheckLpFacts CheckNetworkFacts CheckPricingFacts CheckElasticFacts CheckDualFacts CheckDispatchFacts
  DualFacts DispatchFacts DemandPriceFacts PropReplace PropDual PropDispatch.
Open Scope string_scope.
Open Scope list_scope.

(** Demand is set again and the market runs once more: the change of the cost lies
    between what the change of demand is worth at the old and at the new prices. *)
Theorem C76_cost_between_prices :
  forall c l1 l2 v dirs m m2 p p2 x x2 pi pi2 ps ps2,
  reached c m -> held c (OpDemand l1 v) m -> violation_vars m "demand" = [] -> network c dirs [] [] m ->
  (forall d, In d dirs -> in_from d <> in_to d) -> (forall d, In d l1 -> supplied m dirs (de_region d)) ->
  step (OpDemand l2 None) m = (m2, None) -> same_regions l1 l2 ->
  assemble m = Ok p -> assemble m2 = Ok p2 -> shadow_prices p x pi -> shadow_prices p2 x2 pi2 ->
  energy_prices m pi = Ok ps -> energy_prices m2 pi2 = Ok ps2 -> priced_problem m p p -> priced_problem m2 p2 p2 ->
  change_value ps l1 l2 <= objective p2 x2 - objective p x <= change_value ps2 l1 l2.
Proof. exact cost_between. Qed.
Print Assumptions C76_cost_between_prices.

(** Demand rises in one region: its price does not fall. *)
Theorem C76_price_does_not_fall :
  forall c l1 l2 v dirs m m2 p p2 x x2 pi pi2 ps ps2,
  reached c m -> held c (OpDemand l1 v) m -> violation_vars m "demand" = [] -> network c dirs [] [] m ->
  (forall d, In d dirs -> in_from d <> in_to d) -> (forall d, In d l1 -> supplied m dirs (de_region d)) ->
  step (OpDemand l2 None) m = (m2, None) -> same_regions l1 l2 ->
  assemble m = Ok p -> assemble m2 = Ok p2 -> shadow_prices p x pi -> shadow_prices p2 x2 pi2 ->
  energy_prices m pi = Ok ps -> energy_prices m2 pi2 = Ok ps2 -> priced_problem m p p -> priced_problem m2 p2 p2 ->
  forall r price price2, In (r, price) ps -> In (r, price2) ps2 ->
  (forall r', r' <> r -> demand_of l2 r' == demand_of l1 r') -> demand_of l1 r < demand_of l2 r -> price <= price2.
Proof. exact rise_one. Qed.
Print Assumptions C76_price_does_not_fall.

(** Both for what dispatch records. *)
Theorem C76_recorded :
  forall c l1 l2 v dirs m m2 p p2 s a old new s2 a2 old2 new2 ps ps2,
  reached c m -> held c (OpDemand l1 v) m -> violation_vars m "demand" = [] -> network c dirs [] [] m ->
  (forall d, In d dirs -> in_from d <> in_to d) -> (forall d, In d l1 -> supplied m dirs (de_region d)) -> m_loss m = None ->
  step (OpDemand l2 None) m = (m2, None) -> same_regions l1 l2 ->
  assemble m = Ok p -> assemble m2 = Ok p2 -> no_sets p -> no_sets p2 ->
  sound s -> dispatch_market s a m old = (new, None) -> da_rerun a = false -> recorded_energy_prices m new = Ok ps ->
  sound s2 -> dispatch_market s2 a2 m2 old2 = (new2, None) -> da_rerun a2 = false -> recorded_energy_prices m2 new2 = Ok ps2 ->
  exists x x2, d_value new = Some x /\ d_value new2 = Some x2
    /\ change_value ps l1 l2 <= objective p2 x2 - objective p x <= change_value ps2 l1 l2
    /\ forall r price price2, In (r, price) ps -> In (r, price2) ps2 ->
         (forall r', r' <> r -> demand_of l2 r' == demand_of l1 r') -> demand_of l1 r < demand_of l2 r -> price <= price2.
Proof. exact recorded_between. Qed.
Print Assumptions C76_recorded.

(** Demand in NSW rises from 120 to 150: A's second band is needed, prices rise from 45
    to 50 there and from 40.5 to 45 in VIC.  The cost rises by 1371, between 30 times 45
    and 30 times 50. *)
Definition dp_demand : list demand_row := [Demand "VIC" 20; Demand "NSW" 150].
Definition dp_market : market := final du_config (df_ops ++ [OpDemand dp_demand None]).
Definition dp_problem : problem :=
  Eval vm_compute in match assemble dp_market with Ok p => p | Err _ => Problem [] [] [] [] [] end.
Definition dp_x : nat -> Q := values [40; 0; 42#10; 60; 0; 82; 10; 62].
Definition dp_pi : nat -> Q := values [0; 0; 45; 50].
Definition dp_solver : solver := table_solver [(dp_problem, dp_x)] [(dp_problem, (dp_x, dp_pi))] by_distance.
Lemma dp_shadow : shadow_prices dp_problem dp_x dp_pi.
Proof. apply shadowb_ok; [vm_compute; reflexivity|]. unfold dp_problem, dp_pi, dp_x. no_cheaper. Qed.
Lemma dp_sound : sound dp_solver.
Proof.
  apply table_sound; [exact by_distance_sorts| |].
  - intros p x [E|[]]. injection E as <- <-. exact (shadow_optimal _ _ _ dp_shadow).
  - intros q y pi [E|[]]. injection E as <- <- <-. exact dp_shadow.
Qed.
Example C76_case :
  reached du_config df_market /\ held du_config (OpDemand du_demand None) df_market /\ violation_vars df_market "demand" = []
  /\ network du_config [df_link] [] [] df_market /\ (forall d, In d [df_link] -> in_from d <> in_to d)
  /\ (forall d, In d du_demand -> supplied df_market [df_link] (de_region d)) /\ m_loss df_market = None
  /\ step (OpDemand dp_demand None) df_market = (dp_market, None) /\ same_regions du_demand dp_demand
  /\ assemble df_market = Ok df_problem /\ assemble dp_market = Ok dp_problem /\ no_sets df_problem /\ no_sets dp_problem
  /\ shadow_prices df_problem df_x df_pi /\ shadow_prices dp_problem dp_x dp_pi
  /\ priced_problem df_market df_problem df_problem /\ priced_problem dp_market dp_problem dp_problem
  /\ sound df_solver /\ (exists new, dispatch_market df_solver no_limits df_market nothing = (new, None)
        /\ recorded_energy_prices df_market new = Ok [("NSW", 45); ("VIC", 405#10)])
  /\ sound dp_solver /\ (exists new, dispatch_market dp_solver no_limits dp_market nothing = (new, None)
        /\ recorded_energy_prices dp_market new = Ok [("VIC", 45); ("NSW", 50)])
  /\ (forall r', r' <> "NSW" -> demand_of dp_demand r' == demand_of du_demand r')
  /\ demand_of du_demand "NSW" < demand_of dp_demand "NSW"
  /\ objective dp_problem dp_x - objective df_problem df_x == 1371
  /\ change_value [("NSW", 45); ("VIC", 405#10)] du_demand dp_demand == 1350
  /\ change_value [("VIC", 45); ("NSW", 50)] du_demand dp_demand == 1500.
Proof.
  split; [is_reached|]. split; [held_by 2%nat|]. split; [vm_compute; reflexivity|].
  split; [apply (networkb_lossless _ _ 3); vm_compute; reflexivity|]. split; [intros d [<-|[]]; discriminate|].
  split; [intros e [<-|[<-|[]]]; right; exists df_link; cbn; auto|]. split; [vm_compute; reflexivity|].
  split; [vm_compute; reflexivity|]. split; [intros r; cbn; tauto|].
  split; [vm_compute; reflexivity|]. split; [vm_compute; reflexivity|]. split; [split; reflexivity|]. split; [split; reflexivity|].
  split; [exact df_shadow|]. split; [exact dp_shadow|].
  split; [exists by_distance, df_x; split; [exact by_distance_sorts|left; vm_compute; reflexivity]|].
  split; [exists by_distance, dp_x; split; [exact by_distance_sorts|left; vm_compute; reflexivity]|].
  split; [exact df_sound|]. split; [eexists; split; vm_compute; reflexivity|].
  split; [exact dp_sound|]. split; [eexists; split; vm_compute; reflexivity|].
  split. { intros r' N. unfold demand_of. cbn [dp_demand du_demand filter de_region]. apply String.eqb_neq in N. rewrite N.
    destruct (String.eqb r' "VIC"); vm_compute; reflexivity. }
  split; [vm_compute; reflexivity|]. split; [vm_compute; reflexivity|]. split; vm_compute; reflexivity.
Qed.
