(** C94: dispatch of a market for which not everything has been set. *)

From Coq Require Import QArith Qabs Lqa String List Bool Arith.
Import ListNotations.
From Verif Require Import PandasModel TablesModel MarketModel SolverModel PricingModel ReportsModel FcasReportsModel DispatchPricesModel DispatchModel
  SpecLp SpecHistory SpecDispatch SpecNetwork SpecElastic SpecPricing SpecPrices SpecDual SpecSolver
  Fixtures CheckFacts CheckLpFacts CheckNetworkFacts CheckPricingFacts CheckElasticFacts CheckDualFacts CheckDispatchFacts
  DualFacts PricingFacts DispatchFacts IncompleteFacts PropReplace PropDual PropDispatch.
Open Scope string_scope.
Open Scope list_scope.

(** A offers 100 MW at -10 $/MWh and 50 MW at 20 $/MWh, its capacity is 80 MW, and there
    is no demand. *)
Definition in_config : config := Config ["NSW"] [UnitInfo "A" "NSW" "generator" 1] 5.
Definition in_volumes : bid_table :=
  BidTable ["1"; "2"] [BidRow "A" "energy" "generator" (fun b => if String.eqb b "1" then 100 else 50)].
Definition in_prices : bid_table :=
  BidTable ["1"; "2"] [BidRow "A" "energy" "generator" (fun b => if String.eqb b "1" then -(10) else 20)].
Definition in_ops : list op :=
  [OpVolumeBids in_volumes; OpPriceBids in_prices; OpCapacity [Limit "A" "generator" 80] None].
Definition in_market : market := final in_config in_ops.
Definition in_problem : problem :=
  Eval vm_compute in match assemble in_market with Ok p => p | Err _ => Problem [] [] [] [] [] end.
Definition in_x : nat -> Q := values [80; 0].
Definition in_pi : nat -> Q := values [-(10)].
Definition in_solver : solver := table_solver [(in_problem, in_x)] [(in_problem, (in_x, in_pi))] by_distance.
Lemma in_shadow : shadow_prices in_problem in_x in_pi.
Proof. apply shadowb_ok; [vm_compute; reflexivity|]. unfold in_problem, in_pi, in_x. no_cheaper. Qed.
Lemma in_sound : sound in_solver.
Proof.
  apply table_sound; [exact by_distance_sorts| |].
  - intros p x [E|[]]. injection E as <- <-. exact (shadow_optimal _ _ _ in_shadow).
  - intros q y pi [E|[]]. injection E as <- <- <-. exact in_shadow.
Qed.

(** ** A market without anything is refused *)

(** Missing for the full statement: a market with bids and without demand, see below. *)
Theorem C94_nothing_set_partial :
  forall c m0 s a old, new_market c = Ok m0 -> (da_rerun a = false \/ limits_given a = true) ->
  dispatch_market s a m0 old = (old, Some EModelBuild).
Proof. exact empty_refused. Qed.
Print Assumptions C94_nothing_set_partial.

Example C94_nothing_set_case :
  new_market in_config = Ok (empty_market in_config)
  /\ (da_rerun no_limits = false \/ limits_given no_limits = true) /\ limits_given rr_args = true
  /\ dispatch_market in_solver rr_args (empty_market in_config) du_recorded = (du_recorded, Some EModelBuild).
Proof. repeat split; try (vm_compute; reflexivity). now left. Qed.

(** ** With bids no market is refused as incomplete *)

(** Whatever else is missing, the problem is never refused with ModelBuildError.  (The
    model gives this error for one other reason: the solver has found a dispatch and no
    prices.) *)
Theorem C94_bids_suffice :
  forall c t m, in_force c (OpVolumeBids t) m ->
  assemble m <> Err EModelBuild
  /\ forall s a old new, dispatch_market s a m old = (new, Some EModelBuild) ->
     exists p x q, assemble m = Ok p /\ sv_mip s p = Some x /\ d_value new = Some x
       /\ priced_by (sv_sort s) m p x q /\ sv_lin s q = None.
Proof.
  exact (fun c t m F => conj (built_with_bids m (bids_stay c t m F)) (fun s a old new => bids_not_refused c t m s a old new F)).
Qed.
Print Assumptions C94_bids_suffice.

(** ** Without demand the energy prices end with a KeyError *)

Theorem C94_prices_key_error :
  forall c m0 ops r, new_market c = Ok m0 -> (forall l v, ~ In (OpDemand l v) ops) ->
  recorded_energy_prices (run ops m0) r = Err EKey.
Proof. exact no_prices. Qed.
Print Assumptions C94_prices_key_error.

Example C94_bids_case :
  in_force in_config (OpVolumeBids in_volumes) in_market
  /\ (exists new, dispatch_market (table_solver [(in_problem, in_x)] [] by_distance) no_limits in_market nothing = (new, Some EModelBuild))
  /\ (forall l v, ~ In (OpDemand l v) in_ops) /\ in_market = run in_ops (empty_market in_config).
Proof.
  split; [in_force_at 0%nat|]. split; [eexists; vm_compute; reflexivity|]. split; [|reflexivity].
  intros l v [H|[H|[H|[]]]]; discriminate.
Qed.

(** ** The full statement is false *)

(** Bids, no demand: dispatch ends without an error and records 80 MW for nobody. *)
Theorem C94_refuted :
  exists c m s, reached c m /\ sound s /\ dget "demand" (m_mrhs m) = None
  /\ exists new x, dispatch_market s no_limits m nothing = (new, None) /\ d_value new = Some x
     /\ unit_dispatch m x = Ok [(("A", "generator", "energy"), 80)]
     /\ recorded_energy_prices m new = Err EKey.
Proof.
  exists in_config, in_market, in_solver. split; [is_reached|]. split; [exact in_sound|]. split; [vm_compute; reflexivity|].
  eexists. eexists. split; [vm_compute; reflexivity|]. split; [reflexivity|]. split; vm_compute; reflexivity.
Qed.
Print Assumptions C94_refuted.
