(** C87: beside constraints with violation costs, the other calls are obeyed exactly. *)

From Coq Require Import QArith String List Bool Lqa Arith ZArith.
Import ListNotations.
From Verif Require Import PandasModel TablesModel ElasticModel MarketModel SolverModel SpecLp SpecHistory SpecDispatch SpecElastic SpecNetwork
  SpecReplace SpecOrder SpecExact SpecSoft SpecMixed Fixtures SolverFacts CheckFacts CheckOrderFacts CheckMixedFacts MixedFacts PropElastic PropSoft PropExact.
Open Scope string_scope.
Open Scope list_scope.

(** Setting aside the constraints with violation costs, an assignment satisfies the
    problem that [dispatch] builds if and only if it obeys the rule of every call
    that carries no violation cost. *)
Theorem C87_exactly_the_hard_rules :
  forall c m0 ops, new_market c = Ok m0 -> sane ops m0 -> accepted ops m0 -> one_each (settings ops) ->
    (forall o, In o ops -> cost_arg o = None -> in_scope c ops o) ->
    forall x ss p, all_softened c (run ops m0) ss -> soft_groups ops (run ops m0) ss -> together ops (run ops m0) ->
      assemble (run ops m0) = Ok p ->
      (hard_feasible p (run ops m0) ss x <-> obeys_hard ops (run ops m0) x).
Proof. exact mixed_region. Qed.
Print Assumptions C87_exactly_the_hard_rules.

(** The whole problem is infeasible exactly when no dispatch obeys the hard calls:
    a constraint with a violation cost never makes it so. *)
Theorem C87_infeasible_only_if_hard_rules_clash :
  forall c m0 ops p ss, new_market c = Ok m0 -> sane ops m0 -> accepted ops m0 -> one_each (settings ops) ->
    (forall o, In o ops -> cost_arg o = None -> in_scope c ops o) ->
    all_softened c (run ops m0) ss -> soft_groups ops (run ops m0) ss -> together ops (run ops m0) ->
    assemble (run ops m0) = Ok p ->
    ((exists x, feasible p x) <-> exists x, obeys_hard ops (run ops m0) x).
Proof. exact mixed_empty. Qed.
Print Assumptions C87_infeasible_only_if_hard_rules_clash.

(** An optimum obeys the hard calls, and among all dispatch that obeys them it
    minimises the cost of the bids plus the penalties for missed constraints. *)
Theorem C87_optimum :
  forall c m0 ops p ss, new_market c = Ok m0 -> sane ops m0 -> accepted ops m0 -> one_each (settings ops) ->
    (forall o, In o ops -> cost_arg o = None -> in_scope c ops o) ->
    all_softened c (run ops m0) ss -> soft_groups ops (run ops m0) ss -> together ops (run ops m0) ->
    assemble (run ops m0) = Ok p ->
    forall x, optimal p x ->
      obeys_hard ops (run ops m0) x /\ objective p x == weighed p (run ops m0) ss x
      /\ forall y, obeys_hard ops (run ops m0) y -> weighed p (run ops m0) ss x <= weighed p (run ops m0) ss y.
Proof. exact mixed_optimum. Qed.
Print Assumptions C87_optimum.

(** Conversely a dispatch that obeys the hard calls and is cheapest in this sense
    extends to an optimum of the problem. *)
Theorem C87_cheapest_is_optimum :
  forall c m0 ops p ss, new_market c = Ok m0 -> sane ops m0 -> accepted ops m0 -> one_each (settings ops) ->
    (forall o, In o ops -> cost_arg o = None -> in_scope c ops o) ->
    all_softened c (run ops m0) ss -> soft_groups ops (run ops m0) ss -> together ops (run ops m0) ->
    assemble (run ops m0) = Ok p ->
    forall x, obeys_hard ops (run ops m0) x ->
      (forall y, obeys_hard ops (run ops m0) y -> weighed p (run ops m0) ss x <= weighed p (run ops m0) ss y) ->
      exists y, same_plain (run ops m0) ss x y /\ optimal p y /\ objective p y == weighed p (run ops m0) ss x.
Proof. exact mixed_achieved. Qed.
Print Assumptions C87_cheapest_is_optimum.

(** The market of C79 with a violation cost on the demand constraints, given in the
    call, and one on the bid capacity constraints, given afterwards. *)
Definition mx_ops : list op :=
  [OpVolumeBids gx_volumes; OpPriceBids gx_prices; OpCapacity gx_limits None; OpUigf gx_forecast None;
   OpRamp ex_ramp (Some gx_scada) None "no_fast_start_units" None; OpFastStart gx_profile None;
   OpDemand gx_demand (Some (VNum 14000)); OpFcasReq gx_fcas None; OpMaxAvail gx_avail None;
   OpJointRamping ex_reg None "no_fast_start_units" None; OpJointCapacity gx_contingency None; OpEnergyReg gx_regulation None;
   OpInterconnectors ex_inter; OpElastic "unit_bid_capacity" (VNum 5000); OpGeneric gx_generic None;
   OpLinkUnits [GUnit "G1" "A" "energy" 1; GUnit "G1" "S" "energy" 2];
   OpLinkRegions [GRegion "G1" "VIC" "energy" (1#2)]; OpLinkInters [GInter "G1" "VNI" 3]].
Definition mx_market : market := final gx_config mx_ops.
Definition mx_rows (k : string) : list crow := match group mx_market k with Some g => g | None => [] end.
Definition mx_groups : list soft :=
  [Soft "demand" (VNum 14000) (mx_rows "demand"); Soft "unit_bid_capacity" (VNum 5000) (mx_rows "unit_bid_capacity")].

Lemma mx_hypotheses : new_market gx_config = Ok ex_start /\ sane mx_ops ex_start /\ accepted mx_ops ex_start /\ one_each (settings mx_ops)
  /\ (forall o, In o mx_ops -> cost_arg o = None -> in_scope gx_config mx_ops o).
Proof.
  split; [vm_compute; reflexivity|]. split; [apply saneb_ok; vm_compute; reflexivity|].
  split; [apply acceptedb_ok; vm_compute; reflexivity|]. split.
  { unfold one_each. replace (flat_map touches (settings mx_ops)) with (nodup string_dec (flat_map touches (settings mx_ops)))
      by (vm_compute; reflexivity). apply NoDup_nodup. }
  refine (proj1 (Forall_forall (fun o => cost_arg o = None -> in_scope gx_config mx_ops o) _) _). unfold mx_ops at 2.
  repeat (apply Forall_cons; [intros N; first [discriminate N|split; [reflexivity|cbn [in_scope]]]|]); try exact I; [..|apply Forall_nil].
  - split; [reflexivity|]. split; [reflexivity|]. split; [reflexivity|]. exact ex_ramp_scope.
  - intros f [<-|[]]. split; [apply not_two_sidedb; vm_compute; reflexivity|]. split; reflexivity.
  - intros r [<-|[<-|[]]]; discriminate.
  - split; [reflexivity|]. apply ex_reg_scope. now left.
  - intros t [<-|[]]. split; [reflexivity|apply not_two_sidedb; vm_compute; reflexivity].
  - intros t [<-|[]]. split; [reflexivity|]. intros _. reflexivity.
Qed.
Lemma mx_softened : all_softened gx_config mx_market mx_groups.
Proof.
  split; [cbn; repeat constructor; cbn; intuition discriminate|]. intros s [<-|[<-|[]]].
  - split; [|split; [exact I|split; [vm_compute; reflexivity|split; [vm_compute; discriminate|intros r _; exists 14000; split; [reflexivity|discriminate]]]]].
    exists (OpDemand gx_demand (Some (VNum 14000))), (final gx_config (firstn 6 mx_ops)).
    split; [in_force_met 6%nat|]. split; [now left|]. split; [reflexivity|]. discriminate.
  - split; [|split; [exact I|split; [vm_compute; reflexivity|split; [vm_compute; discriminate|intros r _; exists 5000; split; [reflexivity|discriminate]]]]].
    exists (OpElastic "unit_bid_capacity" (VNum 5000)), (final gx_config (firstn 13 mx_ops)).
    split; [in_force_met 13%nat|]. split; [now left|]. split; [reflexivity|]. discriminate.
Qed.
Lemma mx_soft_groups : soft_groups mx_ops mx_market mx_groups /\ together mx_ops mx_market.
Proof. split; [apply soft_groups_ok; vm_compute; reflexivity|apply together_ok; vm_compute; reflexivity]. Qed.

(** The hypotheses hold there.  A dispatch that leaves 10 MW of the demand unserved
    satisfies the problem and obeys the hard calls, not the call for the demand. *)
Definition mx_problem : problem :=
  Eval vm_compute in match assemble mx_market with Ok p => p | Err _ => Problem [] [] [] [] [] end.
Definition mx_dispatch : assignment :=
  values [80; 4; 0; 5; 0; 60; 2; 5; 0; 20; 2; 0; 2; 2; 1; 0; 1; 25; 0; 0; 0; 10; 20; 5; 0; 0; 0].
Example C87_case :
  new_market gx_config = Ok ex_start /\ sane mx_ops ex_start /\ accepted mx_ops ex_start /\ one_each (settings mx_ops)
  /\ (forall o, In o mx_ops -> cost_arg o = None -> in_scope gx_config mx_ops o)
  /\ all_softened gx_config (run mx_ops ex_start) mx_groups /\ soft_groups mx_ops (run mx_ops ex_start) mx_groups
  /\ together mx_ops (run mx_ops ex_start)
  /\ length (filter (hardb mx_ops) mx_ops) = 15%nat
  /\ assemble (run mx_ops ex_start) = Ok mx_problem /\ feasible mx_problem mx_dispatch
  /\ obeys_hard mx_ops (run mx_ops ex_start) mx_dispatch
  /\ weighed mx_problem (run mx_ops ex_start) mx_groups mx_dispatch == objective mx_problem mx_dispatch
  /\ ~ obeys mx_ops (run mx_ops ex_start) mx_dispatch (OpDemand gx_demand (Some (VNum 14000))).
Proof.
  destruct mx_hypotheses as [A [B [C [D E]]]]. split; [exact A|]. split; [exact B|]. split; [exact C|]. split; [exact D|]. split; [exact E|].
  split; [exact mx_softened|]. destruct mx_soft_groups as [Sg To]. split; [exact Sg|]. split; [exact To|]. split; [vm_compute; reflexivity|].
  assert (Ep : assemble (run mx_ops ex_start) = Ok mx_problem) by (vm_compute; reflexivity). split; [exact Ep|].
  assert (F : feasible mx_problem mx_dispatch).
  { assert (S : solution mx_market mx_dispatch) by solves. destruct S as [p [Ep' F]].
    change (assemble (run mx_ops ex_start) = Ok p) in Ep'. rewrite Ep in Ep'. now inversion Ep'; subst. }
  split; [exact F|]. split.
  { apply (mixed_region _ _ _ A B C D E _ _ _ mx_softened Sg To Ep). now apply SoftFacts.hard_of_feasible. }
  split; [vm_compute; reflexivity|]. cbn [obeys]. intros N. specialize (N (Demand "VIC" 70) (or_intror (or_introl eq_refl))).
  assert (Sp : supplied (run mx_ops ex_start) (directions mx_ops) "VIC").
  { right. eexists. split; [left; reflexivity|right; reflexivity]. }
  specialize (N Sp). vm_compute in N. discriminate N.
Qed.

(** The market of C84, where the optimum is known: it serves neither all of the demand nor all of the reserve. *)
Example C87_optimum_case :
  new_market el_config = Ok (final el_config []) /\ sane el_ops (final el_config []) /\ accepted el_ops (final el_config [])
  /\ one_each (settings el_ops) /\ (forall o, In o el_ops -> cost_arg o = None -> in_scope el_config el_ops o)
  /\ all_softened el_config el_market so_groups /\ soft_groups el_ops el_market so_groups /\ together el_ops el_market
  /\ assemble el_market = Ok el_problem /\ optimal el_problem el_x /\ weighed el_problem el_market so_groups el_x == 4100 + 1000 * 60 + 700 * 15.
Proof.
  split; [vm_compute; reflexivity|]. split; [apply saneb_ok; vm_compute; reflexivity|].
  split; [apply acceptedb_ok; vm_compute; reflexivity|]. split.
  { unfold one_each. replace (flat_map touches (settings el_ops)) with (nodup string_dec (flat_map touches (settings el_ops)))
      by (vm_compute; reflexivity). apply NoDup_nodup. }
  split.
  { refine (proj1 (Forall_forall (fun o => cost_arg o = None -> in_scope el_config el_ops o) _) _). unfold el_ops at 2.
    repeat (apply Forall_cons; [intros N; first [discriminate N|split; [reflexivity|cbn [in_scope]]]|]); try exact I; [..|apply Forall_nil].
    intros r [<-|[]]; discriminate. }
  split; [exact so_softened|]. split; [apply soft_groups_ok; vm_compute; reflexivity|]. split; [apply together_ok; vm_compute; reflexivity|].
  split; [exact el_assemble|]. split; [exact el_optimal|vm_compute; reflexivity].
Qed.
