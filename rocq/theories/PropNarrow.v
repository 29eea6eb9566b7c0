(** C77: a call that sets constraints only changes these constraints. *)

From Coq Require Import QArith Qabs Lqa String List Bool Arith.
Import ListNotations.
From Verif Require Import PandasModel TablesModel MarketModel SolverModel PricingModel ReportsModel FcasReportsModel DispatchPricesModel DispatchModel
  SpecLp SpecHistory SpecDispatch SpecNetwork SpecElastic SpecPricing SpecPrices SpecDual SpecSolver SpecReplace SpecNarrow
  Fixtures CheckFacts CheckLpFacts CheckNetworkFacts CheckPricingFacts CheckElasticFacts CheckDualFacts CheckDispatchFacts
  DualFacts DispatchFacts NarrowFacts PropReplace PropDual PropDispatch PropDemandPrice.
Open Scope string_scope.
Open Scope list_scope.

(** The problem after the call has the variables, costs and ordered sets of the problem
    before. *)
Theorem C77_variables_and_costs_kept :
  forall c o m m2 p p2, reached c m -> same_method o o -> sane_op o m -> cost_arg o = None -> step o m = (m2, None) ->
  assemble m = Ok p -> assemble m2 = Ok p2 ->
  p_vars p2 = p_vars p /\ p_obj p2 = p_obj p /\ p_sos2 p2 = p_sos2 p /\ p_sos1 p2 = p_sos1 p.
Proof. exact same_rest. Qed.
Print Assumptions C77_variables_and_costs_kept.

(** A point solves it if and only if it keeps the bounds, the ordered sets, the
    constraints of all other groups before the call, and those the call set. *)
Theorem C77_other_constraints_kept :
  forall c o m m2 p p2, reached c m -> same_method o o -> sane_op o m -> cost_arg o = None -> step o m = (m2, None) ->
  assemble m = Ok p -> assemble m2 = Ok p2 ->
  forall y, feasible p2 y <-> boxed p y /\ sets_hold p y
    /\ (forall con, In con (p_cons p) -> ~ set_by o m con -> con_holds y con)
    /\ (forall con, In con (p_cons p2) -> set_by o m2 con -> con_holds y con).
Proof. exact call_feasible. Qed.
Print Assumptions C77_other_constraints_kept.

(** Constraints set for the first time only narrow the dispatch: it never becomes cheaper. *)
Theorem C77_new_limits_never_cheaper :
  forall c o m m2 p p2, reached c m -> same_method o o -> sane_op o m -> cost_arg o = None -> step o m = (m2, None) ->
  assemble m = Ok p -> assemble m2 = Ok p2 ->
  forall x y, all_new o m -> optimal p x -> optimal p2 y -> objective p x <= objective p2 y.
Proof. exact call_never_cheaper. Qed.
Print Assumptions C77_new_limits_never_cheaper.

(** An optimal dispatch that keeps the new constraints stays optimal. *)
Theorem C77_met_limits_keep_optimum :
  forall c o m m2 p p2, reached c m -> same_method o o -> sane_op o m -> cost_arg o = None -> step o m = (m2, None) ->
  assemble m = Ok p -> assemble m2 = Ok p2 ->
  forall x, all_new o m -> optimal p x -> (forall con, In con (p_cons p2) -> set_by o m2 con -> con_holds x con) -> optimal p2 x.
Proof. exact call_keeps_optimum. Qed.
Print Assumptions C77_met_limits_keep_optimum.

(** The recorded dispatches before and after. *)
Theorem C77_recorded_never_cheaper :
  forall c o m m2 s s2 a a2 old old2 new new2,
  reached c m -> same_method o o -> sane_op o m -> cost_arg o = None -> all_new o m -> step o m = (m2, None) ->
  sound s -> dispatch_market s a m old = (new, None) -> sound s2 -> dispatch_market s2 a2 m2 old2 = (new2, None) ->
  exists p p2 x x2, assemble m = Ok p /\ assemble m2 = Ok p2 /\ d_value new = Some x /\ d_value new2 = Some x2
    /\ p_obj p2 = p_obj p /\ objective p x <= objective p2 x2.
Proof. exact recorded_never_cheaper. Qed.
Print Assumptions C77_recorded_never_cheaper.

(** C may no longer give more than 70 of its 82 MW: B replaces the 12 MW, less the part
    that is lost on the way to NSW. *)
Definition nl_call : op := OpCapacity [Limit "C" "generator" 70] None.
Definition nl_market : market := final du_config (df_ops ++ [nl_call]).
Definition nl_problem : problem :=
  Eval vm_compute in match assemble nl_market with Ok p => p | Err _ => Problem [] [] [] [] [] end.
Definition nl_x : nat -> Q := values [40; 0; 0; 45; 0; 70; 10; 50].
Definition nl_pi : nat -> Q := values [45; 405#10; -305#10].
Definition nl_solver : solver := table_solver [(nl_problem, nl_x)] [(nl_problem, (nl_x, nl_pi))] by_distance.
Lemma nl_shadow : shadow_prices nl_problem nl_x nl_pi.
Proof. apply shadowb_ok; [vm_compute; reflexivity|]. unfold nl_problem, nl_pi, nl_x. no_cheaper. Qed.
Lemma nl_sound : sound nl_solver.
Proof.
  apply table_sound; [exact by_distance_sorts| |].
  - intros p x [E|[]]. injection E as <- <-. exact (shadow_optimal _ _ _ nl_shadow).
  - intros q y pi [E|[]]. injection E as <- <- <-. exact nl_shadow.
Qed.
Example C77_case :
  reached du_config df_market /\ same_method nl_call nl_call /\ sane_op nl_call df_market /\ cost_arg nl_call = None
  /\ all_new nl_call df_market /\ step nl_call df_market = (nl_market, None)
  /\ assemble df_market = Ok df_problem /\ assemble nl_market = Ok nl_problem
  /\ optimal df_problem df_x /\ optimal nl_problem nl_x
  /\ sound df_solver /\ (exists new, dispatch_market df_solver no_limits df_market nothing = (new, None) /\ d_value new = Some df_x)
  /\ sound nl_solver /\ (exists new, dispatch_market nl_solver no_limits nl_market nothing = (new, None) /\ d_value new = Some nl_x)
  /\ objective nl_problem nl_x == objective df_problem df_x + 366
  /\ (exists con, In con (p_cons nl_problem) /\ set_by nl_call nl_market con /\ con_holds nl_x con /\ ~ con_holds df_x con).
Proof.
  split; [is_reached|]. split; [exact I|]. split; [exact I|]. split; [reflexivity|].
  split; [intros k [<-|[]]; split; vm_compute; reflexivity|]. split; [vm_compute; reflexivity|].
  split; [vm_compute; reflexivity|]. split; [vm_compute; reflexivity|].
  split; [exact (shadow_optimal _ _ _ df_shadow)|]. split; [exact (shadow_optimal _ _ _ nl_shadow)|].
  split; [exact df_sound|]. split; [eexists; split; vm_compute; reflexivity|].
  split; [exact nl_sound|]. split; [eexists; split; vm_compute; reflexivity|]. split; [vm_compute; reflexivity|].
  eexists. split; [right; right; left; reflexivity|]. split; [|split].
  - exists "unit_bid_capacity". eexists. eexists. split; [now left|]. split; [left; vm_compute; reflexivity|]. split; [left; reflexivity|reflexivity].
  - left. split; [reflexivity|]. vm_compute. discriminate.
  - intros [[_ H]|[[H _]|[H _]]]; [|discriminate H|discriminate H]. vm_compute in H. now apply H.
Qed.

(** A limit of 90 MW changes nothing. *)
Definition nl_slack : op := OpCapacity [Limit "C" "generator" 90] None.
Definition nl_slack_market : market := final du_config (df_ops ++ [nl_slack]).
Definition nl_slack_problem : problem :=
  Eval vm_compute in match assemble nl_slack_market with Ok p => p | Err _ => Problem [] [] [] [] [] end.
Example C77_met_case :
  same_method nl_slack nl_slack /\ sane_op nl_slack df_market /\ cost_arg nl_slack = None /\ all_new nl_slack df_market
  /\ step nl_slack df_market = (nl_slack_market, None) /\ assemble nl_slack_market = Ok nl_slack_problem
  /\ (forall con, In con (p_cons nl_slack_problem) -> set_by nl_slack nl_slack_market con -> con_holds df_x con).
Proof.
  split; [exact I|]. split; [exact I|]. split; [reflexivity|]. split; [intros k [<-|[]]; split; vm_compute; reflexivity|].
  split; [vm_compute; reflexivity|]. split; [vm_compute; reflexivity|].
  intros con Hc _. destruct Hc as [<-|[<-|[<-|[]]]].
  - right. right. split; [reflexivity|]. vm_compute. reflexivity.
  - right. right. split; [reflexivity|]. vm_compute. reflexivity.
  - left. split; [reflexivity|]. vm_compute. discriminate.
Qed.

(** Setting demand again replaces the balance constraints and keeps the rest. *)
Definition nl_both : market := final du_config (df_ops ++ [nl_call; OpDemand dp_demand None]).
Definition nl_both_problem : problem :=
  Eval vm_compute in match assemble nl_both with Ok p => p | Err _ => Problem [] [] [] [] [] end.
Example C77_again_case :
  reached du_config nl_market /\ same_method (OpDemand dp_demand None) (OpDemand dp_demand None) /\ step (OpDemand dp_demand None) nl_market = (nl_both, None)
  /\ assemble nl_market = Ok nl_problem /\ assemble nl_both = Ok nl_both_problem
  /\ (exists con, In con (p_cons nl_problem) /\ set_by (OpDemand dp_demand None) nl_market con)
  /\ (exists con, In con (p_cons nl_problem) /\ ~ set_by (OpDemand dp_demand None) nl_market con)
  /\ feasible nl_both_problem (values [40; 0; 15; 60; 0; 70; 10; 50]).
Proof.
  split; [is_reached|]. split; [exact I|]. split; [vm_compute; reflexivity|]. split; [vm_compute; reflexivity|]. split; [vm_compute; reflexivity|].
  split; [|split].
  - eexists. split; [left; reflexivity|]. exists "demand". eexists. eexists. split; [now left|]. split; [right; vm_compute; reflexivity|].
    split; [left; reflexivity|reflexivity].
  - eexists. split; [right; right; left; reflexivity|]. intros [k [g [r [[<-|[]] [[D|D] [Hr E]]]]]].
    + vm_compute in D. discriminate D.
    + vm_compute in D. injection D as <-. destruct Hr as [<-|[<-|[]]]; discriminate E.
  - assert (S : solution nl_both (values [40; 0; 15; 60; 0; 70; 10; 50])) by solves. destruct S as [p [A F]].
    assert (E : assemble nl_both = Ok nl_both_problem) by (vm_compute; reflexivity). rewrite E in A. injection A as <-. exact F.
Qed.
