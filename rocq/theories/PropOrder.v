(** C78: the order in which constraints are set. *)

From Coq Require Import QArith String List Bool Lqa Arith.
Import ListNotations.
From Verif Require Import PandasModel TablesModel ElasticModel MarketModel SolverModel SpecLp SpecHistory SpecElastic SpecReplace SpecOrder
  Fixtures SolverFacts CheckFacts OrderFacts CheckOrderFacts PropReplace.
Open Scope string_scope.
Open Scope list_scope.

(** Constraint calls made on a market in two orders that agree, for each group, on
    the calls about that group: if the one list of calls is accepted, so is the
    other, and the two markets have the same dispatches at the same costs. *)
Theorem C78_order_does_not_matter :
  forall c m ops ops', reached c m -> Forall constraint_call ops -> sane ops m -> accepted ops m -> same_order ops ops' ->
    accepted ops' m /\ same_dispatch (run ops' m) (run ops m).
Proof. exact order_irrelevant. Qed.
Print Assumptions C78_order_does_not_matter.

(** Two calls about different groups. *)
Theorem C78_two_calls :
  forall c m o1 o2, reached c m -> constraint_call o1 -> constraint_call o2 -> sane_op o1 m -> sane_op o2 m ->
    (forall k, In k (touches o1) -> ~ In k (touches o2)) ->
    snd (step o1 m) = None -> snd (step o2 (fst (step o1 m))) = None ->
    snd (step o2 m) = None /\ snd (step o1 (fst (step o2 m))) = None
    /\ same_dispatch (run [o2; o1] m) (run [o1; o2] m).
Proof. exact two_calls. Qed.
Print Assumptions C78_two_calls.

(** A market with bids, losses and links of generic constraints, and calls for
    most kinds of constraints, some of them elastic. *)
Definition od_market : market := final gx_config
  [OpVolumeBids gx_volumes; OpPriceBids gx_prices; OpInterconnectors gx_inter; OpLosses gx_loss gx_points;
   OpLinkUnits [GUnit "G1" "A" "energy" 1; GUnit "G1" "S" "energy" 2];
   OpLinkRegions [GRegion "G1" "VIC" "energy" (1#2)]; OpLinkInters [GInter "G1" "VNI" 3]].
Definition od_capacity : op := OpCapacity gx_limits (Some (VNum 50)).
Definition od_ramp : op := OpRamp gx_ramp (Some gx_scada) None "no_fast_start_units" (Some (VNum 40)).
Definition od_calls : list op :=
  [od_capacity; od_ramp; OpDemand gx_demand None; OpFcasReq gx_fcas None; OpElastic "demand" (VNum 1000);
   OpJointCapacity gx_contingency (Some (VNum 30)); OpGeneric gx_generic None; OpTieBreak (VNum 1)].
Definition od_others : list op :=
  [OpTieBreak (VNum 1); OpJointCapacity gx_contingency (Some (VNum 30)); OpDemand gx_demand None; od_ramp;
   OpElastic "demand" (VNum 1000); OpGeneric gx_generic None; od_capacity; OpFcasReq gx_fcas None].
Example C78_order_case :
  reached gx_config od_market /\ Forall constraint_call od_calls /\ sane od_calls od_market /\ accepted od_calls od_market
  /\ same_order od_calls od_others
  /\ (exists p, assemble (run od_calls od_market) = Ok p /\ (15 < length (p_cons p))%nat)
  /\ assemble (run od_calls od_market) <> assemble (run od_others od_market).
Proof.
  split; [is_reached|]. split; [repeat constructor|]. split; [apply saneb_ok; vm_compute; reflexivity|].
  split; [apply acceptedb_ok; vm_compute; reflexivity|]. split; [|split].
  - apply same_order_ok. match goal with |- Forall ?P ?l => let l' := eval vm_compute in l in change (Forall P l') end.
    repeat (apply Forall_cons; [vm_compute; reflexivity|]). apply Forall_nil.
  - eexists. split; [vm_compute; reflexivity|]. vm_compute. repeat constructor.
  - vm_compute. discriminate.
Qed.

Example C78_two_calls_case :
  reached gx_config od_market /\ constraint_call od_capacity /\ constraint_call od_ramp /\ sane_op od_capacity od_market /\ sane_op od_ramp od_market
  /\ (forall k, In k (touches od_capacity) -> ~ In k (touches od_ramp))
  /\ snd (step od_capacity od_market) = None /\ snd (step od_ramp (fst (step od_capacity od_market))) = None
  /\ assemble (run [od_ramp; od_capacity] od_market) <> assemble (run [od_capacity; od_ramp] od_market).
Proof.
  split; [is_reached|]. split; [exact I|]. split; [exact I|]. split; [exact I|]. split; [exact I|]. split.
  { intros k [<-|[]]. cbn. intuition discriminate. }
  split; [vm_compute; reflexivity|]. split; [vm_compute; reflexivity|]. vm_compute. discriminate.
Qed.

(** The order of two calls about the same group matters: the later table stays. *)
Example C78_same_group_case :
  exists m o1 o2 x, reached rp_config m /\ constraint_call o1 /\ constraint_call o2 /\ accepted [o1; o2] m /\ accepted [o2; o1] m
    /\ solution (run [o1; o2] m) x /\ ~ solution (run [o2; o1] m) x.
Proof.
  exists rp_small, (OpCapacity [Limit "F" "generator" 5] None), (OpCapacity [Limit "F" "generator" 15] None), (values [10]).
  split; [is_reached|]. split; [exact I|]. split; [exact I|]. split; [apply acceptedb_ok; vm_compute; reflexivity|].
  split; [apply acceptedb_ok; vm_compute; reflexivity|]. split; [solves|]. intros H.
  eapply solution_row in H; [|vm_compute; reflexivity|cbn; right; left; reflexivity].
  revert H. cbv [con_holds relation linear pc_type pc_terms pc_rhs rhs_value values nth]. cbn. intros H.
  destruct H as [[_ H]|[[E _]|[E _]]]; [lra|discriminate E|discriminate E].
Qed.
