(** C79: the problem admits exactly the dispatch that obeys every call. *)

From Coq Require Import QArith String List Bool Lqa Arith ZArith.
Import ListNotations.
From Verif Require Import PandasModel TablesModel ElasticModel MarketModel SolverModel SpecLp SpecHistory SpecDispatch SpecElastic
  SpecReplace SpecOrder SpecExact Fixtures SolverFacts CheckFacts CheckOrderFacts ExactTheoremFacts.
Open Scope string_scope.
Open Scope list_scope.

(** After a history of accepted calls that sets each table and each group at most
    once, an assignment satisfies the problem that [dispatch] builds if and only if
    it obeys the rule of every call: no rule is lost and nothing else is required. *)
Theorem C79_exactly_the_rules :
  forall c m0 ops p x, new_market c = Ok m0 -> sane ops m0 -> accepted ops m0 -> one_each ops ->
    (forall o, In o ops -> in_scope c ops o) -> assemble (run ops m0) = Ok p ->
    (feasible p x <-> forall o, In o ops -> obeys ops (run ops m0) x o).
Proof. exact exact_history. Qed.
Print Assumptions C79_exactly_the_rules.

(** The problem is infeasible exactly when no dispatch obeys all the calls. *)
Theorem C79_infeasible_only_if_contradictory :
  forall c m0 ops p, new_market c = Ok m0 -> sane ops m0 -> accepted ops m0 -> one_each ops ->
    (forall o, In o ops -> in_scope c ops o) -> assemble (run ops m0) = Ok p ->
    ((exists x, feasible p x) <-> exists x, forall o, In o ops -> obeys ops (run ops m0) x o).
Proof. exact exact_empty. Qed.
Print Assumptions C79_infeasible_only_if_contradictory.

(** A market with seven units, one of them bidirectional, an interconnector with
    one link and one with two, and all kinds of constraints. *)
Definition ex_ramp : ramp_table := gx_ramp.
Definition ex_reg : list reg_ramp_row := gx_reg.
Definition ex_inter : list inter_row :=
  gx_inter ++ [Inter "BL" "BL1" "NSW" "VIC" 50 0 1 1 1; Inter "BL" "BL2" "VIC" "NSW" 50 0 1 1 1].
Definition ex_ops : list op :=
  [OpVolumeBids gx_volumes; OpPriceBids gx_prices; OpCapacity gx_limits None; OpUigf gx_forecast None;
   OpRamp ex_ramp (Some gx_scada) None "no_fast_start_units" None; OpFastStart gx_profile None;
   OpDemand gx_demand None; OpFcasReq gx_fcas None; OpMaxAvail gx_avail None;
   OpJointRamping ex_reg None "no_fast_start_units" None; OpJointCapacity gx_contingency None; OpEnergyReg gx_regulation None;
   OpInterconnectors ex_inter; OpGeneric gx_generic None;
   OpLinkUnits [GUnit "G1" "A" "energy" 1; GUnit "G1" "S" "energy" 2];
   OpLinkRegions [GRegion "G1" "VIC" "energy" (1#2)]; OpLinkInters [GInter "G1" "VNI" 3]].
Definition ex_start : market := final gx_config [].
Definition ex_dispatch (a b1 b2 : Q) : assignment :=
  values [80; 4; 0; 5; 0; 60; 12; 5; 0; 20; 2; 0; 2; 2; 1; 0; 1; 25; a; b1; b2].

(** The rows of the bidirectional unit are in scope: the sides agree on the start, and both or
    none offer a regulation service. *)
Lemma ex_ramp_scope : forall g ld, two_rows gx_config ex_ramp g ld -> 0 < c_interval gx_config /\ rr_init g == rr_init ld
  /\ 0 <= rr_up g /\ 0 <= rr_down g /\ 0 <= rr_up ld /\ 0 <= rr_down ld.
Proof.
  intros g ld [Hg [Hl [E [Dg [Dl _]]]]]. cbn in Hg, Hl.
  destruct Hg as [<-|[<-|[<-|[<-|[]]]]]; try discriminate Dg; destruct Hl as [<-|[<-|[<-|[<-|[]]]]]; try discriminate Dl; try discriminate E.
  split; [reflexivity|]. split; [reflexivity|]. cbn. split; [discriminate|]. split; [discriminate|]. split; discriminate.
Qed.
Lemma ex_reg_scope ops : In (OpVolumeBids gx_volumes) ops -> forall r, In r ex_reg -> two_sided gx_config (rg_unit r) ->
  forall s, In s ["raise_reg"; "lower_reg"] -> (bids_for ops (rg_unit r) s "generator" <-> bids_for ops (rg_unit r) s "load").
Proof.
  intros Ho r [<-|[<-|[<-|[]]]] T.
  - exfalso. revert T. apply not_two_sidedb. vm_compute. reflexivity.
  - exfalso. revert T. apply not_two_sidedb. vm_compute. reflexivity.
  - cbn [rg_unit]. intros s [<-|[<-|[]]]; split; intros _; exists gx_volumes.
    + exists (BidRow "S" "raise_reg" "load" (fx_two 5 0)), "1". repeat split; try exact Ho; try (cbn; auto 20; fail). discriminate.
    + exists (BidRow "S" "raise_reg" "generator" (fx_two 5 0)), "1". repeat split; try exact Ho; try (cbn; auto 20; fail). discriminate.
    + exists (BidRow "S" "lower_reg" "load" (fx_two 5 0)), "1". repeat split; try exact Ho; try (cbn; auto 20; fail). discriminate.
    + exists (BidRow "S" "lower_reg" "generator" (fx_two 5 0)), "1". repeat split; try exact Ho; try (cbn; auto 20; fail). discriminate.
Qed.

Lemma ex_hypotheses : new_market gx_config = Ok ex_start /\ sane ex_ops ex_start /\ accepted ex_ops ex_start /\ one_each ex_ops
  /\ (forall o, In o ex_ops -> in_scope gx_config ex_ops o).
Proof.
  split; [vm_compute; reflexivity|]. split; [apply saneb_ok; vm_compute; reflexivity|].
  split; [apply acceptedb_ok; vm_compute; reflexivity|]. split.
  { unfold one_each. replace (flat_map touches ex_ops) with (nodup string_dec (flat_map touches ex_ops)) by (vm_compute; reflexivity).
    apply NoDup_nodup. }
  apply Forall_forall. unfold ex_ops at 1.
  repeat (apply Forall_cons; [split; [reflexivity|cbn [in_scope]]|]); try exact I; [..|apply Forall_nil].
  - split; [reflexivity|]. split; [reflexivity|]. split; [reflexivity|]. exact ex_ramp_scope.
  - intros f [<-|[]]. split; [apply not_two_sidedb; vm_compute; reflexivity|]. split; reflexivity.
  - cbn. intros d [<-|[<-|[<-|[]]]]; discriminate.
  - intros r [<-|[<-|[]]]; discriminate.
  - split; [reflexivity|]. apply ex_reg_scope. now left.
  - intros t [<-|[]]. split; [reflexivity|apply not_two_sidedb; vm_compute; reflexivity].
  - intros t [<-|[]]. split; [reflexivity|]. intros _. reflexivity.
Qed.

(** The hypotheses of both theorems hold there; a dispatch that obeys all calls; and one that breaks
    a rule, using both links of the second interconnector. *)
Example C79_case :
  new_market gx_config = Ok ex_start /\ sane ex_ops ex_start /\ accepted ex_ops ex_start /\ one_each ex_ops
  /\ (forall o, In o ex_ops -> in_scope gx_config ex_ops o)
  /\ exists p, assemble (run ex_ops ex_start) = Ok p /\ (20 < length (p_cons p))%nat
       /\ feasible p (ex_dispatch 20 5 0) /\ (forall o, In o ex_ops -> obeys ex_ops (run ex_ops ex_start) (ex_dispatch 20 5 0) o)
       /\ ~ feasible p (ex_dispatch 20 10 5).
Proof.
  destruct ex_hypotheses as [A [B [C [D E]]]]. split; [exact A|]. split; [exact B|]. split; [exact C|]. split; [exact D|]. split; [exact E|].
  assert (S : solution (run ex_ops ex_start) (ex_dispatch 20 5 0)).
  { change (solution (final gx_config ex_ops) (ex_dispatch 20 5 0)). solves. }
  destruct S as [p [Ep F]]. exists p. split; [exact Ep|]. split.
  { vm_compute in Ep. inversion Ep. vm_compute. repeat constructor. }
  split; [exact F|]. split; [now apply (exact_history gx_config ex_start ex_ops p)|].
  intros N. apply (proj1 (exact_history _ _ _ _ _ A B C D E Ep)) with (o := OpInterconnectors ex_inter) in N.
  - cbn [obeys] in N. destruct N as [_ N].
    assert (I1 : In (Inter "BL" "BL1" "NSW" "VIC" 50 0 1 1 1) ex_inter) by (right; left; reflexivity).
    assert (I2 : In (Inter "BL" "BL2" "VIC" "NSW" 50 0 1 1 1) ex_inter) by (right; right; left; reflexivity).
    destruct (N _ _ I1 I2 eq_refl ltac:(discriminate) ltac:(discriminate) ltac:(discriminate)) as [Z|Z]; vm_compute in Z; discriminate Z.
  - do 12 right. left. reflexivity.
Qed.
