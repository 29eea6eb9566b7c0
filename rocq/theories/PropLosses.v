(** C88: with interconnector losses, the problem seen without its interpolation weights
    is the rules of the calls. *)

From Coq Require Import QArith Qabs Qminmax String List Bool Lqa Arith ZArith.
Import ListNotations.
From Verif Require Import PandasModel TablesModel ElasticModel MarketModel SolverModel SpecLp SpecHistory SpecDispatch SpecElastic SpecNetwork
  SpecReplace SpecOrder SpecExact SpecSoft SpecMixed SpecLosses Fixtures SolverFacts SoftFacts CheckFacts CheckOrderFacts CheckMixedFacts
  LossTheoremFacts PropExact PropDual PropDispatch.
Open Scope string_scope.
Open Scope list_scope.

(** An assignment satisfies the problem that [dispatch] builds, its soft groups set
    aside, for some choice of the interpolation weights if and only if it obeys the
    rule of every call that carries no violation cost.  For the call that sets the
    losses the rule says that the loss of a link lies on the straight line between two
    neighbouring break points of its loss function, and is at most the larger bound of
    the flow. *)
Theorem C88_exactly_the_rules :
  forall c m0 ops p ss, new_market c = Ok m0 -> sane ops m0 -> accepted ops m0 -> one_each (settings ops) ->
    (forall o, In o ops -> cost_arg o = None -> in_scope_losses c ops o) ->
    (forall v, ~ In (OpElastic "interpolation_weights" v) ops) ->
    all_softened c (run ops m0) ss -> soft_groups ops (run ops m0) ss -> together ops (run ops m0) ->
    assemble (run ops m0) = Ok p ->
    forall x, (exists y, same_but_weights (run ops m0) x y /\ hard_feasible p (run ops m0) ss y) <-> obeys_hard ops (run ops m0) x.
Proof. exact losses_exact. Qed.
Print Assumptions C88_exactly_the_rules.

(** The problem is infeasible exactly when no dispatch obeys the rules. *)
Theorem C88_infeasible_only_if_rules_clash :
  forall c m0 ops p ss, new_market c = Ok m0 -> sane ops m0 -> accepted ops m0 -> one_each (settings ops) ->
    (forall o, In o ops -> cost_arg o = None -> in_scope_losses c ops o) ->
    (forall v, ~ In (OpElastic "interpolation_weights" v) ops) ->
    all_softened c (run ops m0) ss -> soft_groups ops (run ops m0) ss -> together ops (run ops m0) ->
    assemble (run ops m0) = Ok p ->
    ((exists x, feasible p x) <-> exists x, obeys_hard ops (run ops m0) x).
Proof. exact losses_empty. Qed.
Print Assumptions C88_infeasible_only_if_rules_clash.

(** An optimum obeys the rules, and among all dispatch that obeys them it minimises
    the cost of the bids plus the penalties for missed constraints. *)
Theorem C88_optimum :
  forall c m0 ops p ss, new_market c = Ok m0 -> sane ops m0 -> accepted ops m0 -> one_each (settings ops) ->
    (forall o, In o ops -> cost_arg o = None -> in_scope_losses c ops o) ->
    (forall v, ~ In (OpElastic "interpolation_weights" v) ops) ->
    all_softened c (run ops m0) ss -> soft_groups ops (run ops m0) ss -> together ops (run ops m0) ->
    assemble (run ops m0) = Ok p ->
    forall x, optimal p x ->
      obeys_hard ops (run ops m0) x /\ objective p x == weighed p (run ops m0) ss x
      /\ forall y, obeys_hard ops (run ops m0) y -> weighed p (run ops m0) ss x <= weighed p (run ops m0) ss y.
Proof. exact losses_optimum. Qed.
Print Assumptions C88_optimum.

(** Conversely a dispatch that obeys the rules and is cheapest in this sense extends,
    with weights and violations chosen, to an optimum of the problem. *)
Theorem C88_cheapest_is_optimum :
  forall c m0 ops p ss, new_market c = Ok m0 -> sane ops m0 -> accepted ops m0 -> one_each (settings ops) ->
    (forall o, In o ops -> cost_arg o = None -> in_scope_losses c ops o) ->
    (forall v, ~ In (OpElastic "interpolation_weights" v) ops) ->
    all_softened c (run ops m0) ss -> soft_groups ops (run ops m0) ss -> together ops (run ops m0) ->
    assemble (run ops m0) = Ok p ->
    forall x, obeys_hard ops (run ops m0) x ->
      (forall y, obeys_hard ops (run ops m0) y -> weighed p (run ops m0) ss x <= weighed p (run ops m0) ss y) ->
      exists z y, same_but_weights (run ops m0) x z /\ same_plain (run ops m0) ss z y /\ optimal p y
        /\ objective p y == weighed p (run ops m0) ss x.
Proof. exact losses_achieved. Qed.
Print Assumptions C88_cheapest_is_optimum.

(** The market of C87 with losses on its interconnector. *)
Definition lx_ops : list op :=
  [OpVolumeBids gx_volumes; OpPriceBids gx_prices; OpCapacity gx_limits None; OpUigf gx_forecast None;
   OpRamp ex_ramp (Some gx_scada) None "no_fast_start_units" None; OpFastStart gx_profile None;
   OpDemand gx_demand (Some (VNum 14000)); OpFcasReq gx_fcas None; OpMaxAvail gx_avail None;
   OpJointRamping ex_reg None "no_fast_start_units" None; OpJointCapacity gx_contingency None; OpEnergyReg gx_regulation None;
   OpInterconnectors ex_inter; OpLosses gx_loss gx_points; OpElastic "unit_bid_capacity" (VNum 5000); OpGeneric gx_generic None;
   OpLinkUnits [GUnit "G1" "A" "energy" 1; GUnit "G1" "S" "energy" 2];
   OpLinkRegions [GRegion "G1" "VIC" "energy" (1#2)]; OpLinkInters [GInter "G1" "VNI" 3]].
Definition lx_market : market := final gx_config lx_ops.
Definition lx_rows (k : string) : list crow := match group lx_market k with Some g => g | None => [] end.
Definition lx_groups : list soft :=
  [Soft "demand" (VNum 14000) (lx_rows "demand"); Soft "unit_bid_capacity" (VNum 5000) (lx_rows "unit_bid_capacity")].

Lemma lx_hypotheses : new_market gx_config = Ok ex_start /\ sane lx_ops ex_start /\ accepted lx_ops ex_start /\ one_each (settings lx_ops)
  /\ (forall o, In o lx_ops -> cost_arg o = None -> in_scope_losses gx_config lx_ops o)
  /\ (forall v, ~ In (OpElastic "interpolation_weights" v) lx_ops).
Proof.
  split; [vm_compute; reflexivity|]. split; [apply saneb_ok; vm_compute; reflexivity|].
  split; [apply acceptedb_ok; vm_compute; reflexivity|]. split.
  { unfold one_each. replace (flat_map touches (settings lx_ops)) with (nodup string_dec (flat_map touches (settings lx_ops)))
      by (vm_compute; reflexivity). apply NoDup_nodup. }
  split.
  2:{ intros v H. unfold lx_ops in H. repeat (destruct H as [H|H]; [discriminate H|]). exact H. }
  refine (proj1 (Forall_forall (fun o => cost_arg o = None -> in_scope_losses gx_config lx_ops o) _) _). unfold lx_ops at 2.
  repeat (apply Forall_cons; [intros N; first [discriminate N|cbn [in_scope_losses]; try (split; [reflexivity|cbn [in_scope]])]|]); try exact I; [..|apply Forall_nil].
  - split; [reflexivity|]. split; [reflexivity|]. split; [reflexivity|]. exact ex_ramp_scope.
  - intros f [<-|[]]. split; [apply not_two_sidedb; vm_compute; reflexivity|]. split; reflexivity.
  - intros r [<-|[<-|[]]]; discriminate.
  - split; [reflexivity|]. apply ex_reg_scope. now left.
  - intros t [<-|[]]. split; [reflexivity|apply not_two_sidedb; vm_compute; reflexivity].
  - intros t [<-|[]]. split; [reflexivity|]. intros _. reflexivity.
  - split.
    + intros b Hb. exists (LossFn "VNI" "VNI" (1#2) (fun f => f * f / 1000)). split; [now left|].
      destruct Hb as [<-|[<-|[<-|[<-|[]]]]]; split; reflexivity.
    + change (directions lx_ops) with ex_inter. intros d f Hd [<-|[]] E. cbn in Hd.
      destruct Hd as [<-|[<-|[<-|[]]]]; try discriminate E. split.
      * intros a b Ha Hb _ _ L. destruct Ha as [<-|[<-|[<-|[<-|[]]]]], Hb as [<-|[<-|[<-|[<-|[]]]]]; try reflexivity; discriminate L.
      * exists (Bp "VNI" "VNI" 1 (-50)), (Bp "VNI" "VNI" 2 0). split; [now left|]. split; [right; now left|].
        split; [reflexivity|]. split; [reflexivity|discriminate].
Qed.
Lemma lx_softened : all_softened gx_config lx_market lx_groups.
Proof.
  split; [cbn; repeat constructor; cbn; intuition discriminate|]. intros s [<-|[<-|[]]].
  - split; [|split; [exact I|split; [vm_compute; reflexivity|split; [vm_compute; discriminate|intros r _; exists 14000; split; [reflexivity|discriminate]]]]].
    exists (OpDemand gx_demand (Some (VNum 14000))), (final gx_config (firstn 6 lx_ops)).
    split; [in_force_met 6%nat|]. split; [now left|]. split; [reflexivity|]. discriminate.
  - split; [|split; [exact I|split; [vm_compute; reflexivity|split; [vm_compute; discriminate|intros r _; exists 5000; split; [reflexivity|discriminate]]]]].
    exists (OpElastic "unit_bid_capacity" (VNum 5000)), (final gx_config (firstn 14 lx_ops)).
    split; [in_force_met 14%nat|]. split; [now left|]. split; [reflexivity|]. discriminate.
Qed.
Lemma lx_soft_groups : soft_groups lx_ops lx_market lx_groups /\ together lx_ops lx_market.
Proof. split; [apply soft_groups_ok; vm_compute; reflexivity|apply together_ok; vm_compute; reflexivity]. Qed.

(** The hypotheses hold there.  20 MW flow over the interconnector; the loss of half a
    megawatt lies on the line between the break points at 0 and 25 MW, not on the loss
    function itself.  With that value of the loss function instead, no weights do. *)
Definition lx_problem : problem :=
  Eval vm_compute in match assemble lx_market with Ok p => p | Err _ => Problem [] [] [] [] [] end.
Definition lx_dispatch (loss : Q) : assignment :=
  values [80 + (1#4); 4; 0; 5; 0; 60; 2 + (1#4); 5; 0; 20; 2; 0; 2; 2; 1; 0; 1; 25; 0; 0; 0; 10; 20; 5; 0; loss; 0; 1#5; 4#5; 0].
Example C88_case :
  new_market gx_config = Ok ex_start /\ sane lx_ops ex_start /\ accepted lx_ops ex_start /\ one_each (settings lx_ops)
  /\ (forall o, In o lx_ops -> cost_arg o = None -> in_scope_losses gx_config lx_ops o)
  /\ (forall v, ~ In (OpElastic "interpolation_weights" v) lx_ops)
  /\ all_softened gx_config (run lx_ops ex_start) lx_groups /\ soft_groups lx_ops (run lx_ops ex_start) lx_groups
  /\ together lx_ops (run lx_ops ex_start)
  /\ length (filter (hardb lx_ops) lx_ops) = 16%nat
  /\ assemble (run lx_ops ex_start) = Ok lx_problem /\ feasible lx_problem (lx_dispatch (1#2))
  /\ obeys_hard lx_ops (run lx_ops ex_start) (lx_dispatch (1#2))
  /\ ~ (exists y, same_but_weights (run lx_ops ex_start) (lx_dispatch (2#5)) y
          /\ hard_feasible lx_problem (run lx_ops ex_start) lx_groups y).
Proof.
  destruct lx_hypotheses as [A [B [C [D [E W]]]]]. split; [exact A|]. split; [exact B|]. split; [exact C|]. split; [exact D|]. split; [exact E|].
  split; [exact W|]. split; [exact lx_softened|]. destruct lx_soft_groups as [Sg To]. split; [exact Sg|]. split; [exact To|]. split; [vm_compute; reflexivity|].
  assert (Ep : assemble (run lx_ops ex_start) = Ok lx_problem) by (vm_compute; reflexivity). split; [exact Ep|].
  assert (F : feasible lx_problem (lx_dispatch (1#2))).
  { assert (S : solution lx_market (lx_dispatch (1#2))) by solves. destruct S as [p [Ep' F]].
    change (assemble (run lx_ops ex_start) = Ok p) in Ep'. rewrite Ep in Ep'. now inversion Ep'; subst. }
  split; [exact F|]. split.
  { apply (losses_exact _ _ _ _ _ A B C D E W lx_softened Sg To Ep). eexists. split; [intros i _; reflexivity|]. now apply hard_of_feasible. }
  intros N. apply (losses_exact _ _ _ _ _ A B C D E W lx_softened Sg To Ep) in N.
  assert (Ho : In (OpLosses gx_loss gx_points) lx_ops) by (unfold lx_ops; do 13 right; now left).
  specialize (N _ Ho (losses_hard _ _ _ A B C D E W _ _ Ho)). cbn [obeys] in N.
  destruct (N (Inter "VNI" "VNI" "NSW" "VIC" 50 (-50) 1 1 1) (LossFn "VNI" "VNI" (1#2) (fun f => f * f / 1000)) (or_introl eq_refl) (or_introl eq_refl) eq_refl)
    as [_ [a [b [Ad [I1 [I2 I3]]]]]].
  revert I1 I2 I3.
  change (link_flow (run lx_ops ex_start) (lx_dispatch (2 # 5)) "VNI" "VNI") with (link_flow lx_market (lx_dispatch (2 # 5)) "VNI" "VNI").
  change (link_loss (run lx_ops ex_start) (lx_dispatch (2 # 5)) "VNI" "VNI") with (link_loss lx_market (lx_dispatch (2 # 5)) "VNI" "VNI").
  assert (E1 : link_flow lx_market (lx_dispatch (2#5)) "VNI" "VNI" == 20) by (vm_compute; reflexivity).
  assert (E2 : link_loss lx_market (lx_dispatch (2#5)) "VNI" "VNI" == 2#5) by (vm_compute; reflexivity).
  cbn [in_inter in_link]. rewrite E1, E2. destruct Ad as [Ha [Hb [_ [_ [Ls Bt]]]]].
  destruct Ha as [<-|[<-|[<-|[<-|[]]]]], Hb as [<-|[<-|[<-|[<-|[]]]]]; try discriminate Ls; cbn [bp_point lf_fun]; intros I1 I2 I3;
    try (vm_compute in I1; now elim I1); try (vm_compute in I2; now elim I2); try (vm_compute in I3; discriminate I3);
    (apply (Bt (Bp "VNI" "VNI" 2 0) (or_intror (or_introl eq_refl)) eq_refl); split; reflexivity).
Qed.

(** A smaller market with losses whose optimum is known: 60 MW flow over a link that
    loses 4 MW, and demand and the reserve requirement carry violation costs. *)
Definition du_start : market := final du_config [].
Definition du_rows (k : string) : list crow := match group du_market k with Some g => g | None => [] end.
Definition du_groups : list soft := [Soft "demand" (VNum 1000) (du_rows "demand"); Soft "fcas" (VTable [("R6", 700)]) (du_rows "fcas")].
Lemma du_hypotheses : new_market du_config = Ok du_start /\ sane du_ops du_start /\ accepted du_ops du_start /\ one_each (settings du_ops)
  /\ (forall o, In o du_ops -> cost_arg o = None -> in_scope_losses du_config du_ops o)
  /\ (forall v, ~ In (OpElastic "interpolation_weights" v) du_ops).
Proof.
  split; [vm_compute; reflexivity|]. split; [apply saneb_ok; vm_compute; reflexivity|].
  split; [apply acceptedb_ok; vm_compute; reflexivity|]. split.
  { unfold one_each. replace (flat_map touches (settings du_ops)) with (nodup string_dec (flat_map touches (settings du_ops)))
      by (vm_compute; reflexivity). apply NoDup_nodup. }
  split.
  2:{ intros v H. unfold du_ops, du_rest in H. repeat (destruct H as [H|H]; [discriminate H|]). exact H. }
  refine (proj1 (Forall_forall (fun o => cost_arg o = None -> in_scope_losses du_config du_ops o) _) _). unfold du_ops at 2, du_rest at 1.
  repeat (apply Forall_cons; [intros N; first [discriminate N|cbn [in_scope_losses]; try (split; [reflexivity|cbn [in_scope]])]|]); try exact I; [..|apply Forall_nil].
  - exact du_ends.
  - intros r [<-|[]]; discriminate.
  - split.
    + intros b Hb. exists (LossFn "VNI" "VNI" (1#2) (fun f => f * f / 1000)). split; [now left|].
      destruct Hb as [<-|[<-|[<-|[<-|[]]]]]; split; reflexivity.
    + change (directions du_ops) with [du_link]. intros d f [<-|[]] [<-|[]] _. split.
      * intros a b Ha Hb _ _ L. destruct Ha as [<-|[<-|[<-|[<-|[]]]]], Hb as [<-|[<-|[<-|[<-|[]]]]]; try reflexivity; discriminate L.
      * exists (Bp "VNI" "VNI" 1 0), (Bp "VNI" "VNI" 2 50). split; [now left|]. split; [right; now left|].
        split; [reflexivity|]. split; [reflexivity|discriminate].
Qed.
Lemma du_softened : all_softened du_config du_market du_groups.
Proof.
  split; [cbn; repeat constructor; cbn; intuition discriminate|]. intros s [<-|[<-|[]]].
  - split; [|split; [exact I|split; [vm_compute; reflexivity|split; [vm_compute; discriminate|intros r _; exists 1000; split; [reflexivity|discriminate]]]]].
    exists (OpElastic "demand" (VNum 1000)), (final du_config (firstn 6 du_ops)).
    split; [in_force_met 6%nat|]. split; [now left|]. split; [reflexivity|]. discriminate.
  - split; [|split; [repeat constructor; intros []|split; [vm_compute; reflexivity|split; [vm_compute; discriminate|]]]].
    + exists (OpElastic "fcas" (VTable [("R6", 700)])), (final du_config (firstn 7 du_ops)).
      split; [in_force_met 7%nat|]. split; [now left|]. split; [reflexivity|]. discriminate.
    + assert (T : forallb (fun r => match cr_key r with KSet s => String.eqb s "R6" | _ => false end) (du_rows "fcas") = true)
        by (vm_compute; reflexivity).
      intros r Hr. rewrite forallb_forall in T. specialize (T r Hr). clear Hr. cbn [so_cost cost_of]. exists 700. split; [|discriminate].
      destruct (cr_key r); try discriminate. apply String.eqb_eq in T as ->. exists "R6". split; [reflexivity|now left].
Qed.
Lemma du_soft_groups : soft_groups du_ops du_market du_groups /\ together du_ops du_market.
Proof. split; [apply soft_groups_ok; vm_compute; reflexivity|apply together_ok; vm_compute; reflexivity]. Qed.
Example C88_optimum_case :
  new_market du_config = Ok du_start /\ sane du_ops du_start /\ accepted du_ops du_start /\ one_each (settings du_ops)
  /\ (forall o, In o du_ops -> cost_arg o = None -> in_scope_losses du_config du_ops o)
  /\ (forall v, ~ In (OpElastic "interpolation_weights" v) du_ops)
  /\ all_softened du_config (run du_ops du_start) du_groups /\ soft_groups du_ops (run du_ops du_start) du_groups
  /\ together du_ops (run du_ops du_start)
  /\ assemble (run du_ops du_start) = Ok du_problem /\ optimal du_problem du_x
  /\ obeys_hard du_ops (run du_ops du_start) du_x
  /\ (forall y, obeys_hard du_ops (run du_ops du_start) y ->
        weighed du_problem (run du_ops du_start) du_groups du_x <= weighed du_problem (run du_ops du_start) du_groups y).
Proof.
  destruct du_hypotheses as [A [B [C [D [E W]]]]]. split; [exact A|]. split; [exact B|]. split; [exact C|]. split; [exact D|]. split; [exact E|].
  split; [exact W|]. assert (Er : du_market = run du_ops du_start) by (unfold du_market, final; now rewrite A).
  pose proof du_softened as So. destruct du_soft_groups as [Sg To]. pose proof du_assemble as Ep. rewrite Er in So, Sg, To, Ep.
  split; [exact So|]. split; [exact Sg|]. split; [exact To|]. split; [exact Ep|]. split; [exact du_optimal|].
  destruct (losses_optimum _ _ _ _ _ A B C D E W So Sg To Ep du_x du_optimal) as [O [_ M]]. split; [exact O|exact M].
Qed.
