(** C91: less strict limits never make dispatch dearer. *)

From Coq Require Import QArith Lqa String List Bool Arith Permutation.
Import ListNotations.
From Verif Require Import PandasModel TablesModel MarketModel SolverModel DispatchModel SpecLp SpecHistory SpecDispatch SpecDual SpecSolver SpecElastic
  SpecOrder SpecExact SpecShuffle SpecEase Fixtures CheckFacts CheckOrderFacts CheckLpFacts CheckPricingFacts CheckDualFacts CheckDispatchFacts DualFacts
  EaseFacts PropDispatch.
Open Scope string_scope.
Open Scope list_scope.

(** What the stricter calls allow, the eased ones allow at the same cost. *)
Theorem C91_dispatch_stays_possible :
  forall c c' m0 m0' ops ops',
    new_market c = Ok m0 -> new_market c' = Ok m0' -> sane ops m0 -> sane ops' m0' -> accepted ops m0 -> accepted ops' m0' ->
    one_each ops -> one_each ops' -> (forall o, In o ops -> cost_arg o = None /\ in_scope_losses c ops o) ->
    (forall o, In o ops' -> cost_arg o = None /\ in_scope_losses c' ops' o) -> 0 <= c_interval c -> same_units c c' -> eased_calls ops ops' ->
    forall p p' x, assemble (run ops m0) = Ok p -> assemble (run ops' m0') = Ok p' -> feasible p x ->
    exists x', feasible p' x' /\ same_dispatch (run ops m0) x (run ops' m0') x' /\ objective p x == objective p' x'.
Proof. exact eased. Qed.
Print Assumptions C91_dispatch_stays_possible.

Theorem C91_optimum_not_dearer :
  forall c c' m0 m0' ops ops',
    new_market c = Ok m0 -> new_market c' = Ok m0' -> sane ops m0 -> sane ops' m0' -> accepted ops m0 -> accepted ops' m0' ->
    one_each ops -> one_each ops' -> (forall o, In o ops -> cost_arg o = None /\ in_scope_losses c ops o) ->
    (forall o, In o ops' -> cost_arg o = None /\ in_scope_losses c' ops' o) -> 0 <= c_interval c -> same_units c c' -> eased_calls ops ops' ->
    forall p p' x x', assemble (run ops m0) = Ok p -> assemble (run ops' m0') = Ok p' -> optimal p x -> optimal p' x' ->
    objective p' x' <= objective p x.
Proof. exact eased_optimum. Qed.
Print Assumptions C91_optimum_not_dearer.

Theorem C91_recorded_not_dearer :
  forall c c' m0 m0' ops ops',
    new_market c = Ok m0 -> new_market c' = Ok m0' -> sane ops m0 -> sane ops' m0' -> accepted ops m0 -> accepted ops' m0' ->
    one_each ops -> one_each ops' -> (forall o, In o ops -> cost_arg o = None /\ in_scope_losses c ops o) ->
    (forall o, In o ops' -> cost_arg o = None /\ in_scope_losses c' ops' o) -> 0 <= c_interval c -> same_units c c' -> eased_calls ops ops' ->
    forall s s' a a' old old' new new', sound s -> sound s' ->
    dispatch_market s a (run ops m0) old = (new, None) -> dispatch_market s' a' (run ops' m0') old' = (new', None) ->
    exists o o', d_objective new = Some o /\ d_objective new' = Some o' /\ o' <= o.
Proof. exact eased_recorded. Qed.
Print Assumptions C91_recorded_not_dearer.

(** A wider link, higher limits, faster ramping, more volume and a smaller reserve. *)
Definition ea_config : config := Config ["NSW"; "VIC"] [UnitInfo "A" "NSW" "generator" 1; UnitInfo "B" "VIC" "generator" 1] 5.
Definition ea_bids (a b r : Q) : bid_table :=
  BidTable ["1"] [BidRow "A" "energy" "generator" (fun _ => a); BidRow "A" "raise_6s" "generator" (fun _ => r); BidRow "A" "raise_reg" "generator" (fun _ => r);
    BidRow "B" "energy" "generator" (fun _ => b)].
Definition ea_calls (a b r flow cap uigf avail reserve limit rate : Q) : list op :=
  [OpVolumeBids (ea_bids a b r); OpPriceBids (ea_bids 50 30 2);
   OpInterconnectors [Inter "VNI" "VNI" "NSW" "VIC" flow (-(20)) 1 1 1];
   OpDemand [Demand "NSW" 60; Demand "VIC" 30] None; OpCapacity [Limit "B" "generator" cap] None; OpUigf [Uigf "B" uigf] None;
   OpRamp (RampTable false false [RampIn (Ramp "A" "generator" 44 rate rate) None None; RampIn (Ramp "B" "generator" 46 rate rate) None None]) None None "no_fast_start_units" None;
   OpJointRamping [RegRamp "A" 44 rate rate] None "no_fast_start_units" None;
   OpMaxAvail [MaxAvail "A" "raise_6s" "generator" avail] None; OpFcasReq [FcasReq "R6" "NSW" "raise_6s" reserve ">="] None;
   OpGeneric [Generic "G1" "<=" limit] None; OpLinkUnits [GUnit "G1" "A" "energy" 1]].
Definition ea_ops : list op := ea_calls 100 100 20 20 55 90 16 15 45 60.
Definition ea_eased : list op := ea_calls 100 120 25 40 80 95 18 10 50 600.
Definition ea_start : market := final ea_config [].
Definition ea_build (m : market) : problem := match assemble m with Ok p => p | Err _ => Problem [] [] [] [] [] end.
Definition ea_problem : problem := Eval vm_compute in ea_build (final ea_config ea_ops).
Definition ea_problem' : problem := Eval vm_compute in ea_build (final ea_config ea_eased).
Definition ea_x : nat -> Q := values [40; 15; 0; 50; 20].
Definition ea_x' : nat -> Q := values [20; 10; 0; 70; 40].
Definition ea_pi : nat -> Q := values [50; 30; 0; 0; 0; 0; 0; 0; 0; 0; 2; 0].
Definition ea_solver : solver :=
  table_solver [(ea_problem, ea_x); (ea_problem', ea_x')] [(ea_problem, (ea_x, ea_pi)); (ea_problem', (ea_x', ea_pi))] by_distance.
Lemma ea_shadow : shadow_prices ea_problem ea_x ea_pi.
Proof. apply shadowb_ok; [vm_compute; reflexivity|]. unfold ea_problem, ea_pi, ea_x. no_cheaper. Qed.
Lemma ea_shadow' : shadow_prices ea_problem' ea_x' ea_pi.
Proof. apply shadowb_ok; [vm_compute; reflexivity|]. unfold ea_problem', ea_pi, ea_x'. no_cheaper. Qed.
Lemma ea_sound : sound ea_solver.
Proof.
  apply table_sound; [exact by_distance_sorts| |].
  - intros p x [E|[E|[]]]; injection E as <- <-; [exact (shadow_optimal _ _ _ ea_shadow)|exact (shadow_optimal _ _ _ ea_shadow')].
  - intros q y pi [E|[E|[]]]; injection E as <- <- <-; [exact ea_shadow|exact ea_shadow'].
Qed.
Lemma ea_scope a b r flow cap uigf avail reserve limit rate o : In o (ea_calls a b r flow cap uigf avail reserve limit rate) ->
  cost_arg o = None /\ in_scope_losses ea_config (ea_calls a b r flow cap uigf avail reserve limit rate) o.
Proof.
  intros H. repeat (destruct H as [<-|H]); [..|destruct H]; (split; [reflexivity|]); cbn [in_scope_losses]; (split; [reflexivity|]); cbn [in_scope]; try exact I.
  - intros d [<-|[]]. discriminate.
  - split; [reflexivity|]. split; [reflexivity|]. split; [reflexivity|]. intros g ld [_ [H [_ [_ [E _]]]]]. destruct H as [<-|[<-|[]]]; discriminate E.
  - split; [reflexivity|]. intros q [<-|[]] T. exfalso. revert T. apply not_two_sidedb. vm_compute. reflexivity.
  - intros q [<-|[]]. discriminate.
Qed.
Ltac a_row := intros ? [<-|[]]; eexists; split; [now left|].
Lemma ea_easier : eased_calls ea_ops ea_eased.
Proof.
  exists ea_ops. split; [reflexivity|]. unfold ea_ops, ea_eased, ea_calls.
  repeat (apply Forall2_cons; [first [left; split; reflexivity|left; apply Permutation_refl|right; cbn [eased_limits]]|]); [..|constructor].
  - split; [reflexivity|]. repeat (constructor; [split; [reflexivity|]; split; [reflexivity|]; split; [reflexivity|]; intros q [<-|[]]; cbn; split; [lra|split; intros _; lra]|]). constructor.
  - constructor; [|constructor]. unfold wider. cbn. repeat (split; [reflexivity|]). split; lra.
  - a_row. cbn. split; [reflexivity|]. split; [reflexivity|lra].
  - a_row. cbn. split; [reflexivity|lra].
  - split; [reflexivity|]. cbn [rt_rows map ri_row]. intros r' [<-|[<-|[]]].
    + eexists. split; [now left|]. right. split; [reflexivity|]. split; [reflexivity|]. split; [reflexivity|]. cbn. split; [lra|]. split; [lra|].
      intros q [<-|[<-|[]]] E; [reflexivity|discriminate E].
    + eexists. split; [right; now left|]. right. split; [reflexivity|]. split; [reflexivity|]. split; [reflexivity|]. cbn. split; [lra|]. split; [lra|].
      intros q [<-|[<-|[]]] E; [discriminate E|reflexivity].
  - a_row. cbn. split; [reflexivity|]. split; [reflexivity|]. split; lra.
  - a_row. cbn. split; [reflexivity|]. split; [reflexivity|]. split; [reflexivity|lra].
  - constructor; [|constructor]. cbn. repeat (split; [reflexivity|]). right. right. split; [reflexivity|lra].
  - a_row. cbn. split; [reflexivity|]. split; [reflexivity|]. right. left. split; [reflexivity|lra].
Qed.

Example C91_case :
  new_market ea_config = Ok ea_start /\ sane ea_ops ea_start /\ sane ea_eased ea_start
  /\ accepted ea_ops ea_start /\ accepted ea_eased ea_start /\ one_each ea_ops /\ one_each ea_eased
  /\ (forall o, In o ea_ops -> cost_arg o = None /\ in_scope_losses ea_config ea_ops o)
  /\ (forall o, In o ea_eased -> cost_arg o = None /\ in_scope_losses ea_config ea_eased o)
  /\ 0 <= c_interval ea_config /\ same_units ea_config ea_config /\ eased_calls ea_ops ea_eased
  /\ assemble (run ea_ops ea_start) = Ok ea_problem /\ assemble (run ea_eased ea_start) = Ok ea_problem'
  /\ optimal ea_problem ea_x /\ optimal ea_problem' ea_x' /\ sound ea_solver
  /\ exists new new', dispatch_market ea_solver no_limits (run ea_ops ea_start) nothing = (new, None)
       /\ dispatch_market ea_solver no_limits (run ea_eased ea_start) nothing = (new', None)
       /\ d_objective new = Some 3530 /\ d_objective new' = Some 3120.
Proof.
  split; [vm_compute; reflexivity|]. split; [apply saneb_ok; vm_compute; reflexivity|]. split; [apply saneb_ok; vm_compute; reflexivity|].
  split; [apply acceptedb_ok; vm_compute; reflexivity|]. split; [apply acceptedb_ok; vm_compute; reflexivity|]. split.
  { unfold one_each. replace (flat_map touches ea_ops) with (nodup string_dec (flat_map touches ea_ops)) by (vm_compute; reflexivity). apply NoDup_nodup. }
  split.
  { unfold one_each. replace (flat_map touches ea_eased) with (nodup string_dec (flat_map touches ea_eased)) by (vm_compute; reflexivity). apply NoDup_nodup. }
  split; [exact (ea_scope _ _ _ _ _ _ _ _ _ _)|]. split; [exact (ea_scope _ _ _ _ _ _ _ _ _ _)|]. split; [discriminate|]. split; [split; reflexivity|]. split; [exact ea_easier|].
  split; [vm_compute; reflexivity|]. split; [vm_compute; reflexivity|].
  split; [exact (shadow_optimal _ _ _ ea_shadow)|]. split; [exact (shadow_optimal _ _ _ ea_shadow')|]. split; [exact ea_sound|].
  eexists. eexists. split; [vm_compute; reflexivity|]. split; [vm_compute; reflexivity|]. split; vm_compute; reflexivity.
Qed.

(** The same bands have to be dropped: a unit without volume is free of its ramp limits,
    so that offering volume again can leave no dispatch at all.  B ran at 50 MW and can
    only come down to 45 MW, but offers 30 MW. *)
Definition ev_config : config := Config ["NSW"] [UnitInfo "A" "NSW" "generator" 1; UnitInfo "B" "NSW" "generator" 1] 5.
Definition ev_volumes (b : Q) : bid_table := BidTable ["1"] [BidRow "A" "energy" "generator" (fun _ => 100); BidRow "B" "energy" "generator" (fun _ => b)].
Definition ev_rest : list op :=
  [OpRamp (RampTable false false [RampIn (Ramp "B" "generator" 50 60 60) None None]) None None "no_fast_start_units" None; OpDemand [Demand "NSW" 60] None].
Definition ev_problem (b : Q) : problem := ea_build (final ev_config (OpVolumeBids (ev_volumes b) :: ev_rest)).
Theorem C91_volume_from_nothing_refuted :
  exists c m0 t t' ops p p' x,
    new_market c = Ok m0 /\ bt_bands t = bt_bands t'
    /\ Forall2 (fun r r' => br_unit r = br_unit r' /\ br_service r = br_service r' /\ br_dt r = br_dt r' /\ forall b, br_val r b <= br_val r' b) (bt_rows t) (bt_rows t')
    /\ accepted (OpVolumeBids t :: ops) m0 /\ accepted (OpVolumeBids t' :: ops) m0
    /\ (forall o, In o (OpVolumeBids t :: ops) -> in_scope_losses c (OpVolumeBids t :: ops) o)
    /\ assemble (run (OpVolumeBids t :: ops) m0) = Ok p /\ assemble (run (OpVolumeBids t' :: ops) m0) = Ok p'
    /\ feasible p x /\ forall y, ~ feasible p' y.
Proof.
  exists ev_config, (final ev_config []), (ev_volumes 0), (ev_volumes 30), ev_rest, (ev_problem 0), (ev_problem 30), (values [60]).
  split; [vm_compute; reflexivity|]. split; [reflexivity|]. split.
  { repeat (constructor; [split; [reflexivity|]; split; [reflexivity|]; split; [reflexivity|]; intros q; cbn; lra|]). constructor. }
  split; [apply acceptedb_ok; vm_compute; reflexivity|]. split; [apply acceptedb_ok; vm_compute; reflexivity|]. split.
  { intros o [<-|[<-|[<-|[]]]]; cbn [in_scope_losses]; (split; [reflexivity|]); cbn [in_scope]; try exact I.
    - split; [reflexivity|]. split; [reflexivity|]. split; [reflexivity|]. intros g ld [_ [H [_ [_ [E _]]]]].
      destruct H as [<-|[]]. discriminate E.
    - intros d []. }
  split; [vm_compute; reflexivity|]. split; [vm_compute; reflexivity|]. split; [apply feasibleb_ok; vm_compute; reflexivity|].
  intros y [B [C _]].
  assert (P : ev_problem 30 = Problem [PVar 0 0 (Some 100); PVar 1 0 (Some 30)] []
    [PCon 0 "<=" [(1%nat, 1)] (RNum (3300 # 60)); PCon 1 ">=" [(1%nat, 1)] (RNum (2700 # 60)); PCon 2 "=" [(0%nat, 1); (1%nat, 1)] (RNum 60)] [] []) by (vm_compute; reflexivity).
  rewrite P in B, C. specialize (B _ (or_intror (or_introl eq_refl))). specialize (C _ (or_intror (or_introl eq_refl))).
  unfold in_bounds in B. unfold con_holds, relation in C. cbn -[Qmult Qplus Qle Qeq] in B, C.
  destruct C as [[N _]|[[_ C]|[N _]]]; try discriminate N. lra.
Qed.
Print Assumptions C91_volume_from_nothing_refuted.
