(** C30, C31: the problem used for prices and the over-constrained re-run. *)

From Coq Require Import QArith Qabs String List Bool Lqa Arith.
Import ListNotations.
From Verif Require Import PandasModel TablesModel MarketModel SolverModel PricingModel SpecLp SpecHistory SpecDispatch SpecElastic
  SpecNetwork SpecPricing Fixtures CheckFacts CheckNetworkFacts CheckPricingFacts LimitFacts BalanceFacts LossFacts PricingFacts
  RelaxFacts PropLimits PropNetwork PropReplace.
Open Scope string_scope.
Open Scope list_scope.

(** ** C31 *)

(** Missing for the full claim: break points spaced so unevenly that a gap is
    longer than the next two together; there the claim is false, see below.  Also
    assumed: break points rise along the segments and every link with break points
    has a loss function. *)
Theorem C31_dispatch_remains_partial :
  forall c dirs lf bps m x p sort, network c dirs lf bps m -> all_losses lf bps ->
    (forall d, In d dirs -> rising d bps) -> (forall d, In d dirs -> balanced d bps) -> sorts sort ->
    assemble m = Ok p -> feasible p x -> feasible (pricing_problem sort m x p) x.
Proof. exact pricing_contains. Qed.
Print Assumptions C31_dispatch_remains_partial.

Example C31_case :
  network gx_config gx_inter gx_loss gx_points gx_market /\ all_losses gx_loss gx_points
  /\ (forall d, In d gx_inter -> rising d gx_points) /\ (forall d, In d gx_inter -> balanced d gx_points)
  /\ sorts by_distance
  /\ (exists p, assemble gx_market = Ok p /\ feasible p gx_x)
  /\ unused_weights by_distance gx_x (rows_or_nil (m_inter gx_market)) (rows_or_nil (m_weights gx_market)) = [20%nat].
Proof.
  split; [exact gx_network|].
  split. { intros b [<-|[<-|[<-|[<-|[]]]]]; exists (LossFn "VNI" "VNI" (1#2) (fun f => f * f / 1000)); repeat split; now left. }
  split; [intros d [<-|[]]; apply risingb_ok; vm_compute; reflexivity|].
  split; [intros d [<-|[]]; apply balancedb_ok; vm_compute; reflexivity|].
  split; [exact by_distance_sorts|]. split; [exact gx_solution|vm_compute; reflexivity].
Qed.

(** Break points at 0, 1, 2 and 100 and a flow of 3: the weight of 100 is among
    those removed, though the flow lies between 2 and 100. *)
Definition un_config : config :=
  Config ["NSW"; "VIC"] [UnitInfo "A" "NSW" "generator" 1; UnitInfo "B" "VIC" "generator" 1] 5.
Definition un_inter : list inter_row := [Inter "I" "I" "VIC" "NSW" 100 0 1 1 1].
Definition un_loss : list lossfn_row := [LossFn "I" "I" (1#2) (fun f => f / 100)].
Definition un_points : list bp_row := [Bp "I" "I" 1 0; Bp "I" "I" 2 1; Bp "I" "I" 3 2; Bp "I" "I" 4 100].
Definition un_ops : list op :=
  [OpVolumeBids (BidTable ["1"] [BidRow "A" "energy" "generator" (fun _ => 100)]);
   OpDemand [Demand "NSW" 10; Demand "VIC" (597#200)] None; OpInterconnectors un_inter; OpLosses un_loss un_points].
Definition un_market : market := final un_config un_ops.
(** A; flow; loss; weights. *)
Definition un_x : assignment := values [2603#200; 3; 3#100; 0; 0; 97#98; 1#98].

Theorem C31_uneven_points_refuted :
  exists c dirs lf bps m x p, network c dirs lf bps m /\ all_losses lf bps /\ (forall d, In d dirs -> rising d bps)
    /\ assemble m = Ok p /\ feasible p x
    /\ sorts by_distance /\ ~ feasible (pricing_problem by_distance m x p) x.
Proof.
  exists un_config, un_inter, un_loss, un_points, un_market, un_x.
  assert (So : solution un_market un_x) by solves. destruct So as [p [A F]]. exists p.
  split; [network_at 2%nat 3%nat|].
  split. { intros b [<-|[<-|[<-|[<-|[]]]]]; exists (LossFn "I" "I" (1#2) (fun f => f / 100)); repeat split; now left. }
  split; [intros d [<-|[]]; apply risingb_ok; vm_compute; reflexivity|].
  split; [exact A|]. split; [exact F|]. split; [exact by_distance_sorts|]. apply infeasible.
  apply (with_problem un_market p (fun p => linearb (pricing_problem by_distance un_market un_x p) un_x) false A). vm_compute. reflexivity.
Qed.
Print Assumptions C31_uneven_points_refuted.

(** ** C30 *)

(** Energy demand 50, a reserve requirement of 10 of which 5 are offered, and two
    generic constraints that the demand does not allow to meet. *)
Definition oc_config : config :=
  Config ["NSW"] [UnitInfo "A" "NSW" "generator" 1; UnitInfo "B" "NSW" "generator" 1] 5.
Definition oc_volumes : bid_table := BidTable ["1"]
  [BidRow "A" "energy" "generator" (fun _ => 25); BidRow "B" "energy" "generator" (fun _ => 100);
   BidRow "A" "raise_6s" "generator" (fun _ => 5)].
Definition oc_ops : list op :=
  [OpVolumeBids oc_volumes; OpDemand [Demand "NSW" 50] None;
   OpFcasReq [FcasReq "R6" "NSW" "raise_6s" 10 ">="] (Some (VNum 1000));
   OpGeneric [Generic "G1" ">=" 40; Generic "G2" "<=" 20; Generic "G3" "<=" 30] (Some (VNum 500));
   OpLinkUnits [GUnit "G1" "A" "energy" 1; GUnit "G2" "B" "energy" 1; GUnit "G3" "B" "energy" 1]].
Definition oc_market : market := final oc_config oc_ops.
(** A energy, A reserve, B energy; violations of R6, G1, G2, G3. *)
Definition oc_x : assignment := values [25; 5; 25; 5; 15; 5; 0].
Definition oc_y : assignment := values [25; 5; 25; 0; 0; 0; 0].
(** The reserve price is at its ceiling. *)
Definition oc_prices : nat -> Q := fun i => if Nat.eqb i 1 then 15000 else 100.
Definition oc_groups (k : string) : list crow := match group oc_market k with Some g => g | None => [] end.

Lemma oc_elastic k : relaxed oc_market oc_x k -> all_elastic oc_config k oc_market (oc_groups k).
Proof.
  intros [[-> | ->] _].
  - exists (VNum 500). split.
    { exists (OpGeneric [Generic "G1" ">=" 40; Generic "G2" "<=" 20; Generic "G3" "<=" 30] (Some (VNum 500))), (final oc_config (firstn 3 oc_ops)).
      split; [in_force_met 3%nat|]. split; [now left|]. split; [reflexivity|]. discriminate. }
    split; [exact I|]. split; [vm_compute; reflexivity|]. split; [vm_compute; discriminate|]. intros r _. eexists. reflexivity.
  - exists (VNum 1000). split.
    { exists (OpFcasReq [FcasReq "R6" "NSW" "raise_6s" 10 ">="] (Some (VNum 1000))), (final oc_config (firstn 2 oc_ops)).
      split; [in_force_met 2%nat|]. split; [now left|]. split; [reflexivity|]. discriminate. }
    split; [exact I|]. split; [vm_compute; reflexivity|]. split; [vm_compute; discriminate|]. intros r _. eexists. reflexivity.
Qed.
Lemma oc_reached : reached oc_config oc_market.
Proof. is_reached. Qed.
Lemma oc_relaxed k : k = "generic" \/ k = "fcas" -> relaxed oc_market oc_x k.
Proof.
  intros [-> | ->]; (split; [auto|]).
  - exists 4%nat. split; [vm_compute; auto|reflexivity].
  - exists 3%nat. split; [vm_compute; auto|reflexivity].
Qed.

(** Every constraint of the groups with a violation above 0.0001 moves by its own
    violation plus 0.01 in the direction of the violation, nothing else moves. *)
Theorem C30_amount :
  forall c sort a b f prices m x p p1 k g con, reached c m -> assemble m = Ok p ->
    (forall k, relaxed m x k -> exists g, all_elastic c k m g) ->
    rerun_problem a b f prices m x (pricing_problem sort m x p) = Some p1 ->
    relaxed m x k -> group m k = Some g -> In con (p_cons p) -> of_group g con ->
    exists con' q q', In con' (p_cons p1) /\ same_lhs con' con /\ pc_rhs con = RNum q /\ pc_rhs con' = RNum q'
      /\ (pc_type con = ">=" -> q' == q - allowance (violation m k con x))
      /\ (pc_type con = "<=" -> q' == q + allowance (violation m k con x)).
Proof. exact rerun_amount. Qed.
Print Assumptions C30_amount.

Theorem C30_others_stay :
  forall c sort a b f prices m x p p1 con, reached c m -> assemble m = Ok p ->
    (forall k, relaxed m x k -> exists g, all_elastic c k m g) ->
    rerun_problem a b f prices m x (pricing_problem sort m x p) = Some p1 ->
    In con (p_cons p) -> (forall k g, relaxed m x k -> group m k = Some g -> ~ of_group g con) ->
    exists con', In con' (p_cons p1) /\ same_lhs con' con /\ forall z, rhs_value (pc_rhs con') z == rhs_value (pc_rhs con) z.
Proof. exact rerun_others. Qed.
Print Assumptions C30_others_stay.

(** Missing for the full claim: violated equality constraints, and groups in which
    no violation exceeds 0.0001; for both the claim is false, see below. *)
Theorem C30_original_meets_partial :
  forall c sort a b f prices m x y p p1, reached c m -> assemble m = Ok p ->
    let p0 := pricing_problem sort m x p in
    feasible p0 x -> (forall k, relaxed m x k -> exists g, all_elastic c k m g) ->
    rerun_problem a b f prices m x p0 = Some p1 ->
    (forall k g con, relaxed m x k -> group m k = Some g -> In con (p_cons p) -> of_group g con -> pc_type con = "=" ->
       violation m k con x == 0) ->
    without m x y -> feasible p1 y.
Proof. exact rerun_feasible. Qed.
Print Assumptions C30_original_meets_partial.

Example C30_case :
  reached oc_config oc_market /\ (exists p p1, assemble oc_market = Ok p
    /\ feasible (pricing_problem by_distance oc_market oc_x p) oc_x
    /\ (forall k, relaxed oc_market oc_x k -> exists g, all_elastic oc_config k oc_market g)
    /\ rerun_problem 15000 (-(1000)) 15000 oc_prices oc_market oc_x (pricing_problem by_distance oc_market oc_x p) = Some p1
    /\ (forall k g con, relaxed oc_market oc_x k -> group oc_market k = Some g -> In con (p_cons p) -> of_group g con -> pc_type con = "=" ->
          violation oc_market k con oc_x == 0)
    /\ relaxed oc_market oc_x "generic" /\ relaxed oc_market oc_x "fcas"
    /\ without oc_market oc_x oc_y).
Proof.
  split; [exact oc_reached|]. assert (So : solution oc_market oc_x) by solves. destruct So as [p [A F]].
  exists p, (relax (adjusters oc_market oc_x) (pricing_problem by_distance oc_market oc_x p)).
  split; [exact A|]. split; [now apply linear_feasible|]. split; [intros k H; eexists; now apply oc_elastic|].
  split; [vm_compute; reflexivity|].
  split. { intros k g con [[-> | ->] _] G Hcon [r [Hr E]] Ty; exfalso.
    - assert (H : match assemble oc_market with Ok q => forallb (fun con => negb (existsb (fun r => Nat.eqb (cr_id r) (pc_id con)) (oc_groups "generic"))
         || negb (String.eqb (pc_type con) "=")) (p_cons q) | Err _ => negb true end = true) by (vm_compute; reflexivity).
      apply (with_problem _ p (fun q => forallb _ (p_cons q)) true A) in H. rewrite forallb_forall in H. specialize (H con Hcon).
      rewrite Ty, orb_false_r, negb_true_iff in H. enough (existsb (fun r => Nat.eqb (cr_id r) (pc_id con)) (oc_groups "generic") = true) by congruence.
      apply existsb_exists. exists r. split; [unfold oc_groups; now rewrite G|]. now apply Nat.eqb_eq.
    - assert (H : match assemble oc_market with Ok q => forallb (fun con => negb (existsb (fun r => Nat.eqb (cr_id r) (pc_id con)) (oc_groups "fcas"))
         || negb (String.eqb (pc_type con) "=")) (p_cons q) | Err _ => negb true end = true) by (vm_compute; reflexivity).
      apply (with_problem _ p (fun q => forallb _ (p_cons q)) true A) in H. rewrite forallb_forall in H. specialize (H con Hcon).
      rewrite Ty, orb_false_r, negb_true_iff in H. enough (existsb (fun r => Nat.eqb (cr_id r) (pc_id con)) (oc_groups "fcas") = true) by congruence.
      apply existsb_exists. exists r. split; [unfold oc_groups; now rewrite G|]. now apply Nat.eqb_eq. }
  split; [apply oc_relaxed; auto|]. split; [apply oc_relaxed; auto|].
  assert (V1 : violation_vars oc_market "generic" = [4; 5; 6]%nat \/ violation_vars oc_market "generic" = [5; 4; 6]%nat) by (vm_compute; auto).
  assert (V2 : violation_vars oc_market "fcas" = [3]%nat) by (vm_compute; reflexivity).
  split.
  - intros k i [[-> | ->] _] Hi; [destruct V1 as [V1|V1]|]; rewrite ?V1, ?V2 in Hi; cbn in Hi; intuition subst; reflexivity.
  - intros i N. pose proof (N "fcas" (oc_relaxed _ (or_intror eq_refl))) as N2. pose proof (N "generic" (oc_relaxed _ (or_introl eq_refl))) as N1.
    rewrite V2 in N2. assert (N1' : i <> 4%nat /\ i <> 5%nat /\ i <> 6%nat) by (destruct V1 as [V1|V1]; rewrite V1 in N1; clear -N1; cbn in N1; intuition congruence).
    clear -N2 N1'. cbn in N2. destruct i as [|[|[|[|[|[|[|j]]]]]]]; try (exfalso; intuition congruence); vm_compute; reflexivity.
Qed.

(** A violated equality constraint is moved 0.01 too far. *)
Definition eq_ops : list op :=
  [OpVolumeBids oc_volumes; OpDemand [Demand "NSW" 50] None;
   OpGeneric [Generic "G1" "=" 40] (Some (VNum 500)); OpLinkUnits [GUnit "G1" "A" "energy" 1]].
Definition eq_market : market := final oc_config eq_ops.
(** A energy, A reserve, B energy; violations of G1 downwards and upwards. *)
Definition eq_x : assignment := values [25; 0; 25; 0; 15].
Definition eq_y : assignment := values [25; 0; 25; 0; 0].

Theorem C30_equality_refuted :
  exists c a b f prices m x y p p1, reached c m /\ assemble m = Ok p
    /\ feasible (pricing_problem by_distance m x p) x
    /\ (forall k, relaxed m x k -> exists g, all_elastic c k m g)
    /\ rerun_problem a b f prices m x (pricing_problem by_distance m x p) = Some p1
    /\ without m x y /\ ~ feasible p1 y.
Proof.
  exists oc_config, 15000, (-(1000)), 15000, (fun _ => 15000), eq_market, eq_x, eq_y.
  assert (So : solution eq_market eq_x) by solves. destruct So as [p [A F]].
  exists p, (relax (adjusters eq_market eq_x) (pricing_problem by_distance eq_market eq_x p)).
  assert (V1 : violation_vars eq_market "generic" = [3; 4]%nat) by (vm_compute; reflexivity).
  assert (V2 : violation_vars eq_market "fcas" = []) by (vm_compute; reflexivity).
  split; [is_reached|]. split; [exact A|]. split; [now apply linear_feasible|].
  split. { intros k [[-> | ->] [i [Hi _]]]; [|rewrite V2 in Hi; destruct Hi].
    exists [CRow 1 "=" 40 (KSet "G1")], (VNum 500). split.
    { exists (OpGeneric [Generic "G1" "=" 40] (Some (VNum 500))), (final oc_config (firstn 2 eq_ops)).
      split; [in_force_met 2%nat|]. split; [now left|]. split; [reflexivity|]. discriminate. }
    split; [exact I|]. split; [vm_compute; reflexivity|]. split; [discriminate|]. intros r _. eexists. reflexivity. }
  split; [vm_compute; reflexivity|]. split.
  - split.
    + intros k i [[-> | ->] _] Hi; rewrite ?V1, ?V2 in Hi; clear -Hi; cbn in Hi; intuition subst; reflexivity.
    + intros i N. assert (Rl : relaxed eq_market eq_x "generic").
      { split; [auto|]. exists 4%nat. rewrite V1. split; [cbn; auto|reflexivity]. }
      pose proof (N _ Rl) as N1. rewrite V1 in N1. clear -N1. cbn in N1.
      destruct i as [|[|[|[|[|j]]]]]; try (exfalso; intuition congruence); vm_compute; reflexivity.
  - apply infeasible.
    apply (with_problem eq_market p (fun p => linearb (relax (adjusters eq_market eq_x) (pricing_problem by_distance eq_market eq_x p)) eq_y) false A).
    vm_compute. reflexivity.
Qed.
Print Assumptions C30_equality_refuted.

(** In a group without a violation above 0.0001 nothing is relaxed, so that the
    original dispatch without violations does not meet its constraints. *)
Definition sm_ops : list op :=
  [OpVolumeBids oc_volumes; OpDemand [Demand "NSW" 50] None;
   OpFcasReq [FcasReq "R6" "NSW" "raise_6s" 10 ">="] (Some (VNum 1000));
   OpGeneric [Generic "G1" ">=" (500001#20000)] (Some (VNum 500)); OpLinkUnits [GUnit "G1" "A" "energy" 1]].
Definition sm_market : market := final oc_config sm_ops.
Definition sm_x : assignment := values [25; 5; 25; 5; 1#20000].
Definition sm_y : assignment := values [25; 5; 25; 0; 0].

Theorem C30_small_violations_refuted :
  exists c a b f prices m x y p p1, reached c m /\ assemble m = Ok p
    /\ feasible (pricing_problem by_distance m x p) x
    /\ (forall k, k = "generic" \/ k = "fcas" -> exists g, all_elastic c k m g)
    /\ rerun_problem a b f prices m x (pricing_problem by_distance m x p) = Some p1
    /\ (forall i, In i (violation_vars m "generic") \/ In i (violation_vars m "fcas") -> y i == 0)
    /\ (forall i, ~ In i (violation_vars m "generic") -> ~ In i (violation_vars m "fcas") -> y i == x i)
    /\ ~ feasible p1 y.
Proof.
  exists oc_config, 15000, (-(1000)), 15000, oc_prices, sm_market, sm_x, sm_y.
  assert (So : solution sm_market sm_x) by solves. destruct So as [p [A F]].
  exists p, (relax (adjusters sm_market sm_x) (pricing_problem by_distance sm_market sm_x p)).
  assert (V1 : violation_vars sm_market "generic" = [4]%nat) by (vm_compute; reflexivity).
  assert (V2 : violation_vars sm_market "fcas" = [3]%nat) by (vm_compute; reflexivity).
  split; [is_reached|]. split; [exact A|]. split; [now apply linear_feasible|].
  split. { intros k [-> | ->].
    - exists [CRow 2 ">=" (500001#20000) (KSet "G1")], (VNum 500). split.
      { exists (OpGeneric [Generic "G1" ">=" (500001#20000)] (Some (VNum 500))), (final oc_config (firstn 3 sm_ops)).
        split; [in_force_met 3%nat|]. split; [now left|]. split; [reflexivity|]. discriminate. }
      split; [exact I|]. split; [vm_compute; reflexivity|]. split; [discriminate|]. intros r _. eexists. reflexivity.
    - exists [CRow 1 ">=" 10 (KSet "R6")], (VNum 1000). split.
      { exists (OpFcasReq [FcasReq "R6" "NSW" "raise_6s" 10 ">="] (Some (VNum 1000))), (final oc_config (firstn 2 sm_ops)).
        split; [in_force_met 2%nat|]. split; [now left|]. split; [reflexivity|]. discriminate. }
      split; [exact I|]. split; [vm_compute; reflexivity|]. split; [discriminate|]. intros r _. eexists. reflexivity. }
  split; [vm_compute; reflexivity|]. rewrite V1, V2. split; [|split].
  - clear. intros i [[<-|[]]|[<-|[]]]; vm_compute; reflexivity.
  - clear. intros i N1 N2. cbn in N1, N2. destruct i as [|[|[|[|[|j]]]]]; try (exfalso; intuition congruence); vm_compute; reflexivity.
  - apply infeasible.
    apply (with_problem sm_market p (fun p => linearb (relax (adjusters sm_market sm_x) (pricing_problem by_distance sm_market sm_x p)) sm_y) false A).
    vm_compute. reflexivity.
Qed.
Print Assumptions C30_small_violations_refuted.
