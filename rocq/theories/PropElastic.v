(** C19, C20: elastic constraints. *)

From Coq Require Import QArith Qminmax Qabs String List Bool Lqa Arith.
Import ListNotations.
From Verif Require Import PandasModel TablesModel MarketModel SolverModel ReportsModel SpecLp SpecHistory SpecElastic
  Fixtures CheckFacts ElasticTheoremFacts ElasticStepFacts.
Open Scope string_scope.
Open Scope list_scope.

(** Two regions, one of them short of supply, the other one oversupplied, and a
    reserve requirement nobody can meet in full. *)
Definition el_config : config :=
  Config ["NSW"; "VIC"] [UnitInfo "A" "NSW" "generator" 1; UnitInfo "B" "VIC" "generator" 1] 5.
Definition el_volumes : bid_table := BidTable ["1"]
  [BidRow "A" "energy" "generator" (fun _ => 100); BidRow "B" "energy" "generator" (fun _ => 50);
   BidRow "B" "raise_6s" "generator" (fun _ => 20)].
Definition el_prices : bid_table := BidTable ["1"]
  [BidRow "A" "energy" "generator" (fun _ => 40); BidRow "B" "energy" "generator" (fun _ => 30);
   BidRow "B" "raise_6s" "generator" (fun _ => 5)].
Definition el_ops : list op :=
  [OpVolumeBids el_volumes; OpPriceBids el_prices;
   OpDemand [Demand "NSW" 150; Demand "VIC" (-(10))] (Some (VNum 1000));
   OpFcasReq [FcasReq "R6" "VIC" "raise_6s" 35 ">="] None;
   OpElastic "fcas" (VTable [("R6", 700); ("R7", 800)])].
Definition el_market : market := final el_config el_ops.
Definition el_demand : list crow := [CRow 0 "=" 150 (KRegion "NSW"); CRow 1 "=" (-(10)) (KRegion "VIC")].
Definition el_reserve : list crow := [CRow 2 ">=" 35 (KSet "R6")].
(** A, B energy, B reserve; NSW up, VIC up, NSW down, VIC down; reserve. *)
Definition el_x : nat -> Q := values [100; 0; 20; 0; 10; 50; 0; 15].

Theorem C19_always_satisfiable :
  forall c k v m g x, made_elastic c k v m -> once v -> group m k = Some g -> g <> [] ->
    (forall r, In r g -> exists q, cost_of v r q) ->
    exists y, same_but m k x y /\ forall p, assemble m = Ok p ->
      (forall con, In con (p_cons p) -> of_group g con -> con_holds y con)
      /\ (forall w, In w (p_vars p) -> In (pv_id w) (violation_vars m k) -> in_bounds y w)
      /\ (feasible_but p m k g x -> feasible p y).
Proof. exact elastic_extends. Qed.
Print Assumptions C19_always_satisfiable.

Lemma el_made_demand : made_elastic el_config "demand" (VNum 1000) el_market.
Proof.
  exists (OpDemand [Demand "NSW" 150; Demand "VIC" (-(10))] (Some (VNum 1000))), (final el_config (firstn 2 el_ops)).
  split; [in_force_met 2%nat|]. split; [now left|]. split; [reflexivity|]. discriminate.
Qed.
Lemma el_made_reserve : made_elastic el_config "fcas" (VTable [("R6", 700); ("R7", 800)]) el_market.
Proof.
  exists (OpElastic "fcas" (VTable [("R6", 700); ("R7", 800)])), (final el_config (firstn 4 el_ops)).
  split; [in_force_met 4%nat|]. split; [now left|]. split; [reflexivity|]. discriminate.
Qed.

Definition el_bad : nat -> Q := values [60; 50; 3].
Example C19_case :
  made_elastic el_config "demand" (VNum 1000) el_market /\ once (VNum 1000)
  /\ group el_market "demand" = Some el_demand
  /\ (forall r, In r el_demand -> exists q, cost_of (VNum 1000) r q)
  /\ (exists p con, assemble el_market = Ok p /\ In con (p_cons p) /\ of_group el_demand con /\ ~ con_holds el_bad con).
Proof.
  split; [exact el_made_demand|]. split; [exact I|]. split; [vm_compute; reflexivity|].
  split; [intros r _; eexists; reflexivity|].
  eexists. exists (PCon 0 "=" [(3%nat, -(1)); (5%nat, 1); (0%nat, 1)] (RNum 150)).
  split; [vm_compute; reflexivity|]. split; [vm_compute; left; reflexivity|].
  split; [exists (CRow 0 "=" 150 (KRegion "NSW")); split; [now left|reflexivity]|].
  vm_compute. intuition discriminate.
Qed.
Example C19_table_case :
  made_elastic el_config "fcas" (VTable [("R6", 700); ("R7", 800)]) el_market /\ once (VTable [("R6", 700); ("R7", 800)])
  /\ group el_market "fcas" = Some el_reserve
  /\ (forall r, In r el_reserve -> exists q, cost_of (VTable [("R6", 700); ("R7", 800)]) r q).
Proof.
  split; [exact el_made_reserve|]. split.
  { cbn. repeat constructor; cbn; intuition discriminate. }
  split; [vm_compute; reflexivity|]. intros r [<-|[]]. exists 700, "R6". split; [reflexivity|now left].
Qed.

(** [m] is any market reached by calls, [m'] the same market after
    make_constraints_elastic.  [all_present]: a constraint without variables is
    not given to the solver, see below. *)
Theorem C19_zero_violation_is_original :
  forall c k v m m' g p, reached c m -> group m k = Some g -> inelastic m k ->
    make_elastic k v m = (m', None) -> assemble m = Ok p ->
    exists p', assemble m' = Ok p'
      /\ (forall x, feasible p' x -> no_violation m' k x -> feasible p x)
      /\ (forall x, feasible p x -> no_violation m' k x -> all_present p g -> feasible p' x)
      /\ (forall x, no_violation m' k x -> objective p' x == objective p x)
      /\ (forall x, feasible p x -> all_present p g -> exists y, same_but m' k x y /\ no_violation m' k y /\ feasible p' y
            /\ objective p' y == objective p x).
Proof. exact elastic_step. Qed.
Print Assumptions C19_zero_violation_is_original.

Definition el_plain_ops : list op :=
  [OpVolumeBids el_volumes; OpPriceBids el_prices; OpDemand [Demand "NSW" 70; Demand "VIC" 10] None;
   OpFcasReq [FcasReq "R6" "VIC" "raise_6s" 15 ">="] None].
Example C19_zero_case :
  let m := final el_config el_plain_ops in
  reached el_config m
  /\ (exists g, group m "demand" = Some g /\ inelastic m "demand"
      /\ snd (make_elastic "demand" (VNum 1000) m) = None
      /\ violation_vars (fst (make_elastic "demand" (VNum 1000) m)) "demand" = [3%nat; 4%nat; 5%nat; 6%nat]
      /\ (exists p, assemble m = Ok p /\ all_present p g))
  /\ solution m (values [70; 10; 15]).
Proof.
  cbv zeta. split; [|split].
  - assert (H : in_force el_config (OpFcasReq [FcasReq "R6" "VIC" "raise_6s" 15 ">="] None) (final el_config el_plain_ops))
      by in_force_at 3%nat. now apply LimitFacts.in_force_reached in H.
  - exists [CRow 0 "=" 70 (KRegion "NSW"); CRow 1 "=" 10 (KRegion "VIC")].
    split; [vm_compute; reflexivity|]. split; [vm_compute; auto|]. split; [vm_compute; reflexivity|].
    split; [vm_compute; reflexivity|]. eexists. split; [vm_compute; reflexivity|].
    intros r [<-|[<-|[]]]; 
      first [eexists; split; [left; reflexivity|reflexivity]|eexists; split; [right; left; reflexivity|reflexivity]].
  - solves.
Qed.

(** A constraint that was dropped because none of its variables exist comes to
    life when it is made elastic, and then has to be violated. *)
Definition rv_ops : list op :=
  [OpVolumeBids (BidTable ["1"] [BidRow "A" "energy" "generator" (fun _ => 100)]);
   OpDemand [Demand "NSW" 100] None; OpFcasReq [FcasReq "R" "NSW" "raise_reg" 50 ">="] None].
Theorem C19_dropped_constraint_revived :
  exists c k v m m' g p p' x, reached c m /\ group m k = Some g /\ inelastic m k
    /\ make_elastic k v m = (m', None) /\ assemble m = Ok p /\ assemble m' = Ok p'
    /\ feasible p x /\ (forall y, no_violation m' k y -> ~ feasible p' y).
Proof.
  exists el_config, "fcas", (VNum 1000), (final el_config rv_ops).
  exists (fst (make_elastic "fcas" (VNum 1000) (final el_config rv_ops))), [CRow 1 ">=" 50 (KSet "R")].
  assert (H : in_force el_config (OpDemand [Demand "NSW" 100] None) (final el_config rv_ops)) by in_force_at 1%nat.
  assert (S : solution (final el_config rv_ops) (values [100])) by solves. destruct S as [p [A F]].
  assert (V : violation_vars (fst (make_elastic "fcas" (VNum 1000) (final el_config rv_ops))) "fcas" = [1%nat]) by (vm_compute; reflexivity).
  assert (X : exists p', assemble (fst (make_elastic "fcas" (VNum 1000) (final el_config rv_ops))) = Ok p'
     /\ In (PCon 1 ">=" [(1%nat, 1)] (RNum 50)) (p_cons p')).
  { eexists. split; [vm_compute; reflexivity|]. cbn. auto. }
  destruct X as [p' [A' C']]. exists p, p', (values [100]).
  split; [now apply LimitFacts.in_force_reached in H|]. split; [vm_compute; reflexivity|]. split; [vm_compute; auto|].
  split; [vm_compute; reflexivity|]. split; [exact A|]. split; [exact A'|]. split; [exact F|].
  intros y Z [_ [Fc _]]. specialize (Fc _ C'). specialize (Z 1%nat). rewrite V in Z. specialize (Z (or_introl eq_refl)).
  unfold con_holds, relation in Fc. cbn [pc_type pc_terms pc_rhs linear rhs_value] in Fc. destruct Fc as [[E _]|[[_ E]|[E _]]]; try discriminate.
  lra.
Qed.
Print Assumptions C19_dropped_constraint_revived.

Theorem C20_violation_exact :
  forall c k v m g p x con r, made_elastic c k v m -> once v -> group m k = Some g -> g <> [] ->
    (forall r, In r g -> exists q, cost_of v r q) -> (forall r q, In r g -> cost_of v r q -> 0 < q) ->
    assemble m = Ok p -> optimal p x -> In con (p_cons p) -> In r g -> cr_id r = pc_id con ->
    violation m k con x == missed (cr_type r) (own_value m k con x) (cr_rhs r).
Proof. exact elastic_minimal. Qed.
Print Assumptions C20_violation_exact.

Theorem C20_violation_degree :
  forall c k v m g p x, made_elastic c k v m -> once v -> group m k = Some g -> g <> [] ->
    (forall r, In r g -> exists q, cost_of v r q) -> assemble m = Ok p ->
    violation_degree k m x == qsum (map (fun con => violation m k con x) (filter (of_groupb g) (p_cons p))).
Proof. exact elastic_degree. Qed.
Print Assumptions C20_violation_degree.

Definition el_problem : problem :=
  Eval vm_compute in match assemble el_market with Ok p => p | Err _ => Problem [] [] [] [] [] end.
Lemma el_assemble : assemble el_market = Ok el_problem.
Proof. vm_compute. reflexivity. Qed.
Lemma el_optimal : optimal el_problem el_x.
Proof.
  split.
  - assert (S : solution el_market el_x) by solves. destruct S as [p [A F]]. rewrite el_assemble in A. now inversion A; subst.
  - intros y [B [C _]]. unfold el_problem in *. cbn [p_vars p_cons] in B, C.
    unfold objective, linear. cbn [p_obj].
    pose proof (C _ (or_introl eq_refl)) as C0. pose proof (C _ (or_intror (or_introl eq_refl))) as C1.
    pose proof (C _ (or_intror (or_intror (or_introl eq_refl)))) as C2. unfold con_holds, relation in C0, C1, C2.
    cbn [pc_type pc_terms pc_rhs linear rhs_value] in C0, C1, C2.
    destruct C0 as [[E _]|[[E _]|[_ C0]]]; try discriminate. destruct C1 as [[E _]|[[E _]|[_ C1]]]; try discriminate.
    destruct C2 as [[E _]|[[_ C2]|[E _]]]; try discriminate.
    repeat match goal with
    | B : forall v, In v (?a :: ?t) -> _ |- _ =>
      let H := fresh "B" in pose proof (B a (or_introl eq_refl)) as H; unfold in_bounds in H; cbn in H;
      let B' := fresh in assert (B' : forall v, In v t -> in_bounds y v) by (intros v Hv; apply B; now right); clear B
    end.
    unfold el_x, values. cbn -[Qmult Qplus]. lra.
Qed.
Example C20_case :
  made_elastic el_config "demand" (VNum 1000) el_market
  /\ (forall r q, In r el_demand -> cost_of (VNum 1000) r q -> 0 < q)
  /\ assemble el_market = Ok el_problem /\ optimal el_problem el_x
  /\ violation_degree "demand" el_market el_x == 60 /\ violation_degree "fcas" el_market el_x == 15
  /\ (exists con, In con (p_cons el_problem) /\ pc_id con = 1%nat /\ own_value el_market "demand" con el_x == 0
      /\ missed "=" (own_value el_market "demand" con el_x) (-(10)) == 10).
Proof.
  split; [exact el_made_demand|]. split; [intros r q _ ->; reflexivity|]. split; [exact el_assemble|].
  split; [exact el_optimal|]. split; [vm_compute; reflexivity|]. split; [vm_compute; reflexivity|].
  eexists. split; [right; left; reflexivity|]. split; [reflexivity|]. split; vm_compute; reflexivity.
Qed.
