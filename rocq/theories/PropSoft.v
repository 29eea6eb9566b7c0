(** C84: with violation costs dispatch weighs the bids against what the rules are missed by. *)

From Coq Require Import QArith Qminmax Qabs String List Bool Lqa Arith.
Import ListNotations.
From Verif Require Import PandasModel TablesModel MarketModel SolverModel SpecLp SpecHistory SpecElastic SpecSoft
  Fixtures SolverFacts CheckFacts SoftFacts PropElastic.
Open Scope string_scope.
Open Scope list_scope.

(** Any dispatch that keeps the other rules can be completed with violations, at the
    cost of the plain variables plus violation cost times shortfall. *)
Theorem C84_hard_rules_suffice :
  forall c m p ss x, all_softened c m ss -> assemble m = Ok p -> hard_feasible p m ss x ->
    exists y, same_plain m ss x y /\ feasible p y /\ objective p y == weighed p m ss x.
Proof. exact soft_extends. Qed.
Print Assumptions C84_hard_rules_suffice.

(** Nothing that satisfies the problem is cheaper than that. *)
Theorem C84_no_cheaper :
  forall c m p ss x, all_softened c m ss -> assemble m = Ok p -> feasible p x ->
    hard_feasible p m ss x /\ weighed p m ss x <= objective p x.
Proof. exact soft_bound. Qed.
Print Assumptions C84_no_cheaper.

(** An optimum minimises cost plus penalties over everything that keeps the other rules. *)
Theorem C84_optimum_weighs :
  forall c m p ss x, all_softened c m ss -> assemble m = Ok p -> optimal p x ->
    hard_feasible p m ss x /\ objective p x == weighed p m ss x
    /\ forall y, hard_feasible p m ss y -> weighed p m ss x <= weighed p m ss y.
Proof. exact soft_optimum. Qed.
Print Assumptions C84_optimum_weighs.

(** And every such minimum is an optimum. *)
Theorem C84_minimum_is_optimum :
  forall c m p ss x, all_softened c m ss -> assemble m = Ok p -> hard_feasible p m ss x ->
    (forall y, hard_feasible p m ss y -> weighed p m ss x <= weighed p m ss y) ->
    exists y, same_plain m ss x y /\ optimal p y /\ objective p y == weighed p m ss x.
Proof. exact soft_achieved. Qed.
Print Assumptions C84_minimum_is_optimum.

(** Two soft groups, one with one cost and one with a table; the dispatch of all energy
    costs 4100 and misses the demand by 60 and the reserve by 15. *)
Definition so_groups : list soft :=
  [Soft "demand" (VNum 1000) el_demand; Soft "fcas" (VTable [("R6", 700); ("R7", 800)]) el_reserve].
Lemma so_softened : all_softened el_config el_market so_groups.
Proof.
  split; [cbn; repeat constructor; cbn; intuition discriminate|]. intros s [<-|[<-|[]]].
  - split; [exact el_made_demand|]. split; [exact I|]. split; [vm_compute; reflexivity|]. split; [discriminate|].
    intros r _. exists 1000. split; [reflexivity|discriminate].
  - split; [exact el_made_reserve|]. split; [cbn; repeat constructor; cbn; intuition discriminate|].
    split; [vm_compute; reflexivity|]. split; [discriminate|].
    intros r [<-|[]]. exists 700. split; [exists "R6"; split; [reflexivity|now left]|discriminate].
Qed.
Definition so_other : assignment := values [80; 5; 20].
Example C84_case :
  all_softened el_config el_market so_groups /\ assemble el_market = Ok el_problem /\ optimal el_problem el_x
  /\ weighed el_problem el_market so_groups el_x == 4100 + 1000 * 60 + 700 * 15
  /\ hard_feasible el_problem el_market so_groups so_other /\ ~ feasible el_problem so_other
  /\ weighed el_problem el_market so_groups so_other == 3200 + 150 + 100 + 1000 * 85 + 700 * 15.
Proof.
  split; [exact so_softened|]. split; [exact el_assemble|]. split; [exact el_optimal|]. split; [vm_compute; reflexivity|].
  split.
  { split; [|split; [|split]].
    - refine (proj1 (Forall_forall (fun v => is_slack el_market so_groups (pv_id v) = false -> in_bounds so_other v) _) _).
      unfold el_problem. cbn [p_vars]. repeat (apply Forall_cons; [intros S; try (vm_compute in S; discriminate S);
        vm_compute; split; try exact I; discriminate|]). apply Forall_nil.
    - intros c Hc N. exfalso. unfold el_problem in Hc. cbn [p_cons In] in Hc. destruct Hc as [<-|[<-|[<-|[]]]].
      + apply (N (Soft "demand" (VNum 1000) el_demand)); [now left|]. eexists. split; [now left|reflexivity].
      + apply (N (Soft "demand" (VNum 1000) el_demand)); [now left|]. eexists. split; [right; now left|reflexivity].
      + apply (N (Soft "fcas" (VTable [("R6", 700); ("R7", 800)]) el_reserve)); [right; now left|]. eexists. split; [now left|reflexivity].
    - intros s [].
    - intros s []. }
  split; [|vm_compute; reflexivity].
  intros [_ [F _]]. pose proof (F _ (or_introl eq_refl)) as C. vm_compute in C. destruct C as [[E _]|[[E _]|[_ C]]]; discriminate.
Qed.

(** With a negative violation cost, which is accepted, there is nothing to weigh: an
    equality is missed in both directions at once and the cost has no lower bound. *)
Definition so_negative : list op :=
  [OpVolumeBids el_volumes; OpPriceBids el_prices; OpDemand [Demand "NSW" 100] (Some (VNum (-(1))))].
Definition so_negative_problem : problem :=
  Eval vm_compute in match assemble (final el_config so_negative) with Ok p => p | Err _ => Problem [] [] [] [] [] end.
Theorem C84_negative_cost_unbounded :
  exists c ops m0, new_market c = Ok m0 /\ sane ops m0 /\ snd (step (last ops OpRemoveFastStart) (run (removelast ops) m0)) = None
    /\ exists p, assemble (run ops m0) = Ok p /\ forall b, exists x, feasible p x /\ objective p x < b.
Proof.
  exists el_config, so_negative, (final el_config []). split; [vm_compute; reflexivity|].
  split; [apply saneb_ok; vm_compute; reflexivity|]. split; [vm_compute; reflexivity|].
  exists so_negative_problem. split; [vm_compute; reflexivity|]. intros b.
  exists (values [100; 0; 0; Qabs b + 4001; Qabs b + 4001]). pose proof (Qabs_nonneg b) as N. pose proof (Qle_Qabs (-b)) as B.
  rewrite Qabs_opp in B. split.
  - split; [|split; [|split]]; [| |intros s []|intros s []].
    + apply Forall_forall. unfold so_negative_problem. cbn [p_vars]. unfold values.
      repeat (apply Forall_cons; [split; cbn; try exact I; try discriminate; lra|]). apply Forall_nil.
    + intros c [<-|[]]. right. right. split; [reflexivity|]. unfold values. cbn -[Qabs Qplus Qmult]. ring.
  - unfold objective, so_negative_problem, values. cbn -[Qabs Qplus Qmult]. lra.
Qed.
Print Assumptions C84_negative_cost_unbounded.
