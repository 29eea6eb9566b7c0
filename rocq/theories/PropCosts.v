(** C89: which violation costs [make_constraints_elastic] accepts, and what it answers
    to the others. *)

From Coq Require Import QArith String List Bool Arith Lqa.
Import ListNotations.
From Verif Require Import PandasModel TablesModel MarketModel SolverModel SpecLp SpecHistory SpecElastic SpecCosts
  Fixtures CheckFacts CheckLpFacts CostFacts PropElastic.
Open Scope string_scope.
Open Scope list_scope.

(** A violation cost is accepted if and only if it is a number, or a table without
    repeated rows for constraints that belong to sets. *)
Theorem C89_accepted_exactly :
  forall m k v g, group m k = Some g -> g <> [] -> (forall r, In r g -> known_type (cr_type r)) ->
    (snd (step (OpElastic k v) m) = None <-> usable k v).
Proof. exact accepted_exactly. Qed.
Print Assumptions C89_accepted_exactly.

(** A refused cost leaves the market as it was.  The answer is RepeatedRowError for a
    repeated row and else KeyError. *)
Theorem C89_refused_changes_nothing :
  forall m k v g, group m k = Some g -> g <> [] -> (forall r, In r g -> known_type (cr_type r)) -> ~ usable k v ->
  exists e, step (OpElastic k v) m = (m, Some e)
    /\ (e = ERepeatedRow <-> exists t, v = VTable t /\ ~ rows_differ t) /\ (e = EKey \/ e = ERepeatedRow).
Proof. exact refused_alone. Qed.
Print Assumptions C89_refused_changes_nothing.

(** Without constraints of that name the answer is ModelBuildError. *)
Theorem C89_unknown_constraints :
  forall m k v, group m k = None -> step (OpElastic k v) m = (m, Some EModelBuild).
Proof. exact unknown_group. Qed.
Print Assumptions C89_unknown_constraints.

Definition co_market : market := final el_config (firstn 4 el_ops).
Example C89_case :
  group co_market "fcas" = Some el_reserve /\ el_reserve <> [] /\ (forall r, In r el_reserve -> known_type (cr_type r))
  /\ group co_market "demand" = Some el_demand /\ el_demand <> [] /\ (forall r, In r el_demand -> known_type (cr_type r))
  /\ usable "fcas" (VTable [("R6", 700); ("R7", 800)]) /\ ~ usable "demand" (VTable [("R6", 700)])
  /\ ~ usable "fcas" (VTable [("R6", 700); ("R7", 800); ("R6", 1400#2)]) /\ group co_market "uigf_capacity" = None.
Proof.
  split; [vm_compute; reflexivity|]. split; [discriminate|]. split; [intros r [<-|[]]; right; now left|].
  split; [vm_compute; reflexivity|]. split; [discriminate|]. split; [intros r [<-|[<-|[]]]; right; now right|].
  split. { split; [|now left]. cbn. split; [|split; [|exact I]]; [intros e [<-|[]] [E _]; discriminate E|intros e []]. }
  split. { intros [_ [E|E]]; discriminate E. }
  split; [|vm_compute; reflexivity]. intros [[H _] _]. apply (H ("R6", 1400#2)); [right; now left|]. split; reflexivity.
Qed.

(** The documentation promises RepeatedRowError if a set has more than one row.  With
    two different costs the table is accepted, the requirement gets a violation
    variable for each, and missing it by 15 MW costs 15 * 5 instead of 15 * 700. *)
Definition co_twice : vcost := VTable [("R6", 700); ("R6", 5)].
Definition co_soft : market := fst (step (OpElastic "fcas" co_twice) co_market).
Definition co_problem : problem :=
  Eval vm_compute in match assemble co_soft with Ok p => p | Err _ => Problem [] [] [] [] [] end.
(** A, B energy, B reserve; NSW up, VIC up, NSW down, VIC down; reserve at 700, at 5 *)
Definition co_x (dear cheap : Q) : nat -> Q := values [100; 0; 20; 0; 10; 50; 0; dear; cheap].
Theorem C89_two_costs_refuted :
  exists m t, ~ NoDup (map fst t) /\ snd (step (OpElastic "fcas" (VTable t)) m) = None
    /\ exists p, assemble (fst (step (OpElastic "fcas" (VTable t)) m)) = Ok p
    /\ exists x y, feasible p x /\ feasible p y /\ (forall i, (i < 7)%nat -> x i = y i)
         /\ objective p x - objective p y == 15 * (700 - 5).
Proof.
  exists co_market, [("R6", 700); ("R6", 5)]. split; [intros H; inversion H as [|? ? H1 _]; apply H1; now left|].
  split; [vm_compute; reflexivity|]. exists co_problem. split; [vm_compute; reflexivity|].
  exists (co_x 15 0), (co_x 0 15). split; [apply feasibleb_ok; vm_compute; reflexivity|].
  split; [apply feasibleb_ok; vm_compute; reflexivity|]. split; [|vm_compute; reflexivity].
  intros i Hi. do 7 (destruct i as [|i]; [reflexivity|]). do 7 apply Nat.succ_lt_mono in Hi. now apply Nat.nlt_0_r in Hi.
Qed.
Print Assumptions C89_two_costs_refuted.

(** It promises MissingColumnError for constraints without a set and ValueError for an
    argument that is neither a number nor a table.  Both times a KeyError is raised. *)
Theorem C89_answers_refuted :
  exists m k t, group m k <> None /\ ~ has_sets k
    /\ snd (step (OpElastic k (VTable t)) m) = Some EKey /\ snd (step (OpElastic k VOther) m) = Some EKey.
Proof.
  exists co_market, "demand", [("R6", 700)]. split; [vm_compute; discriminate|]. split; [intros [E|E]; discriminate E|].
  split; vm_compute; reflexivity.
Qed.
Print Assumptions C89_answers_refuted.
