(** What it means to solve the problem given to the solver.  Independent of how
    the problem is built. *)

From Coq Require Import QArith String List Bool.
Import ListNotations.
From Verif Require Import PandasModel TablesModel MarketModel SolverModel.
Open Scope string_scope.
Open Scope list_scope.

(** An assignment of values to variable ids. *)
Definition assignment := nat -> Q.

(** Value of a linear form. *)
Fixpoint linear (ts : list (nat * Q)) (x : assignment) : Q :=
  match ts with
  | [] => 0
  | (v, c) :: t => c * x v + linear t x
  end.

(** The relation named by a constraint type. *)
Definition relation (ty : string) (a b : Q) : Prop :=
  (ty = "<=" /\ a <= b) \/ (ty = ">=" /\ b <= a) \/ (ty = "=" /\ a == b).

Definition rhs_value (r : prhs) (x : assignment) : Q :=
  match r with RNum q => q | RVar v => x v end.

Definition con_holds (x : assignment) (c : pcon) : Prop :=
  relation (pc_type c) (linear (pc_terms c) x) (rhs_value (pc_rhs c) x).

Definition in_bounds (x : assignment) (v : pvar) : Prop :=
  pv_lb v <= x (pv_id v) /\ match pv_ub v with Some u => x (pv_id v) <= u | None => True end.

(** Special ordered set of type 2: at most two entries differ from zero and these
    are neighbours.  Positions count from zero. *)
Definition sos2_ok (x : assignment) (ids : list nat) : Prop :=
  forall i j a b, (i < j)%nat -> nth_error ids i = Some a -> nth_error ids j = Some b ->
    ~ x a == 0 -> ~ x b == 0 -> j = S i.

(** Special ordered set of type 1: at most one entry differs from zero. *)
Definition sos1_ok (x : assignment) (ids : list nat) : Prop :=
  forall i j a b, (i < j)%nat -> nth_error ids i = Some a -> nth_error ids j = Some b ->
    ~ x a == 0 -> ~ x b == 0 -> False.

Definition feasible (p : problem) (x : assignment) : Prop :=
  (forall v, In v (p_vars p) -> in_bounds x v)
  /\ (forall c, In c (p_cons p) -> con_holds x c)
  /\ (forall s, In s (p_sos2 p) -> sos2_ok x s)
  /\ (forall s, In s (p_sos1 p) -> sos1_ok x s).

Definition objective (p : problem) (x : assignment) : Q := linear (p_obj p) x.

Definition optimal (p : problem) (x : assignment) : Prop :=
  feasible p x /\ forall y, feasible p y -> objective p x <= objective p y.

(** [x] is a feasible point of the problem that dispatch builds for the market. *)
Definition solution (m : market) (x : assignment) : Prop :=
  exists p, assemble m = Ok p /\ feasible p x.

(** [x] is an optimal point of it. *)
Definition best (m : market) (x : assignment) : Prop :=
  exists p, assemble m = Ok p /\ optimal p x.

(** Every constraint of the group [k] that reaches the solver holds at [x]. *)
Definition meets (m : market) (x : assignment) (k : string) : Prop :=
  forall p rows r c, assemble m = Ok p -> dget k (m_rhs m) = Some rows -> In r rows ->
    In c (p_cons p) -> pc_id c = cr_id r -> con_holds x c.
