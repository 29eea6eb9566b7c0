(** Constraints with violation costs as a trade-off: what dispatch weighs against the bids. *)

From Coq Require Import QArith String List Bool Arith.
Import ListNotations.
From Verif Require Import PandasModel TablesModel MarketModel SolverModel SpecLp SpecHistory SpecElastic.
Open Scope string_scope.
Open Scope list_scope.

(** A soft group: its name, the argument violation_cost and its constraints. *)
Record soft := Soft { so_key : string; so_cost : vcost; so_rows : list crow }.

(** Every constraint of the group has been given a violation cost that is not negative. *)
Definition softened (c : config) (m : market) (s : soft) : Prop :=
  made_elastic c (so_key s) (so_cost s) m /\ once (so_cost s) /\ group m (so_key s) = Some (so_rows s) /\ so_rows s <> []
  /\ forall r, In r (so_rows s) -> exists q, cost_of (so_cost s) r q /\ 0 <= q.
Definition all_softened (c : config) (m : market) (ss : list soft) : Prop :=
  NoDup (map so_key ss) /\ forall s, In s ss -> softened c m s.

(** The violation cost of a constraint, per unit. *)
Definition price (v : vcost) (r : crow) : Q :=
  match v, cr_key r with
  | VNum c, _ => c
  | VTable t, KSet s => match find (fun e => String.eqb (fst e) s) t with Some e => snd e | None => 0 end
  | _, _ => 0
  end.

(** By how much dispatch misses a constraint; a constraint that is not part of the
    problem is not missed. *)
Definition shortfall (p : problem) (m : market) (k : string) (r : crow) (x : assignment) : Q :=
  match find (fun c => Nat.eqb (pc_id c) (cr_id r)) (p_cons p) with
  | Some c => missed (cr_type r) (own_value m k c x) (cr_rhs r)
  | None => 0
  end.
Definition penalty (p : problem) (m : market) (x : assignment) (s : soft) : Q :=
  qsum (map (fun r => price (so_cost s) r * shortfall p m (so_key s) r x) (so_rows s)).

(** The variables that are not violations of the soft groups, and their cost. *)
Definition is_slack (m : market) (ss : list soft) (i : nat) : bool := existsb (fun s => is_violation m (so_key s) i) ss.
Definition plain_cost (p : problem) (m : market) (ss : list soft) (x : assignment) : Q :=
  linear (filter (fun t => negb (is_slack m ss (fst t))) (p_obj p)) x.

(** What dispatch weighs: the cost of the plain variables plus the penalties. *)
Definition weighed (p : problem) (m : market) (ss : list soft) (x : assignment) : Q :=
  plain_cost p m ss x + qsum (map (penalty p m x) ss).

(** Everything but the soft groups is satisfied. *)
Definition hard_feasible (p : problem) (m : market) (ss : list soft) (x : assignment) : Prop :=
  (forall v, In v (p_vars p) -> is_slack m ss (pv_id v) = false -> in_bounds x v)
  /\ (forall c, In c (p_cons p) -> (forall s, In s ss -> ~ of_group (so_rows s) c) -> con_holds x c)
  /\ (forall s, In s (p_sos2 p) -> sos2_ok x s)
  /\ (forall s, In s (p_sos1 p) -> sos1_ok x s).

(** The same dispatch, apart from the violations. *)
Definition same_plain (m : market) (ss : list soft) (x y : assignment) : Prop :=
  forall i, is_slack m ss i = false -> y i == x i.
