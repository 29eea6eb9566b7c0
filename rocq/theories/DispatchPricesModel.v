(** Prices of the market constraints after the solve.  Definitions only. *)

From Coq Require Import QArith String List Bool Arith.
Import ListNotations.
From Verif Require Import PandasModel TablesModel MarketModel SolverModel ReportsModel.
Open Scope string_scope.
Open Scope list_scope.

(** One entry of [costs] in [price_constraints]: [constr_by_name] finds nothing for a
    constraint that was never added, and [None] has no attribute [pi].  [pi] are the
    shadow prices that the solver returns.
    /repo/src/nempy/spot_market_backend/solver_interface.py:451-454. *)
Definition price_constraint (q : problem) (pi : nat -> Q) (i : nat) : result (nat * Q) :=
  if existsb (fun c => Nat.eqb (pc_id c) i) (p_cons q) then Ok (i, pi i) else Err EAttribute.

(** [price_constraints].  /repo/src/nempy/spot_market_backend/solver_interface.py:391-454. *)
Fixpoint price_constraints (q : problem) (pi : nat -> Q) (ids : list nat) : result (list (nat * Q)) :=
  match ids with
  | [] => Ok []
  | i :: t => bind (price_constraint q pi i) (fun a => bind (price_constraints q pi t) (fun b => Ok (a :: b)))
  end.

(** The loop over the groups of market constraints.  [Series.map] looks every id up in
    the dictionary just made, so the column holds the prices in the order of the rows.
    /repo/src/nempy/markets.py:3082-3088, 3136-3143. *)
Fixpoint price_groups (q : problem) (pi : nat -> Q) (d : dict (list crow)) : result (dict (list (nat * Q))) :=
  match d with
  | [] => Ok []
  | (k, rows) :: t => bind (price_constraints q pi (map cr_id rows)) (fun a =>
      bind (price_groups q pi t) (fun b => Ok ((k, a) :: b)))
  end.
(** As above.  /repo/src/nempy/markets.py:3082-3088, 3136-3143. *)
Definition price_market (m : market) (q : problem) (pi : nat -> Q) : result (dict (list (nat * Q))) := price_groups q pi (m_mrhs m).
