(** Model of spot_market_backend/elastic_constraints.py.  Definitions only. *)

From Coq Require Import QArith String List Bool.
Import ListNotations.
From Verif Require Import PandasModel TablesModel.
Open Scope string_scope.
Open Scope list_scope.

(** Constraint rows with a violation cost.  Inequalities and equalities.
    /repo/src/nempy/spot_market_backend/elastic_constraints.py:66-67. *)
Definition inequalities (l : list (crow * Q)) : list (crow * Q) :=
  filter (fun p => String.eqb (cr_type (fst p)) ">=" || String.eqb (cr_type (fst p)) "<=") l.
(** As above.  /repo/src/nempy/spot_market_backend/elastic_constraints.py:66-67. *)
Definition equalities (l : list (crow * Q)) : list (crow * Q) :=
  filter (fun p => String.eqb (cr_type (fst p)) "=") l.

(** The rows with the id of their deficit variable and its coefficient: one for
    each inequality (+1 for ">=", -1 for "<="), an upward one (-1) and a downward
    one (+1) for each equality.
    /repo/src/nempy/spot_market_backend/elastic_constraints.py:69-114. *)
Definition deficit_rows (l : list (crow * Q)) (next : nat) : list (nat * (crow * Q) * Q) :=
  let ineq := inequalities l in
  let eq := equalities l in
  map (fun p => (p, if String.eqb (cr_type (fst (snd p))) ">=" then 1 else -(1)))
      (save_index next ineq)
  ++ map (fun p => (p, -(1))) (save_index (next + length ineq) eq)
  ++ map (fun p => (p, 1)) (save_index (next + length ineq + length eq) eq).

(** /repo/src/nempy/spot_market_backend/elastic_constraints.py:71-74, 87-95. *)
Definition deficit_variables (l : list (crow * Q)) (next : nat) : list defvar :=
  map (fun p => let '((i, _), _) := p in Def i 0 None) (deficit_rows l next).
(** As above.  /repo/src/nempy/spot_market_backend/elastic_constraints.py:71-74, 87-95. *)
Definition deficit_costs (l : list (crow * Q)) (next : nat) : list costrow :=
  map (fun p => let '((i, (_, c)), _) := p in Cost i c) (deficit_rows l next).

(** /repo/src/nempy/spot_market_backend/elastic_constraints.py:76-78, 97-103. *)
Definition deficit_lhs (l : list (crow * Q)) (next : nat) : list lrow :=
  map (fun p => let '((i, (r, _)), k) := p in LRow (cr_id r) i k) (deficit_rows l next).
