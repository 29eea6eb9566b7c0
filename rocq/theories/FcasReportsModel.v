(** Model of the FCAS price and availability reports of SpotMarket (markets.py).
    Definitions only. *)

From Coq Require Import QArith Qabs String List Bool Arith ZArith.
Import ListNotations.
From Verif Require Import PandasModel TablesModel MarketModel SolverModel ReportsModel.
Open Scope string_scope.
Open Scope list_scope.

(** [get_energy_prices].  The price column holds, for every market constraint, the
    shadow price of the constraint with that id; given here as a function [pi].
    /repo/src/nempy/markets.py:3321-3322. *)
Definition energy_prices (m : market) (pi : nat -> Q) : result (list (string * Q)) :=
  need (dget "demand" (m_mrhs m)) (fun rows =>
  Ok (map (fun r => (match cr_key r with KRegion g => g | _ => "" end, pi (cr_id r))) rows)).

(** [get_fcas_prices].  /repo/src/nempy/markets.py:3331-3335. *)
Definition rs_eqb (a b : string * string) : bool := String.eqb (fst a) (fst b) && String.eqb (snd a) (snd b).
(** As above.  /repo/src/nempy/markets.py:3331-3335. *)
Definition fcas_prices (m : market) (pi : nat -> Q) : result (list ((string * string) * Q)) :=
  need (dget "fcas" (m_c2v_reg m)) (fun cs =>
  need (dget "fcas" (m_mrhs m)) (fun rows =>
  Ok (groupby_sum rs_eqb (fun p => (rc_region (fst p), rc_service (fst p))) (fun p => pi (cr_id (snd p)))
        (merge (fun c r => Nat.eqb (rc_con c) (cr_id r)) cs rows)))).

(** [get_slack_in_constraints]: the slack of a constraint of the problem; zero for
    one that is not in it.  Only its absolute value is used by the report, so the
    sign convention of the solver does not matter.
    /repo/src/nempy/spot_market_backend/solver_interface.py:387-389,
    /repo/src/nempy/markets.py:3053-3057. *)
Definition rhs_number (x : nat -> Q) (r : prhs) : Q := match r with RNum q => q | RVar v => x v end.
(** As above.
    /repo/src/nempy/spot_market_backend/solver_interface.py:387-389,
    /repo/src/nempy/markets.py:3053-3057. *)
Definition slack (p : problem) (x : nat -> Q) (i : nat) : Q :=
  match find (fun c => Nat.eqb (pc_id c) i) (p_cons p) with
  | Some c => rhs_number x (pc_rhs c) - qsum (map (fun t => snd t * x (fst t)) (pc_terms c))
  | None => 0
  end.

(** The constraint groups that [get_fcas_availability] looks at.
    /repo/src/nempy/markets.py:3783-3785. *)
Definition availability_groups : list string :=
  ["fcas_max_availability"; "joint_ramping_raise_reg"; "joint_ramping_lower_reg"; "joint_capacity";
   "energy_and_regulation_capacity"; "bidirectional_ramp_up"; "bidirectional_ramp_down"].

(** How far one row of a constraint lets a unit's service rise; [None] is
    infinity.  /repo/src/nempy/markets.py:3796-3800. *)
Definition service_slack (ty : string) (coef sl : Q) : option Q :=
  if (negb (Qle_bool 0 coef) && String.eqb ty "<=")
     || (negb (Qle_bool coef 0) && String.eqb ty ">=")
     || (negb (Qle_bool (1#100000) coef) && negb (Qle_bool coef (-(1#100000))))
  then None
  else Some (Qabs sl / Qabs coef).

(** Smaller of two numbers that may be infinite; the minimum of a group.
    /repo/src/nempy/markets.py:3801-3802. *)
Definition omin (a b : option Q) : option Q :=
  match a, b with
  | None, _ => b
  | _, None => a
  | Some p, Some q => Some (if Qle_bool p q then p else q)
  end.
(** As above.  /repo/src/nempy/markets.py:3801-3802. *)
Definition group_min {A K : Type} (keq : K -> K -> bool) (key : A -> K) (val : A -> option Q) (l : list A)
  : list (K * option Q) :=
  map (fun k => (k, fold_right (fun a acc => omin (val a) acc) None (filter (fun a => keq (key a) k) l)))
      (keys_of keq (map key l)).

(** [get_fcas_availability].  A group with a right-hand side always has its map.
    No group at all is a ValueError of the concatenation.
    /repo/src/nempy/markets.py:3782-3809. *)
Definition availability_rows (m : market) (p : problem) (x : nat -> Q) : list ((string * string) * option Q) :=
  flat_map (fun k =>
    match dget k (m_rhs m) with
    | None => []
    | Some rows =>
      map (fun q => ((uc_unit (fst q), uc_service (fst q)),
                     service_slack (cr_type (snd q)) (uc_coef (fst q)) (slack p x (cr_id (snd q)))))
          (merge (fun c r => Nat.eqb (uc_con c) (cr_id r)) (rows_or_nil (dget k (m_c2v_unit m))) rows)
    end) availability_groups.
(** As above.  /repo/src/nempy/markets.py:3782-3809. *)
Definition fcas_availability (m : market) (p : problem) (x : nat -> Q)
  : result (list ((string * string) * option Q)) :=
  if existsb (fun k => dhas k (m_rhs m)) availability_groups
  then bind (unit_dispatch m x) (fun ud =>
    Ok (map (fun q => (fst (fst q), option_map (fun s => snd (snd q) + s) (snd (fst q))))
         (merge (fun (a : (string * string) * option Q) (b : ukey * Q) =>
                   String.eqb (fst (fst a)) (fst (fst (fst b))) && String.eqb (snd (fst a)) (snd (fst b)))
            (filter (fun a => negb (String.eqb (snd (fst a)) "energy"))
               (group_min rs_eqb fst snd (availability_rows m p x)))
            ud)))
  else Err EValue.
