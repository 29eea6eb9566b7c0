(** [SpotMarket.dispatch] as a whole: what it records, with the solver as a parameter.
    Definitions only. *)

From Coq Require Import QArith String List Bool Arith.
Import ListNotations.
From Verif Require Import PandasModel TablesModel MarketModel SolverModel PricingModel ReportsModel FcasReportsModel DispatchPricesModel.
Open Scope string_scope.
Open Scope list_scope.

(** The solver: [sv_mip] is [mip_model.optimize] ([None]: the status is not OPTIMAL),
    [sv_lin] is [linear_mip_model.optimize] with the values and the shadow prices it
    leaves, [sv_sort] is [sort_values('distance')].
    /repo/src/nempy/spot_market_backend/solver_interface.py:290-291, 341-346, 451-454,
    /repo/src/nempy/markets.py:3076, 3165. *)
Record solver := Solver {
  sv_mip : problem -> option (nat -> Q);
  sv_lin : problem -> option ((nat -> Q) * (nat -> Q));
  sv_sort : list near -> list near }.

(** Arguments of [dispatch].  /repo/src/nempy/markets.py:2855-2856. *)
Record dispatch_args := DArgs {
  da_ceiling : option Q; da_floor : option Q; da_fcas : option Q; da_rerun : bool }.

(** What [dispatch] leaves in the market: the columns [value], [slack] (by constraint
    id), [value_lin] and [price] (by group) and [objective_value].
    /repo/src/nempy/markets.py:3053-3088, 3143-3145. *)
Record recorded := Recorded {
  d_value : option (nat -> Q); d_slack : option (nat -> Q); d_lin : option (nat -> Q);
  d_prices : dict (list (nat * Q)); d_objective : option Q }.

(** The price column of one group after the other; groups before the one that fails
    have got their prices.  /repo/src/nempy/markets.py:3082-3088, 3136-3143. *)
Fixpoint record_prices (q : problem) (pi : nat -> Q) (d : dict (list crow)) (old : dict (list (nat * Q)))
  : dict (list (nat * Q)) * option err :=
  match d with
  | [] => (old, None)
  | (k, rows) :: t =>
    match price_constraints q pi (map cr_id rows) with
    | Err e => (old, Some e)
    | Ok l => record_prices q pi t (dset k l old)
    end
  end.

(** The second solve.  If the linear problem of the re-run has no solution python-mip
    has no prices to give; what it does then is not modelled, the model stops
    with EModelBuild.  /repo/src/nempy/markets.py:3090-3143. *)
Definition second_run (s : solver) (a : dispatch_args) (m : market) (x pi : nat -> Q) (q : problem) (r : recorded)
  : recorded * option err :=
  match da_rerun a, da_ceiling a, da_floor a, da_fcas a with
  | true, Some ec, Some ef, Some fc =>
    match rerun_problem ec ef fc pi m x q with
    | None => (r, None)
    | Some q' =>
      match sv_lin s q' with
      | None => (r, Some EModelBuild)
      | Some (_, pi') =>
        let (ps, e) := record_prices q' pi' (m_mrhs m) (d_prices r) in
        (Recorded (d_value r) (d_slack r) (d_lin r) ps (d_objective r), e)
      end
    end
  | _, _, _, _ => (r, None)
  end.

(** [sum(cost * value)], the [objective_value] of python-mip.
    /repo/src/nempy/markets.py:3145. *)
Definition cost_at (p : problem) (x : nat -> Q) : Q := qsum (map (fun t => snd t * x (fst t)) (p_obj p)).

(** [dispatch].  Without a solution [optimize] raises a ValueError (the search for a
    culprit before it changes nothing).  If the linear problem has no solution the
    model stops after the values (see [second_run]) and reports EModelBuild.
    /repo/src/nempy/markets.py:2935-3145,
    /repo/src/nempy/spot_market_backend/solver_interface.py:290-296. *)
Definition dispatch_market (s : solver) (a : dispatch_args) (m : market) (old : recorded) : recorded * option err :=
  if da_rerun a && match da_ceiling a, da_floor a, da_fcas a with Some _, Some _, Some _ => false | _, _, _ => true end
  then (old, Some EValue)
  else match assemble m with
  | Err e => (old, Some e)
  | Ok p =>
    match sv_mip s p with
    | None => (old, Some EValue)
    | Some x =>
      let q := pricing_problem (sv_sort s) m x p in
      let r := Recorded (Some x) (Some (slack p x)) (d_lin old) (d_prices old) (d_objective old) in
      match sv_lin s q with
      | None => (r, Some EModelBuild)
      | Some (y, pi) =>
        let (ps, e) := record_prices q pi (m_mrhs m) (d_prices old) in
        let r := Recorded (d_value r) (d_slack r) (Some y) ps (d_objective old) in
        match e with
        | Some _ => (r, e)
        | None =>
          let (r, e) := second_run s a m x pi q r in
          match e with
          | Some _ => (r, e)
          | None => (Recorded (d_value r) (d_slack r) (d_lin r) (d_prices r) (Some (cost_at p x)), None)
          end
        end
      end
    end
  end.

(** [get_energy_prices] on what is recorded.  Without a price column it is a KeyError.
    /repo/src/nempy/markets.py:3321-3322. *)
Definition recorded_energy_prices (m : market) (r : recorded) : result (list (string * Q)) :=
  need (dget "demand" (m_mrhs m)) (fun rows =>
  need (dget "demand" (d_prices r)) (fun ps =>
  Ok (combine (map (fun w => match cr_key w with KRegion g => g | _ => "" end) rows) (map snd ps)))).

(** [find_problem_constraint]: constraints are removed one after the other, and stay
    removed, until the solver finds a solution.
    /repo/src/nempy/spot_market_backend/solver_interface.py:472-481. *)
Fixpoint remove_until (solve : problem -> option (nat -> Q)) (p : problem) (cs : list pcon) (gone : list nat) : list nat :=
  match cs with
  | [] => []
  | c :: t =>
    let gone' := gone ++ [pc_id c] in
    match solve (Problem (p_vars p) (p_obj p) (filter (fun d => negb (existsb (Nat.eqb (pc_id d)) gone')) (p_cons p)) (p_sos2 p) (p_sos1 p)) with
    | Some _ => gone'
    | None => remove_until solve p t gone'
    end
  end.
(** As above.  /repo/src/nempy/spot_market_backend/solver_interface.py:472-481. *)
Definition find_problem_constraint (solve : problem -> option (nat -> Q)) (p : problem) : list nat :=
  remove_until solve p (p_cons p) [].
