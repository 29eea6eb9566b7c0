(** Model of the first half of SpotMarket.dispatch (/repo/src/nempy/markets.py:2942-3049) and of
    /repo/src/nempy/spot_market_backend/solver_interface.py: the optimisation problem handed to the solver.
    Definitions only. *)

From Coq Require Import QArith String List Bool Arith ZArith.
Import ListNotations.
From Verif Require Import PandasModel TablesModel MarketModel.
Open Scope string_scope.
Open Scope list_scope.

(** The problem given to the solver: variables with bounds, a cost per variable,
    linear constraints whose right-hand side is a number or a variable, and
    special ordered sets (lists of variable ids, in order).
    /repo/src/nempy/spot_market_backend/solver_interface.py:33-244. *)
Record pvar := PVar { pv_id : nat; pv_lb : Q; pv_ub : option Q }.
(** As above.  /repo/src/nempy/spot_market_backend/solver_interface.py:33-244. *)
Inductive prhs : Type := RNum (q : Q) | RVar (v : nat).
(** As above.  /repo/src/nempy/spot_market_backend/solver_interface.py:33-244. *)
Record pcon := PCon { pc_id : nat; pc_type : string; pc_terms : list (nat * Q); pc_rhs : prhs }.
(** As above.  /repo/src/nempy/spot_market_backend/solver_interface.py:33-244. *)
Record problem := Problem {
  p_vars : list pvar; p_obj : list (nat * Q); p_cons : list pcon;
  p_sos2 : list (list nat); p_sos1 : list (list nat) }.

(** [create_lhs] for regional and for unit level constraints: join on region and
    service, or on unit, service and dispatch type; coefficients are multiplied.
    /repo/src/nempy/spot_market_backend/solver_interface.py:551-554. *)
Definition regional_lhs (cs : list rcrow) (vs : list rvrow) : list lrow :=
  map (fun p => let '(c, v) := p in LRow (rc_con c) (rv_id v) (rc_coef c * rv_coef v))
      (merge (fun c v => String.eqb (rc_region c) (rv_region v)
                         && String.eqb (rc_service c) (rv_service v)) cs vs).
(** As above.  /repo/src/nempy/spot_market_backend/solver_interface.py:551-554. *)
Definition unit_lhs (cs : list ucrow) (vs : list uvrow) : list lrow :=
  map (fun p => let '(c, v) := p in LRow (uc_con c) (uv_id v) (uc_coef c * uv_coef v))
      (merge (fun c v => String.eqb (uc_unit c) (uv_unit v)
                         && String.eqb (uc_service c) (uv_service v)
                         && String.eqb (uc_dt c) (uv_dt v)) cs vs).

(** [create_mapping_of_generic_constraint_sets_to_constraint_ids]: constraint rows
    of the generic and the fcas group, if either group exists.
    /repo/src/nempy/spot_market_backend/solver_interface.py:623-631. *)
Definition generic_ids (m : market) : option (list crow) :=
  match dget "generic" (m_rhs m), dget "fcas" (m_mrhs m) with
  | None, None => None
  | a, b => Some (rows_or_nil a ++ rows_or_nil b)
  end.

(** [create_unit_level_generic_constraint_lhs].
    /repo/src/nempy/spot_market_backend/solver_interface.py:706-711. *)
Definition generic_unit_lhs (gs : list gunit_row) (ids : list crow) (vs : list uvrow) : list lrow :=
  map (fun p => let '((g, v), r) := p in LRow (cr_id r) (uv_id v) (gu_coef g * uv_coef v))
      (merge (fun (p : gunit_row * uvrow) r => in_set r (gu_set (fst p)))
         (merge (fun g v => String.eqb (gu_unit g) (uv_unit v)
                            && String.eqb (gu_service g) (uv_service v)) gs vs)
         ids).

(** [create_region_level_generic_constraint_lhs]: the coefficient of the variable
    is not used.  /repo/src/nempy/spot_market_backend/solver_interface.py:785-789. *)
Definition generic_region_lhs (gs : list gregion_row) (ids : list crow) (vs : list rvrow) : list lrow :=
  map (fun p => let '((g, v), r) := p in LRow (cr_id r) (rv_id v) (gr_coef g))
      (merge (fun (p : gregion_row * rvrow) r => in_set r (gr_set (fst p)))
         (merge (fun g v => String.eqb (gr_region g) (rv_region v)
                            && String.eqb (gr_service g) (rv_service v)) gs vs)
         ids).

(** [create_interconnector_generic_constraint_lhs].
    /repo/src/nempy/spot_market_backend/solver_interface.py:821-828. *)
Definition generic_inter_lhs (gs : list ginter_row) (ids : list crow) (vs : list intervar) : list lrow :=
  map (fun p => let '((g, v), r) := p in LRow (cr_id r) (iv_id v) (gi_coef g * inject_Z (iv_gcf v)))
      (merge (fun (p : ginter_row * intervar) r => in_set r (gi_set (fst p)))
         (merge (fun g v => String.eqb (gi_inter g) (iv_inter v)) gs vs)
         ids).

(** The left-hand sides from linked units, regions and interconnectors.
    /repo/src/nempy/markets.py:2949-2983. *)
Definition generic_lhs (m : market) : list lrow :=
  match generic_ids m with
  | None => []
  | Some ids =>
    match m_gen_unit m, m_unit_bids m with
    | Some gs, Some vs => generic_unit_lhs gs ids vs
    | _, _ => []
    end
    ++ match m_gen_region m, m_reg_bids m with
       | Some gs, Some vs => generic_region_lhs gs ids vs
       | _, _ => []
       end
    ++ match m_gen_inter m, m_inter m with
       | Some gs, Some vs => generic_inter_lhs gs ids vs
       | _, _ => []
       end
  end.

(** All regional variable maps.  /repo/src/nempy/markets.py:2989. *)
Definition regional_vars (m : market) : list rvrow :=
  rows_or_nil (m_reg_bids m) ++ map ir_rv (rows_or_nil (m_reg_inter m))
  ++ rows_or_nil (m_reg_loss m).
(** As above.  /repo/src/nempy/markets.py:2989. *)
Definition no_regional_vars (m : market) : bool :=
  match m_reg_bids m, m_reg_inter m, m_reg_loss m with None, None, None => true | _, _, _ => false end.

(** The whole left-hand side table: fully defined rows, generic rows, regional
    rows, unit level rows.  [pd.concat] of no tables is a ValueError.
    /repo/src/nempy/markets.py:2942-3003. *)
Definition all_lhs (m : market) : list lrow :=
  dconcat (m_lhs m) ++ generic_lhs m
  ++ regional_lhs (dconcat (m_c2v_reg m)) (regional_vars m)
  ++ unit_lhs (dconcat (m_c2v_unit m)) (rows_or_nil (m_unit_bids m)).
(** As above.  /repo/src/nempy/markets.py:2942-3003. *)
Definition check_lhs (m : market) : option err :=
  match m_c2v_reg m with
  | _ :: _ => if no_regional_vars m then Some EValue else
              match m_c2v_unit m, m_unit_bids m with _ :: _, None => Some EValue | _, _ => None end
  | [] => match m_c2v_unit m, m_unit_bids m with _ :: _, None => Some EValue | _, _ => None end
  end.

(** All decision variables.  /repo/src/nempy/markets.py:3007-3012,
    /repo/src/nempy/spot_market_backend/solver_interface.py:76-89. *)
Definition bid_pvars (l : list bidvar) : list pvar := map (fun v => PVar (bv_id v) (bv_lb v) (Some (bv_ub v))) l.
(** As above.  /repo/src/nempy/markets.py:3007-3012, /repo/src/nempy/spot_market_backend/solver_interface.py:76-89. *)
Definition inter_pvars (l : list intervar) : list pvar := map (fun v => PVar (iv_id v) (iv_lb v) (Some (iv_ub v))) l.
(** As above.  /repo/src/nempy/markets.py:3007-3012, /repo/src/nempy/spot_market_backend/solver_interface.py:76-89. *)
Definition loss_pvars (l : list lossvar) : list pvar := map (fun v => PVar (lv_id v) (lv_lb v) (Some (lv_ub v))) l.
(** As above.  /repo/src/nempy/markets.py:3007-3012, /repo/src/nempy/spot_market_backend/solver_interface.py:76-89. *)
Definition weight_pvars (l : list weightvar) : list pvar := map (fun v => PVar (wv_id v) (wv_lb v) (Some (wv_ub v))) l.
(** As above.  /repo/src/nempy/markets.py:3007-3012, /repo/src/nempy/spot_market_backend/solver_interface.py:76-89. *)
Definition deficit_pvars (l : list defvar) : list pvar := map (fun v => PVar (df_id v) (df_lb v) (df_ub v)) l.
(** As above.  /repo/src/nempy/markets.py:3007-3012, /repo/src/nempy/spot_market_backend/solver_interface.py:76-89. *)
Definition all_vars (m : market) : list pvar :=
  bid_pvars (rows_or_nil (m_bids m)) ++ inter_pvars (rows_or_nil (m_inter m))
  ++ loss_pvars (rows_or_nil (m_loss m)) ++ weight_pvars (rows_or_nil (m_weights m))
  ++ deficit_pvars (dconcat (m_deficits m)).
(** As above.  /repo/src/nempy/markets.py:3007-3012, /repo/src/nempy/spot_market_backend/solver_interface.py:76-89. *)
Definition no_variable_tables (m : market) : bool :=
  match m_bids m, m_inter m, m_loss m, m_weights m, m_deficits m with
  | None, None, None, None, [] => true
  | _, _, _, _, _ => false
  end.

(** The objective: cost times variable.  A cost for a variable that does not
    exist is a KeyError.  /repo/src/nempy/markets.py:3015-3018,
    /repo/src/nempy/spot_market_backend/solver_interface.py:170-175. *)
Definition all_costs (m : market) : list (nat * Q) :=
  map (fun o => (ob_var o, ob_cost o)) (rows_or_nil (m_obj_bids m))
  ++ map (fun c => (co_var c, co_cost c)) (dconcat (m_obj_def m)).
(** As above.
    /repo/src/nempy/markets.py:3015-3018,
    /repo/src/nempy/spot_market_backend/solver_interface.py:170-175. *)
Definition has_var (vs : list pvar) (i : nat) : bool := existsb (fun v => Nat.eqb (pv_id v) i) vs.

(** All right-hand sides.  A dynamic one that refers to a variable that does not
    exist is a KeyError.  /repo/src/nempy/markets.py:3020-3034. *)
Record rrow := RRow { r_id : nat; r_type : string; r_rhs : prhs }.
(** As above.  /repo/src/nempy/markets.py:3020-3034. *)
Definition static_rrows (l : list crow) : list rrow := map (fun r => RRow (cr_id r) (cr_type r) (RNum (cr_rhs r))) l.
(** As above.  /repo/src/nempy/markets.py:3020-3034. *)
Definition dyn_rrows (l : list dynrow) : list rrow := map (fun d => RRow (dy_id d) (dy_type d) (RVar (dy_var d))) l.
(** As above.  /repo/src/nempy/markets.py:3020-3034. *)
Definition all_rhs (m : market) : list rrow :=
  static_rrows (dconcat (m_rhs m)) ++ static_rrows (dconcat (m_mrhs m))
  ++ dyn_rrows (rows_or_nil (m_dyn m)).
(** As above.  /repo/src/nempy/markets.py:3020-3034. *)
Definition no_rhs_tables (m : market) : bool :=
  match m_rhs m, m_mrhs m, m_dyn m with [], [], None => true | _, _, _ => false end.

(** One row of [add_constraints]: coefficients of repeated variables are added up;
    a variable that does not exist is a TypeError, a missing right-hand side a
    KeyError, an unknown type a ValueError.  When ids repeat the last row is used
    (python dict).  /repo/src/nempy/spot_market_backend/solver_interface.py:213-244. *)
Definition lhs_terms (rows : list lrow) : list (nat * Q) := groupby_sum Nat.eqb l_var l_coef rows.
(** As above.  /repo/src/nempy/spot_market_backend/solver_interface.py:213-244. *)
Definition find_rhs (rs : list rrow) (i : nat) : option rrow := find (fun r => Nat.eqb (r_id r) i) (rev rs).
(** As above.  /repo/src/nempy/spot_market_backend/solver_interface.py:213-244. *)
Definition build_con (vs : list pvar) (rs : list rrow) (rows : list lrow) (i : nat) : result pcon :=
  let ts := lhs_terms (filter (fun r => Nat.eqb (l_con r) i) rows) in
  if forallb (fun t => has_var vs (fst t)) ts then
    match find_rhs rs i with
    | None => Err EKey
    | Some r => if mem_str (r_type r) ["<="; ">="; "="]
                then Ok (PCon i (r_type r) ts (r_rhs r))
                else Err EValue
    end
  else Err EType.

(** As above.  /repo/src/nempy/spot_market_backend/solver_interface.py:213-244. *)
Fixpoint build_cons (vs : list pvar) (rs : list rrow) (rows : list lrow) (ids : list nat)
  : result (list pcon) :=
  match ids with
  | [] => Ok []
  | i :: t =>
    match build_con vs rs rows i with
    | Err e => Err e
    | Ok c => match build_cons vs rs rows t with Err e => Err e | Ok l => Ok (c :: l) end
    end
  end.

(** The constraints that have a left-hand side, in the order of their ids.  With
    right-hand sides but no left-hand side rows the code fails (a KeyError if the
    table has no columns, else a ValueError; the model does not tell them apart).
    /repo/src/nempy/spot_market_backend/solver_interface.py:213-225. *)
Definition con_ids (rows : list lrow) : list nat :=
  sort_rows Nat.leb (keys_of Nat.eqb (map l_con rows)).
(** As above.  /repo/src/nempy/spot_market_backend/solver_interface.py:213-225. *)
Definition add_constraints (m : market) : result (list pcon) :=
  if no_rhs_tables m then Ok []
  else match all_lhs m with
       | [] => Err EValue
       | rows => build_cons (all_vars m) (all_rhs m) rows (con_ids rows)
       end.

(** Special ordered sets of type 2, one per link with interpolation weights, in
    the order of the loss segments.
    /repo/src/nempy/markets.py:3037-3041, /repo/src/nempy/spot_market_backend/solver_interface.py:117-124. *)
Definition sos2_sets (ws : list weightvar) : list (list nat) :=
  map (fun k => map wv_id
         (sort_rows (fun a b => Z.leb (wv_seg a) (wv_seg b))
            (filter (fun w => String.eqb (wv_inter w) (fst k) && String.eqb (wv_link w) (snd k)) ws)))
      (keys_of (fun a b => String.eqb (fst a) (fst b) && String.eqb (snd a) (snd b))
               (map (fun w => (wv_inter w, wv_link w)) ws)).

(** Special ordered sets of type 1: the links of an interconnector that are named
    differently from it.  /repo/src/nempy/markets.py:3043-3049,
    /repo/src/nempy/spot_market_backend/solver_interface.py:128-136. *)
Definition sos1_sets (vs : list intervar) : list (list nat) :=
  let l := filter (fun v => negb (String.eqb (iv_inter v) (iv_link v))) vs in
  map (fun k => map iv_id (filter (fun v => String.eqb (iv_inter v) k) l))
      (keys_of String.eqb (map iv_inter l)).

(** The problem that [dispatch] builds, or the exception it raises on the way.
    /repo/src/nempy/markets.py:2942-3049. *)
Definition assemble (m : market) : result problem :=
  match check_lhs m with
  | Some e => Err e
  | None =>
    if no_variable_tables m then Err EModelBuild
    else if negb (forallb (fun c => has_var (all_vars m) (fst c)) (all_costs m)) then Err EKey
    else if negb (forallb (fun d => has_var (all_vars m) (dy_var d)) (rows_or_nil (m_dyn m)))
    then Err EKey
    else match add_constraints m with
         | Err e => Err e
         | Ok cs =>
           Ok (Problem (all_vars m) (all_costs m) cs
                 (sos2_sets (rows_or_nil (m_weights m)))
                 (sos1_sets (rows_or_nil (m_inter m))))
         end
  end.
