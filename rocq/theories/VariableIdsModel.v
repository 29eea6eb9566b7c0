(** Model of spot_market_backend/variable_ids.py and objective_function.py.
    Definitions only. *)

From Coq Require Import QArith String List Bool.
Import ListNotations.
From Verif Require Import PandasModel TablesModel.
Open Scope string_scope.
Open Scope list_scope.

(** One stacked row: the bid row, the band name and the volume or price.
    [hf.stack_columns] (pd.melt): column after column, rows in order.
    /repo/src/nempy/help_functions/helper_functions.py:23-27, called at
    /repo/src/nempy/spot_market_backend/variable_ids.py:140-141 and
    /repo/src/nempy/spot_market_backend/objective_function.py:20-22.  In the latter 'dispatch_type' is listed both as
    a column to keep and to stack; pd.melt ignores the duplicate. *)
Definition stack_bids (t : bid_table) : list (bid_row * string * Q) :=
  flat_map (fun band => map (fun r => (r, band, br_val r band)) (bt_rows t)) (bt_bands t).

(** Sort order of the stacked bids: by unit name then by band name, as strings.
    /repo/src/nempy/spot_market_backend/variable_ids.py:144. *)
Definition bid_le (a b : bid_row * string * Q) : bool :=
  let '(ra, banda, _) := a in
  let '(rb, bandb, _) := b in
  if String.eqb (br_unit ra) (br_unit rb) then String.leb banda bandb
  else String.leb (br_unit ra) (br_unit rb).

(** The smallest volume that gets a decision variable, 0.0001.
    /repo/src/nempy/spot_market_backend/variable_ids.py:142. *)
Definition min_bid_volume : Q := 1 # 10000.

(** The decision variables for the bids.
    /repo/src/nempy/spot_market_backend/variable_ids.py:140-149, 173-175. *)
Definition bid_variables (t : bid_table) (next : nat) : list bidvar :=
  map (fun p => let '(i, (r, band, v)) := p in
                BidVar (br_unit r) band (br_service r) (br_dt r) i 0 v)
      (save_index next
         (sort_rows bid_le
            (filter (fun p => Qle_bool min_bid_volume (snd p)) (stack_bids t)))).

(** Bid variables joined with unit_info on unit and dispatch type.
    /repo/src/nempy/spot_market_backend/variable_ids.py:151-158. *)
Definition bid_constraint_map (vs : list bidvar) (ui : list unit_info_row)
  : list (bidvar * unit_info_row) :=
  merge (fun v u => String.eqb (bv_unit v) (ui_unit u) && String.eqb (bv_dt v) (ui_dt u)) vs ui.

(** Regional map: loads count negative for energy.
    /repo/src/nempy/spot_market_backend/variable_ids.py:160-162. *)
Definition bid_regional_map (vs : list bidvar) (ui : list unit_info_row) : list rvrow :=
  map (fun p => let '(v, u) := p in
         RV (bv_id v) (ui_region u) (bv_service v)
            (if String.eqb (bv_dt v) "load" && String.eqb (bv_service v) "energy"
             then -(1) else 1))
      (bid_constraint_map vs ui).

(** Unit level map: the load side of a bidirectional unit counts negative for
    energy.  /repo/src/nempy/spot_market_backend/variable_ids.py:164-171. *)
Definition bid_unit_map (vs : list bidvar) (ui : list unit_info_row) (bdu : list string)
  : list uvrow :=
  map (fun p => let '(v, _) := p in
         UV (bv_id v) (bv_unit v) (bv_service v) (bv_dt v)
            (if mem_str (bv_unit v) bdu && String.eqb (bv_service v) "energy"
                && String.eqb (bv_dt v) "load"
             then -(1) else 1))
      (bid_constraint_map vs ui).

(** [objective_function.bids]: prices joined to the bid variables, negated for
    energy loads.  /repo/src/nempy/spot_market_backend/objective_function.py:6-29. *)
Definition objective_bids (vs : list bidvar) (prices : bid_table) : list objrow :=
  map (fun p => let '(v, (_, c)) := p in
         Obj (bv_id v) (bv_unit v) (bv_service v) (bv_dt v) (bv_band v)
             (if String.eqb (bv_dt v) "load" && String.eqb (bv_service v) "energy"
              then -(1) * c else c))
      (merge (fun v (p : bid_row * string * Q) =>
                let '(r, band, _) := p in
                String.eqb (bv_unit v) (br_unit r) && String.eqb (bv_service v) (br_service r)
                && String.eqb (bv_dt v) (br_dt r) && String.eqb (bv_band v) band)
             vs (stack_bids prices)).

(** [scale_by_loss_factors]: energy costs are divided by the loss factor.  A zero
    loss factor, which the validation accepts, makes the python cost infinite;
    here it gives 0, theorems carry the guard [~ ui_lf == 0].
    /repo/src/nempy/spot_market_backend/objective_function.py:32-82. *)
Definition scale_by_loss_factors (obj : list objrow) (ui : list unit_info_row) : list objrow :=
  map (fun p => let '(o, u) := p in
         Obj (ob_var o) (ob_unit o) (ob_service o) (ob_dt o) (ob_band o)
             (if String.eqb (ob_service o) "energy" then ob_cost o / ui_lf u else ob_cost o))
      (merge (fun o u => String.eqb (ob_unit o) (ui_unit u) && String.eqb (ob_dt o) (ui_dt u))
             obj ui).
