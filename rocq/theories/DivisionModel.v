(** Model of the slopes of trapeziums and of the costs at the reference node as pandas
    works them out, where a division by zero gives no number.  Definitions only. *)

From Coq Require Import QArith String List Bool.
Import ListNotations.
From Verif Require Import PandasModel TablesModel TargetsModel.
Open Scope string_scope.
Open Scope list_scope.

(** The upper and the lower slope coefficient of a trapezium.
    /repo/src/nempy/spot_market_backend/fcas_constraints.py:227-232, 420-425. *)
Definition slopes_of (t : trap_row) : option (Q * Q) :=
  match column_over (tz_emax t - tz_hbp t) (tz_max t), column_over (tz_lbp t - tz_emin t) (tz_max t) with
  | Some a, Some b => Some (a, b)
  | _, _ => None
  end.

(** The cost of a band, divided by the loss factor if it is energy.
    /repo/src/nempy/spot_market_backend/objective_function.py:77-82. *)
Definition cost_over (o : objrow) (u : unit_info_row) : option Q :=
  if String.eqb (ob_service o) "energy" then column_over (ob_cost o) (ui_lf u) else Some (ob_cost o).
