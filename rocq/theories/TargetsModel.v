(** Model of the targets of fast start units as pandas works them out, where a division
    by zero gives no number.  Definitions only. *)

From Coq Require Import QArith String List Bool ZArith.
Import ListNotations.
From Verif Require Import PandasModel TablesModel.
Open Scope string_scope.
Open Scope list_scope.

(** Division of two columns: NaN or infinite, here [None], where the divisor is zero.
    /repo/src/nempy/spot_market_backend/unit_constraints.py:531-532, 550-551. *)
Definition column_over (a b : Q) : option Q := if Qeq_bool b 0 then None else Some (a / b).

(** The target of one row: zero in modes 0 and 1, rising to min_loading in mode 2,
    min_loading in mode 3, falling to zero in mode 4.  A NaN stays one when it is
    multiplied or taken off.  Rows in other modes have no target; they get no
    constraint, see fast_start_blocks.
    /repo/src/nempy/spot_market_backend/unit_constraints.py:521-556. *)
Definition fs_target (f : fs_row) : option Q :=
  match fs_end_mode f with
  | 0%Z | 1%Z => Some 0
  | 2%Z => match column_over (fs_time_in_end_mode f) (fs_mode_two_length f) with Some r => Some (r * fs_min_loading f) | None => None end
  | 3%Z => Some (fs_min_loading f)
  | 4%Z => match column_over (fs_time_in_end_mode f) (fs_mode_four_length f) with
           | Some r => Some (fs_min_loading f - r * fs_min_loading f) | None => None end
  | _ => None
  end.
