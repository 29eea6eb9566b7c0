(** Model of nempy/historical_inputs/units.py: processing of historical bids.
    Definitions only. *)

From Coq Require Import QArith String List Bool.
Import ListNotations.
From Verif Require Import PandasModel TablesModel MarketModel.
Open Scope string_scope.
Open Scope list_scope.

(** The band columns of historical bids.
    /repo/src/nempy/historical_inputs/units.py:702. *)
Definition ten_bands : list string := ["1"; "2"; "3"; "4"; "5"; "6"; "7"; "8"; "9"; "10"].

(** [_unscale_price_bids]: energy prices times the loss factor; rows without a
    match in unit_info are lost.  A missing band column is a KeyError.
    /repo/src/nempy/historical_inputs/units.py:696-705. *)
Definition unscale_row (r : bid_row) (u : unit_info_row) : bid_row :=
  BidRow (br_unit r) (br_service r) (br_dt r)
    (fun b => if mem_str b ten_bands && String.eqb (br_service r) "energy" then br_val r b * ui_lf u else br_val r b).
(** As above.  /repo/src/nempy/historical_inputs/units.py:696-705. *)
Definition unscale_price_bids (t : bid_table) (ui : list unit_info_row) : result bid_table :=
  if forallb (fun b => mem_str b (bt_bands t)) ten_bands
  then Ok (BidTable (bt_bands t)
             (map (fun p => unscale_row (fst p) (snd p))
                (merge (fun r u => String.eqb (br_unit r) (ui_unit u) && String.eqb (br_dt r) (ui_dt u)) (bt_rows t) ui)))
  else Err EKey.
