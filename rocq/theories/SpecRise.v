(** Prices that rise with the band, and tables that differ in their prices only. *)

From Coq Require Import QArith String List Bool.
Import ListNotations.
From Verif Require Import PandasModel TablesModel MarketModel FrameModel SpecFrame SpecPrices.
Open Scope string_scope.
Open Scope list_scope.

(** The bands in their order. *)
Definition band_order : list string := ["1"; "2"; "3"; "4"; "5"; "6"; "7"; "8"; "9"; "10"].
Definition earlier (b b' : string) : Prop :=
  exists i j, (i < j)%nat /\ nth_error band_order i = Some b /\ nth_error band_order j = Some b'.

(** A row has a price that is lower than the price of an earlier band. *)
Definition falls (f : frame) : Prop :=
  exists i b b' q q', earlier b b' /\ holds f b i (CNum q) /\ holds f b' i (CNum q') /\ q' < q.

(** The same table with other prices, all of them real numbers. *)
Definition repriced (f f' : frame) : Prop :=
  fm_rows f' = fm_rows f
  /\ Forall2 (fun c c' => c' = c
       \/ exists prices, In (cl_name c) band_order /\ c' = Col (cl_name c) DFloat (map CNum prices) /\ length prices = fm_rows f)
     (fm_cols f) (fm_cols f').

(** The prices of a unit's service rise with every band. *)
Definition rising (t : bid_table) (u s d : string) : Prop :=
  forall b b' q q', earlier b b' -> offered t u s d b q -> offered t u s d b' q' -> q < q'.
