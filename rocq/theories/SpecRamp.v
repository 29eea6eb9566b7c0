(** Ramp limits, described without the code that computes them. *)

From Coq Require Import QArith Qminmax String List Bool.
Import ListNotations.
From Verif Require Import PandasModel TablesModel.
Open Scope string_scope.
Open Scope list_scope.

(** The SCADA rate of a unit: nothing when there is no table, no such column, no
    row for the unit, or an empty cell. *)
Definition scada_up (s : option scada_table) (u : string) : option Q :=
  match s with
  | Some s => if st_has_up s
              then match find (fun r => String.eqb (sc_unit r) u) (st_rows s) with
                   | Some r => sc_up r | None => None end
              else None
  | None => None
  end.
Definition scada_down (s : option scada_table) (u : string) : option Q :=
  match s with
  | Some s => if st_has_down s
              then match find (fun r => String.eqb (sc_unit r) u) (st_rows s) with
                   | Some r => sc_down r | None => None end
              else None
  | None => None
  end.

(** [q] is the smaller of a bid rate and a SCADA rate; a missing SCADA rate is
    ignored. *)
Definition smaller_rate (bid : Q) (scada : option Q) (q : Q) : Prop :=
  match scada with
  | None => q == bid
  | Some s => q <= bid /\ q <= s /\ (q == bid \/ q == s)
  end.

(** Starting at [init], after [h] hours a unit that moves at [low] per hour while its
    output is below zero and at [high] per hour while it is above can have risen to
    [q]: [t] is the time spent below zero and [z] the output at that time. *)
Definition rises_to (h init low high q : Q) : Prop :=
  exists t z, 0 <= t /\ t <= h
    /\ z == init + low * t
    /\ q == z + high * (h - t)
    /\ (0 < t -> init < 0 /\ z <= 0)
    /\ (t < h -> 0 <= z).

(** The same for falling, where the part above zero comes first. *)
Definition falls_to (h init low high q : Q) : Prop :=
  rises_to h (- init) high low (- q).
