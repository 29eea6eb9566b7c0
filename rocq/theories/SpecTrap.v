(** The FCAS trapezium: the convex hull of its four corners in the plane of
    energy and service. *)

From Coq Require Import QArith String List Bool.
Import ListNotations.
From Verif Require Import TablesModel.

(** The point (e, q) is a convex combination of (enablement_min, 0),
    (low_break_point, max), (high_break_point, max) and (enablement_max, 0). *)
Definition in_trapezium (t : trap_row) (e q : Q) : Prop :=
  exists a b c d, 0 <= a /\ 0 <= b /\ 0 <= c /\ 0 <= d /\ a + b + c + d == 1
    /\ e == a * tz_emin t + b * tz_lbp t + c * tz_hbp t + d * tz_emax t
    /\ q == (b + c) * tz_max t.

(** The corners are in the usual order. *)
Definition proper_trapezium (t : trap_row) : Prop :=
  0 < tz_max t /\ tz_emin t <= tz_lbp t /\ tz_lbp t <= tz_hbp t /\ tz_hbp t <= tz_emax t.
