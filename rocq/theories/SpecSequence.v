(** What a previous interval hands on to the next. *)

From Coq Require Import QArith String List Bool.
Import ListNotations.
From Verif Require Import TablesModel MarketModel ReportsModel SequenceModel SpecDispatch.
Open Scope string_scope.
Open Scope list_scope.

(** The parameters of a row of rates: the same unit and rates, and an initial output. *)
Definition starts_at (r : rate_row) (q : Q) (p : param_row) : Prop :=
  pr_unit p = ra_unit r /\ ra_up r = Some (pr_up p) /\ ra_down r = Some (pr_down p) /\ pr_init p == q.

(** No rate is missing. *)
Definition rated (rates : list rate_row) : Prop :=
  forall r, In r rates -> ra_up r <> None /\ ra_down r <> None.

(** The energy dispatch of a unit in a report is [q]: the amount of its one row, or
    zero if it has none. *)
Definition was_dispatched (rep : list (ukey * Q)) (u : string) (q : Q) : Prop :=
  (exists dt, In ((u, dt, "energy"), q) rep) \/ ((forall dt d, ~ In ((u, dt, "energy"), d) rep) /\ q = 0).

(** The unit has energy bids of one dispatch type only, or none. *)
Definition one_sided (m : market) (u d : string) : Prop := forall d', offers m u "energy" d' -> d' = d.
