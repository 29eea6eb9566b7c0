(** Intervals dispatched one after the other, each starting where the last one ended. *)

From Coq Require Import QArith String List Bool.
Import ListNotations.
From Verif Require Import PandasModel TablesModel MarketModel ReportsModel SequenceModel SpecLp SpecHistory SpecDispatch SpecRamp.
Open Scope string_scope.
Open Scope list_scope.

(** An interval: the market, the dispatch that was recorded, and the ramp rates. *)
Record stage := Stage {
  sg_config : config; sg_market : market; sg_dispatch : assignment;
  sg_rates : list (rate_row * option string); sg_scada : option scada_table }.

(** The ramp limits of the interval start at the report [rep], and its dispatch is
    feasible. *)
Definition follows (rep : list (ukey * Q)) (s : stage) : Prop :=
  in_force (sg_config s) (OpRamp (next_table rep (sg_rates s)) (sg_scada s) None "no_fast_start_units" None) (sg_market s)
  /\ solution (sg_market s) (sg_dispatch s).

(** Every interval starts at the report of the one before. *)
Fixpoint chain (rep : list (ukey * Q)) (l : list stage) : Prop :=
  match l with
  | [] => True
  | s :: t => follows rep s /\ exists rep', unit_dispatch (sg_market s) (sg_dispatch s) = Ok rep' /\ chain rep' t
  end.

(** The energy of a side of a unit. *)
Definition level (u d : string) (s : stage) : Q := dispatch (sg_market s) (sg_dispatch s) u "energy" d.

(** The unit is an ordinary unit of the interval with bids on the side [d] only, and
    has the rates [up] and [down]; the rates that apply are at most these. *)
Definition ordinary (u d : string) (s : stage) (up down : Q) : Prop :=
  registered (sg_config s) u d /\ ~ two_sided (sg_config s) u
  /\ (forall d', offers (sg_market s) u "energy" d' <-> d' = d)
  /\ exists r o bu bd, In (r, o) (sg_rates s) /\ ra_unit r = u /\ ra_up r = Some bu /\ ra_down r = Some bd
       /\ match o with Some x => x | None => "generator" end = d
       /\ smaller_rate bu (scada_up (sg_scada s) u) up /\ smaller_rate bd (scada_down (sg_scada s) u) down.

(** What a side of a unit delivered according to a report. *)
Definition reported (rep : list (ukey * Q)) (u d : string) (q : Q) : Prop :=
  (forall d' x, In ((u, d', "energy"), x) rep -> d' = d)
  /\ ((In ((u, d, "energy"), q) rep /\ forall x, In ((u, d, "energy"), x) rep -> x == q)
      \/ ((forall x, ~ In ((u, d, "energy"), x) rep) /\ q == 0)).

(** How far a unit can have moved. *)
Fixpoint reach (h : stage -> Q) (rate : stage -> Q) (l : list stage) : Q :=
  match l with [] => 0 | s :: t => rate s * h s / 60 + reach h rate t end.
