(** Coefficients that are numbers. *)

From Coq Require Import QArith String List.
Import ListNotations.
From Verif Require Import PandasModel TablesModel DivisionModel.
Open Scope string_scope.
Open Scope list_scope.

(** The coefficient is one, minus one, or a slope of a trapezium of the table, which is
    a number. *)
Definition a_number (l : list trap_row) (w : ucrow) : Prop :=
  uc_coef w == 1 \/ uc_coef w == -(1)
  \/ exists t a b, In t l /\ slopes_of t = Some (a, b) /\ uc_unit w = tz_unit t /\ uc_service w = tz_service t /\ (uc_coef w == a \/ uc_coef w == - b).
