(** Demand tables, read region by region. *)

From Coq Require Import QArith String List Bool.
Import ListNotations.
From Verif Require Import PandasModel TablesModel SpecLp SpecDispatch.
Open Scope string_scope.
Open Scope list_scope.

(** What a demand table asks for in a region. *)
Definition demand_of (l : list demand_row) (r : string) : Q :=
  qsum (map de_demand (filter (fun d => String.eqb r (de_region d)) l)).
(** What the change from one demand table to another is worth at the prices [ps]. *)
Definition change_value (ps : list (string * Q)) (before after : list demand_row) : Q :=
  qsum (map (fun a => snd a * (demand_of after (fst a) - demand_of before (fst a))) ps).
(** The two tables name the same regions. *)
Definition same_regions (l1 l2 : list demand_row) : Prop := forall r, In r (map de_region l1) <-> In r (map de_region l2).
