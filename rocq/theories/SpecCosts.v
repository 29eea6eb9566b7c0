(** What the documentation of [make_constraints_elastic] says about its arguments. *)

From Coq Require Import QArith String List.
Import ListNotations.
From Verif Require Import TablesModel MarketModel.
Open Scope string_scope.
Open Scope list_scope.

(** The requirements of the reserve markets and the generic constraints are the
    constraints that belong to a named set. *)
Definition has_sets (k : string) : Prop := k = "fcas" \/ k = "generic".

(** No two rows of the table are equal. *)
Fixpoint rows_differ (t : list (string * Q)) : Prop :=
  match t with
  | [] => True
  | e :: t' => (forall e', In e' t' -> ~ (fst e = fst e' /\ snd e == snd e')) /\ rows_differ t'
  end.

(** The argument is a number, or a table without repeated rows for constraints that
    belong to sets. *)
Definition usable (k : string) (v : vcost) : Prop :=
  match v with
  | VNum _ => True
  | VTable t => rows_differ t /\ has_sets k
  | VOther => False
  end.

(** The types of constraint that the documentation knows. *)
Definition known_type (t : string) : Prop := t = "<=" \/ t = ">=" \/ t = "=".
