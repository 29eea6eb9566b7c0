(** Histories in which some rules are hard and others carry violation costs. *)

From Coq Require Import QArith String List Bool Arith ZArith.
Import ListNotations.
From Verif Require Import PandasModel TablesModel MarketModel SolverModel SpecLp SpecHistory SpecElastic SpecSoft SpecExact.
Open Scope string_scope.
Open Scope list_scope.

(** The calls that set tables and groups, rather than make constraints elastic. *)
Definition settings (ops : list op) : list op :=
  filter (fun o => match o with OpElastic _ _ => false | _ => true end) ops.

(** The constraints of group [k] were given violation costs. *)
Definition soft_group (ops : list op) (m : market) (k : string) : Prop :=
  group m k <> None /\ exists o, In o ops /\ In k (touches o) /\ cost_arg o <> None.

(** Nothing that the call sets was given a violation cost. *)
Definition hard (ops : list op) (o : op) : Prop :=
  forall k o', In k (touches o) -> In o' ops -> In k (touches o') -> cost_arg o' = None.

(** The groups of one call are soft together. *)
Definition together (ops : list op) (m : market) : Prop :=
  forall o k k', In o ops -> In k (touches o) -> In k' (touches o) -> soft_group ops m k -> group m k' <> None ->
    soft_group ops m k'.

(** The soft groups are just those with violation costs. *)
Definition soft_groups (ops : list op) (m : market) (ss : list soft) : Prop :=
  forall k, soft_group ops m k <-> In k (map so_key ss).

(** The dispatch obeys the hard calls. *)
Definition obeys_hard (ops : list op) (m : market) (x : assignment) : Prop :=
  forall o, In o ops -> hard ops o -> obeys ops m x o.
