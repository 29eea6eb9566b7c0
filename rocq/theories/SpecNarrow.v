(** What a call that sets constraints may change in the problem. *)

From Coq Require Import QArith String List Bool Arith.
Import ListNotations.
From Verif Require Import PandasModel TablesModel MarketModel SolverModel SpecLp SpecHistory SpecDual.
Open Scope string_scope.
Open Scope list_scope.

(** A constraint of the problem of [m] is of a group that the call [o] sets. *)
Definition set_by (o : op) (m : market) (c : pcon) : Prop :=
  exists k g r, In k (touches o) /\ (dget k (m_rhs m) = Some g \/ dget k (m_mrhs m) = Some g) /\ In r g /\ pc_id c = cr_id r.
(** Nothing the call sets was set before. *)
Definition all_new (o : op) (m : market) : Prop :=
  forall k, In k (touches o) -> dget k (m_rhs m) = None /\ dget k (m_mrhs m) = None.
(** The ordered sets hold. *)
Definition sets_hold (p : problem) (x : assignment) : Prop :=
  (forall s, In s (p_sos2 p) -> sos2_ok x s) /\ (forall s, In s (p_sos1 p) -> sos1_ok x s).
