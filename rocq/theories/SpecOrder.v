(** The order in which constraints are set. *)

From Coq Require Import QArith String List Bool Arith.
Import ListNotations.
From Verif Require Import PandasModel TablesModel MarketModel SpecHistory.
Open Scope string_scope.
Open Scope list_scope.

(** Calls that set groups of constraints or make one elastic. *)
Definition constraint_call (o : op) : Prop :=
  match o with
  | OpCapacity _ _ | OpUigf _ _ | OpRamp _ _ _ _ _ | OpFastStart _ _ | OpDemand _ _ | OpFcasReq _ _
  | OpMaxAvail _ _ | OpJointRamping _ _ _ _ | OpJointCapacity _ _ | OpEnergyReg _ _
  | OpGeneric _ _ | OpTieBreak _ | OpElastic _ _ => True
  | _ => False
  end.

(** All calls were accepted. *)
Definition accepted (ops : list op) (m : market) : Prop := along (fun o m => snd (step o m) = None) ops m.

(** The call is about the group. *)
Definition about (k : string) (o : op) : bool := existsb (String.eqb k) (touches o).

(** About each group the same calls are made in the same order. *)
Definition same_order (ops ops' : list op) : Prop :=
  forall k, filter (about k) ops = filter (about k) ops'.
