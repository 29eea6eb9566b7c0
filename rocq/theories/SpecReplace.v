(** Replacing and removing constraint sets: what it means that two markets
    dispatch alike. *)

From Coq Require Import QArith String List Bool Arith.
Import ListNotations.
From Verif Require Import PandasModel TablesModel VariableIdsModel InterModel MarketModel SolverModel SpecLp SpecHistory SpecElastic.
Open Scope string_scope.
Open Scope list_scope.

(** The variables other than violation variables. *)
Definition market_vars (m : market) : list nat :=
  map bv_id (rows_or_nil (m_bids m)) ++ map iv_id (rows_or_nil (m_inter m))
  ++ map lv_id (rows_or_nil (m_loss m)) ++ map wv_id (rows_or_nil (m_weights m)).

(** Every point of the first market's problem is, up to violation variables, a
    point of the second market's problem with the same cost, and the best points
    correspond as well. *)
Definition dispatches_into (m m' : market) : Prop :=
  forall p, assemble m = Ok p -> exists p', assemble m' = Ok p'
    /\ (forall x, feasible p x -> exists y, feasible p' y
        /\ (forall i, In i (market_vars m) -> y i == x i) /\ objective p' y == objective p x)
    /\ (forall x, optimal p x -> exists y, optimal p' y
        /\ (forall i, In i (market_vars m) -> y i == x i) /\ objective p' y == objective p x).

(** The same tables of bids, interconnectors and losses, the same dispatches in
    both directions. *)
Definition same_dispatch (m m' : market) : Prop :=
  m_bids m = m_bids m' /\ m_inter m = m_inter m' /\ m_loss m = m_loss m' /\ m_weights m = m_weights m'
  /\ dispatches_into m m' /\ dispatches_into m' m.

(** The same method. *)
Definition same_method (o1 o2 : op) : Prop :=
  match o1, o2 with
  | OpCapacity _ _, OpCapacity _ _ | OpUigf _ _, OpUigf _ _ | OpRamp _ _ _ _ _, OpRamp _ _ _ _ _
  | OpFastStart _ _, OpFastStart _ _ | OpDemand _ _, OpDemand _ _ | OpFcasReq _ _, OpFcasReq _ _
  | OpMaxAvail _ _, OpMaxAvail _ _ | OpJointRamping _ _ _ _, OpJointRamping _ _ _ _
  | OpJointCapacity _ _, OpJointCapacity _ _ | OpEnergyReg _ _, OpEnergyReg _ _
  | OpGeneric _ _, OpGeneric _ _ | OpTieBreak _, OpTieBreak _ => True
  | _, _ => False
  end.

(** A call changes a group, or its violation variables. *)
Definition changes (o : op) (m : market) (k : string) : Prop :=
  group (fst (step o m)) k <> group m k.
Definition changes_violations (o : op) (m : market) (k : string) : Prop :=
  violation_vars (fst (step o m)) k <> violation_vars m k.

(** [o2] alone would set again everything that [o1] sets. *)
Definition covers (o2 o1 : op) (m : market) : Prop :=
  forall k, In k (touches o1) ->
    (changes o1 m k -> changes o2 m k) /\ (changes_violations o1 m k -> changes_violations o2 m k).

(** Methods that set one group of constraints. *)
Definition one_group (o : op) : Prop :=
  match o with
  | OpCapacity _ _ | OpUigf _ _ | OpDemand _ _ | OpFcasReq _ _ | OpMaxAvail _ _ | OpJointCapacity _ _ | OpEnergyReg _ _
  | OpGeneric _ _ | OpTieBreak _ => True
  | _ => False
  end.

(** Tables that a method stores as a whole: prices and links of generic
    constraints. *)
Definition overwrites (o1 o2 : op) : Prop :=
  match o1, o2 with
  | OpPriceBids _, OpPriceBids _ | OpLinkUnits _, OpLinkUnits _ | OpLinkRegions _, OpLinkRegions _
  | OpLinkInters _, OpLinkInters _ => True
  | _, _ => False
  end.

(** Calls about fast start only: setting the constraints, making them elastic, removing them. *)
Definition only_fast_start (o : op) : Prop :=
  match o with
  | OpFastStart _ _ | OpRemoveFastStart => True
  | OpElastic k _ => k = "fast_start"
  | _ => False
  end.
