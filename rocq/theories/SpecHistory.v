(** Conditions on histories of calls, in terms of the arguments of the calls. *)

From Coq Require Import QArith String List Bool.
Import ListNotations.
From Verif Require Import PandasModel TablesModel MarketModel.
Open Scope string_scope.
Open Scope list_scope.

(** A condition that every call of a history satisfies in the state it meets. *)
Fixpoint along (C : op -> market -> Prop) (ops : list op) (m : market) : Prop :=
  match ops with
  | [] => True
  | o :: t => C o m /\ along C t (fst (step o m))
  end.

(** The two kinds of calls that spoil the constraint ids: an empty generic
    constraint table, and interpolation break points of a link that has no flow
    variable. *)
Definition sane_op (o : op) (m : market) : Prop :=
  match o with
  | OpGeneric l _ => l <> []
  | OpLosses _ bps =>
    forall b, In b bps -> exists v, In v (rows_or_nil (m_inter m))
      /\ iv_inter v = bp_inter b /\ iv_link v = bp_link b
  | _ => True
  end.

Definition sane (ops : list op) (m : market) : Prop := along sane_op ops m.

(** The tables and constraint groups a call may create, replace, remove or make
    elastic. *)
Definition touches (o : op) : list string :=
  match o with
  | OpVolumeBids _ => ["bids"]
  | OpPriceBids _ => ["prices"]
  | OpInterconnectors _ => ["interconnectors"]
  | OpLinkUnits _ => ["unit links"]
  | OpLinkRegions _ => ["region links"]
  | OpLinkInters _ => ["interconnector links"]
  | OpCapacity _ _ => ["unit_bid_capacity"]
  | OpUigf _ _ => ["uigf_capacity"]
  | OpRamp _ _ _ _ _ => ["ramp_up"; "ramp_down"; "bidirectional_ramp_up"; "bidirectional_ramp_down"]
  | OpFastStart _ _ => ["fast_start"]
  | OpRemoveFastStart => ["fast_start"]
  | OpDemand _ _ => ["demand"]
  | OpFcasReq _ _ => ["fcas"]
  | OpMaxAvail _ _ => ["fcas_max_availability"]
  | OpJointRamping _ _ _ _ =>
    ["joint_ramping_raise_reg"; "joint_ramping_raise_reg_bdu";
     "joint_ramping_lower_reg"; "joint_ramping_lower_reg_bdu"]
  | OpJointCapacity _ _ => ["joint_capacity"]
  | OpEnergyReg _ _ => ["energy_and_regulation_capacity"]
  | OpLosses _ _ => ["interpolation_weights"; "losses"]
  | OpGeneric _ _ => ["generic"]
  | OpElastic k _ => [k]
  | OpTieBreak _ => ["tie_break"]
  end.

(** No call of the history touches the table or group. *)
Definition leaves (k : string) (ops : list op) : Prop :=
  forall o, In o ops -> ~ In k (touches o).

(** The history contains the call [o], it was accepted, and no later call touches
    what it set. *)
Definition stands (m0 : market) (ops : list op) (o : op) : Prop :=
  exists pre post, ops = pre ++ o :: post
    /\ snd (step o (run pre m0)) = None
    /\ (forall k, In k (touches o) -> leaves k post).

(** [m] is the market at the end of some history in which the call [o] stands. *)
Definition in_force (c : config) (o : op) (m : market) : Prop :=
  exists m0 ops, new_market c = Ok m0 /\ sane ops m0 /\ stands m0 ops o /\ m = run ops m0.

(** The same, with the market [m'] that the call [o] met. *)
Definition in_force_at (c : config) (o : op) (m' m : market) : Prop :=
  exists m0 pre post, new_market c = Ok m0 /\ sane (pre ++ o :: post) m0
    /\ m' = run pre m0 /\ snd (step o m') = None
    /\ (forall k, In k (touches o) -> leaves k post) /\ m = run (pre ++ o :: post) m0.

(** The market was reached by some history of sane calls. *)
Definition reached (c : config) (m : market) : Prop :=
  exists m0 ops, new_market c = Ok m0 /\ sane ops m0 /\ m = run ops m0.
