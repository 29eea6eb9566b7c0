(** The same calls with the rows of their tables, the calls themselves, or both in
    another order. *)

From Coq Require Import QArith String List Bool Permutation.
Import ListNotations.
From Verif Require Import PandasModel TablesModel MarketModel SolverModel SpecLp SpecHistory SpecDispatch.
Open Scope string_scope.
Open Scope list_scope.

(** The same table with rows, and for bids columns of bands, in another order. *)
Definition same_bid_table (t t' : bid_table) : Prop :=
  Permutation (bt_rows t) (bt_rows t') /\ Permutation (bt_bands t) (bt_bands t').
Definition same_ramps (t t' : ramp_table) : Prop :=
  rt_has_up t = rt_has_up t' /\ rt_has_down t = rt_has_down t' /\ Permutation (rt_rows t) (rt_rows t').
Definition same_scada (s s' : option scada_table) : Prop :=
  match s, s' with
  | Some s, Some s' => st_has_up s = st_has_up s' /\ st_has_down s = st_has_down s' /\ Permutation (st_rows s) (st_rows s')
  | None, None => True
  | _, _ => False
  end.
Definition same_profiles (p p' : option (list fs_ramp_row)) : Prop :=
  match p, p' with Some p, Some p' => Permutation p p' | None, None => True | _, _ => False end.

(** All rows of a requirement set ask for the same volume in the same way. *)
Definition agreeing (l : list fcas_req_row) : Prop :=
  forall a b, In a l -> In b l -> fq_set a = fq_set b -> fq_type a = fq_type b /\ fq_volume a = fq_volume b.

Definition same_call (o o' : op) : Prop :=
  match o, o' with
  | OpVolumeBids t, OpVolumeBids t' | OpPriceBids t, OpPriceBids t' => same_bid_table t t'
  | OpCapacity l v, OpCapacity l' v' => Permutation l l' /\ v = v'
  | OpUigf l v, OpUigf l' v' => Permutation l l' /\ v = v'
  | OpRamp t s p r v, OpRamp t' s' p' r' v' =>
    same_ramps t t' /\ same_scada s s' /\ same_profiles p p' /\ r = r' /\ v = v'
  | OpFastStart l v, OpFastStart l' v' => Permutation l l' /\ v = v'
  | OpDemand l v, OpDemand l' v' => Permutation l l' /\ v = v'
  | OpFcasReq l v, OpFcasReq l' v' => agreeing l /\ Permutation l l' /\ v = v'
  | OpMaxAvail l v, OpMaxAvail l' v' => Permutation l l' /\ v = v'
  | OpJointRamping l p r v, OpJointRamping l' p' r' v' => Permutation l l' /\ same_profiles p p' /\ r = r' /\ v = v'
  | OpJointCapacity l v, OpJointCapacity l' v' | OpEnergyReg l v, OpEnergyReg l' v' => Permutation l l' /\ v = v'
  | OpInterconnectors l, OpInterconnectors l' => Permutation l l'
  | OpLosses lf bps, OpLosses lf' bps' => Permutation lf lf' /\ Permutation bps bps'
  | OpGeneric l v, OpGeneric l' v' => Permutation l l' /\ v = v'
  | OpLinkUnits l, OpLinkUnits l' => Permutation l l'
  | OpLinkRegions l, OpLinkRegions l' => Permutation l l'
  | OpLinkInters l, OpLinkInters l' => Permutation l l'
  | _, _ => False
  end.

(** The same calls, each with its rows in some order, made in some order. *)
Definition same_calls (ops ops' : list op) : Prop :=
  exists between, Permutation ops between /\ Forall2 same_call between ops'.

(** The same unit information with its rows in another order. *)
Definition same_units (c c' : config) : Prop :=
  Permutation (c_ui c) (c_ui c') /\ c_interval c = c_interval c'.

(** [x] in market [m] and [x'] in market [m'] are the same dispatch: of every band of
    every bid, and over every link, with the same losses. *)
Definition same_dispatch (m : market) (x : assignment) (m' : market) (x' : assignment) : Prop :=
  (forall u s d b, band_dispatch m x u s d b == band_dispatch m' x' u s d b)
  /\ (forall i l, link_flow m x i l == link_flow m' x' i l)
  /\ (forall i l, link_loss m x i l == link_loss m' x' i l).
