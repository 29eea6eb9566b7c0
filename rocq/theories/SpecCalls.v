(** The tables of a call with the columns they are to have, and what it means to pass
    tables again. *)

From Coq Require Import QArith ZArith String List Bool.
Import ListNotations.
From Verif Require Import PandasModel TablesModel MarketModel FrameModel SpecFrame CallModel.
Open Scope string_scope.
Open Scope list_scope.

(** The tables a call validates before it changes anything, with their keys and
    columns. *)
Definition table := (list string * list (series * bool) * frame)%type.
Definition profile_table (run_type : string) (m : market) (p : option frame) : list table :=
  match p with
  | Some f => if String.eqb run_type "no_fast_start_units" then [] else [(["unit"], fs_ramp_cols run_type m, f)]
  | None => []
  end.
Definition tables (req : bool) (m : market) (c : fcall) : list table :=
  match c with
  | FVolumeBids f => [(["unit"; "service"; "dispatch_type"], volume_cols req m, f)]
  | FPriceBids f => [(["unit"; "service"; "dispatch_type"], price_cols req m, f)]
  | FCapacity f _ => [(["unit"; "dispatch_type"], limits_cols req m, f)]
  | FUigf f _ => [(["unit"], uigf_cols m, f)]
  | FRamp f s p r _ =>
      (["unit"; "dispatch_type"], ramp_cols req m, f) :: profile_table r m p
      ++ match s with Some s => [(["unit"], scada_cols m, s)] | None => [] end
  | FFastStart f _ => [(["unit"], fs_cols m, f)]
  | FRemoveFastStart => []
  | FDemand f _ => [(["region"], demand_cols m, f)]
  | FFcasReq f _ => [(["set"; "region"; "service"], fcas_req_cols m, f)]
  | FMaxAvail f _ => [(["unit"; "service"; "dispatch_type"], max_avail_cols m, f)]
  | FJointRamping f p r _ => (["unit"], reg_ramp_cols m, f) :: profile_table r m p
  | FJointCapacity f _ => [(["unit"; "service"; "dispatch_type"], trap_cols allowed_contingency m, f)]
  | FEnergyReg f _ => [(["unit"; "service"; "dispatch_type"], trap_cols allowed_regulation m, f)]
  | FInterconnectors f => [(["interconnector"; "link"], inter_cols m, f)]
  | FLosses lf bps =>
      [(["interconnector"; "link"], lossfn_cols, lf);
       (["interconnector"; "link"; "loss_segment"], bp_cols, bps)]
  | FGeneric f _ => [(["set"], generic_cols, f)]
  | FLinkUnits f => [(["set"; "unit"; "service"], gunit_cols m, f)]
  | FLinkRegions f => [(["set"; "region"; "service"], gregion_cols m, f)]
  | FLinkInters f => [(["set"; "interconnector"], ginter_cols, f)]
  | FElastic _ _ | FTieBreak _ => []
  end.
Definition table_fits (t : table) : Prop := let '(keys, cols, f) := t in fits keys cols f.

(** The tables of a ramp rate call also name both sides of every bidirectional unit. *)
Definition both_sides (m : market) (c : fcall) : Prop :=
  match c with FRamp f _ _ _ _ => check_bdu m (named_units f) = None | _ => True end.

(** All arguments of a call are tables. *)
Definition cost_is_table (v : option fcost) : Prop :=
  match v with Some (FTable f) => is_table f | _ => True end.
Definition opt_table (p : option frame) : Prop := match p with Some f => is_table f | None => True end.
Definition args_tables (c : fcall) : Prop :=
  cost_is_table (cost_of_call c)
  /\ match c with
     | FVolumeBids f | FPriceBids f | FInterconnectors f | FLinkUnits f | FLinkRegions f | FLinkInters f
     | FCapacity f _ | FUigf f _ | FFastStart f _ | FDemand f _ | FFcasReq f _ | FMaxAvail f _
     | FJointCapacity f _ | FEnergyReg f _ | FGeneric f _ => is_table f
     | FRamp f s p _ _ => is_table f /\ opt_table s /\ opt_table p
     | FJointRamping f p _ _ => is_table f /\ opt_table p
     | FLosses f g => is_table f /\ is_table g
     | FRemoveFastStart | FElastic _ _ | FTieBreak _ => True
     end.

(** The errors of validation. *)
Definition validation_error (e : err) : Prop :=
  e = EUnexpectedColumn \/ e = EMissingColumn \/ e = EDataType \/ e = EColumnValues \/ e = ERepeatedRow.

(** The table of violation costs, if one is given, is in order. *)
Definition cost_fits (v : option fcost) : Prop :=
  match v with Some (FTable f) => fits ["set"; "cost"] vcost_cols f | _ => True end.

(** The same call without a violation cost. *)
Definition without_cost (c : fcall) : fcall :=
  match c with
  | FCapacity f _ => FCapacity f None
  | FUigf f _ => FUigf f None
  | FRamp f s p r _ => FRamp f s p r None
  | FFastStart f _ => FFastStart f None
  | FDemand f _ => FDemand f None
  | FFcasReq f _ => FFcasReq f None
  | FMaxAvail f _ => FMaxAvail f None
  | FJointRamping f p r _ => FJointRamping f p r None
  | FJointCapacity f _ => FJointCapacity f None
  | FEnergyReg f _ => FEnergyReg f None
  | FGeneric f _ => FGeneric f None
  | _ => c
  end.
Definition has_plain_form (c : fcall) : Prop :=
  match c with FElastic _ _ | FTieBreak _ => False | _ => True end.

(** Calls whose tables may be passed again: all but the unit limits and the forecast,
    and of bids and ramp rates those in a market that asks for dispatch types. *)
Definition reusable (req : bool) (c : fcall) : Prop :=
  match c with
  | FCapacity _ _ | FUigf _ _ => False
  | FVolumeBids _ | FPriceBids _ | FRamp _ _ _ _ _ => req = true
  | _ => True
  end.

(** What a call does, leaving aside what becomes of its arguments. *)
Definition does (r : option reply) : option (market * option err) := option_map fst r.
