(** The columns of the tables and their types as the docstrings of
    /repo/src/nempy/markets.py have them. *)

From Coq Require Import QArith ZArith String List Bool.
Import ListNotations.
From Verif Require Import PandasModel FrameModel SpecFrame CallModel.
Open Scope string_scope.
Open Scope list_scope.

(** The types: `str`, `np.float64`, `np.int64` and `callable`. *)
Inductive kind := KText | KFloat | KInt | KFunction.
Definition of_kind (k : kind) (c : column) : Prop :=
  match k with
  | KText => forall x, In x (cl_cells c) -> exists s, x = CStr s
  | KFloat => cl_dtype c = DFloat
  | KInt => cl_dtype c = DInt
  | KFunction => forall x, In x (cl_cells c) -> exists g, x = CFun g
  end.

(** The columns a table must have, and those that are optional. *)
Record doc := Doc { d_must : list (string * kind); d_may : list (string * kind) }.
Definition doc_names (l : list (string * kind)) : list string := map fst l.

(** A table as documented. *)
Definition as_documented (d : doc) (f : frame) : Prop :=
  (forall n, In n (doc_names (d_must d)) -> In n (names f))
  /\ forall c, In c (fm_cols f) -> exists k, In (cl_name c, k) (d_must d ++ d_may d) /\ of_kind k c.

(** The dispatch type must be provided if it is given in the unit information and
    cannot be provided otherwise. *)
Definition dispatch_type_if (req : bool) : list (string * kind) := if req then [("dispatch_type", KText)] else [].
Definition floats (l : list string) : list (string * kind) := map (fun n => (n, KFloat)) l.
Definition texts (l : list string) : list (string * kind) := map (fun n => (n, KText)) l.

(** /repo/src/nempy/markets.py:56-68.  [fixed]: the docstring says np.int64, the code asks for
    np.float64. *)
Definition doc_units (fixed : bool) : doc :=
  Doc (texts ["unit"; "region"]) [("dispatch_type", KText); ("loss_factor", if fixed then KFloat else KInt)].

(** /repo/src/nempy/markets.py:222-240, 359-376. *)
Definition doc_bids (req : bool) : doc :=
  Doc (texts ["unit"] ++ dispatch_type_if req ++ floats ["1"])
      (texts ["service"] ++ floats ["2"; "3"; "4"; "5"; "6"; "7"; "8"; "9"; "10"]).
(** /repo/src/nempy/markets.py:488-498, 607-613. *)
Definition doc_limits (req : bool) : doc := Doc (texts ["unit"] ++ dispatch_type_if req ++ floats ["capacity"]) [].
Definition doc_forecast : doc := Doc (texts ["unit"] ++ floats ["capacity"]) [].
(** /repo/src/nempy/markets.py:734-764. *)
Definition doc_ramp (req : bool) : doc :=
  Doc (texts ["unit"] ++ dispatch_type_if req ++ floats ["initial_output"; "ramp_up_rate"; "ramp_down_rate"]) [].
Definition doc_scada : doc := Doc (texts ["unit"]) (floats ["scada_ramp_up_rate"; "scada_ramp_down_rate"]).
(** /repo/src/nempy/markets.py:770-797, 1452-1479.  The second table is headed
    'fast_start_first_run' too; it is the one of the second run.  [fixed]: the time since mode
    two is documented as int. *)
Definition doc_profiles (fixed : bool) (run_type : string) : doc :=
  if String.eqb run_type "fast_start_first_run" then Doc (texts ["unit"] ++ [("current_mode", KInt)]) []
  else if String.eqb run_type "fast_start_second_run"
  then Doc (texts ["unit"] ++ [("end_mode", KInt); ("time_since_end_of_mode_two", if fixed then KFloat else KInt)]
            ++ floats ["min_loading"]) []
  else Doc (texts ["unit"]) [].
(** /repo/src/nempy/markets.py:985-1003.  [fixed]: three columns are documented as np.int64. *)
Definition doc_fast_start (fixed : bool) : doc :=
  Doc (texts ["unit"] ++ [("end_mode", KInt)]
       ++ map (fun n => (n, if fixed then KFloat else KInt)) ["time_in_end_mode"; "mode_two_length"; "mode_four_length"]
       ++ floats ["min_loading"]) [].
(** /repo/src/nempy/markets.py:1111-1117, 1208-1222, 1309-1320. *)
Definition doc_demand : doc := Doc (texts ["region"] ++ floats ["demand"]) [].
Definition doc_requirement : doc := Doc (texts ["set"; "service"; "region"] ++ floats ["volume"]) (texts ["type"]).
Definition doc_availability : doc := Doc (texts ["unit"; "service"] ++ floats ["max_availability"]) (texts ["dispatch_type"]).
(** /repo/src/nempy/markets.py:1434-1447.  [fixed]: the rates are documented as optional. *)
Definition doc_joint_rates (fixed : bool) : doc :=
  let rates := floats ["scada_ramp_up_rate"; "scada_ramp_down_rate"] in
  Doc (texts ["unit"] ++ floats ["initial_output"] ++ if fixed then rates else []) (if fixed then [] else rates).
(** /repo/src/nempy/markets.py:1672-1700, 1808-1836. *)
Definition doc_trapeziums : doc :=
  Doc (texts ["unit"; "service"]
       ++ floats ["max_availability"; "enablement_min"; "low_break_point"; "high_break_point"; "enablement_max"])
      (texts ["dispatch_type"]).
(** /repo/src/nempy/markets.py:1936-1964. *)
Definition doc_interconnectors : doc :=
  Doc (texts ["interconnector"; "to_region"; "from_region"] ++ floats ["max"; "min"])
      (floats ["from_region_loss_factor"; "to_region_loss_factor"]).
(** /repo/src/nempy/markets.py:2159-2184.  [fixed]: the loss segment is documented as np.float64. *)
Definition doc_loss_functions : doc :=
  Doc (texts ["interconnector"] ++ floats ["from_region_loss_share"] ++ [("loss_function", KFunction)]) [].
Definition doc_break_points (fixed : bool) : doc :=
  Doc (texts ["interconnector"] ++ [("loss_segment", if fixed then KInt else KFloat)] ++ floats ["break_point"]) [].
(** /repo/src/nempy/markets.py:2327-2335, 2419-2429, 2505-2515, 2584-2591. *)
Definition doc_generic : doc := Doc (texts ["set"; "type"] ++ floats ["rhs"]) [].
Definition doc_unit_terms : doc := Doc (texts ["set"; "unit"; "service"] ++ floats ["coefficient"]) [].
Definition doc_region_terms : doc := Doc (texts ["set"; "region"; "service"] ++ floats ["coefficient"]) [].
Definition doc_inter_terms : doc := Doc (texts ["set"; "interconnector"] ++ floats ["coefficient"]) [].

(** The tables of a call with their documentation.  The profiles are not needed in a run
    without fast start units. *)
Definition doc_table := (doc * frame)%type.
Definition profile_docs (fixed : bool) (run_type : string) (p : option frame) : list doc_table :=
  match p with
  | Some f => if String.eqb run_type "no_fast_start_units" then [] else [(doc_profiles fixed run_type, f)]
  | None => []
  end.
Definition docs (fixed req : bool) (c : fcall) : list doc_table :=
  match c with
  | FVolumeBids f | FPriceBids f => [(doc_bids req, f)]
  | FCapacity f _ => [(doc_limits req, f)]
  | FUigf f _ => [(doc_forecast, f)]
  | FRamp f s p r _ =>
      (doc_ramp req, f) :: profile_docs fixed r p ++ match s with Some s => [(doc_scada, s)] | None => [] end
  | FFastStart f _ => [(doc_fast_start fixed, f)]
  | FDemand f _ => [(doc_demand, f)]
  | FFcasReq f _ => [(doc_requirement, f)]
  | FMaxAvail f _ => [(doc_availability, f)]
  | FJointRamping f p r _ => (doc_joint_rates fixed, f) :: profile_docs fixed r p
  | FJointCapacity f _ | FEnergyReg f _ => [(doc_trapeziums, f)]
  | FInterconnectors f => [(doc_interconnectors, f)]
  | FLosses lf bps => [(doc_loss_functions, lf); (doc_break_points fixed, bps)]
  | FGeneric f _ => [(doc_generic, f)]
  | FLinkUnits f => [(doc_unit_terms, f)]
  | FLinkRegions f => [(doc_region_terms, f)]
  | FLinkInters f => [(doc_inter_terms, f)]
  | FRemoveFastStart | FElastic _ _ | FTieBreak _ => []
  end.
Definition all_documented (fixed req : bool) (c : fcall) : Prop :=
  Forall (fun t : doc_table => as_documented (fst t) (snd t)) (docs fixed req c).

(** Columns that the code takes though they are not documented.
    /repo/src/nempy/markets.py:890-893, 1984-1991, 2207-2211. *)
Definition undocumented (c : fcall) : list (string * kind) :=
  match c with
  | FRamp _ _ _ _ _ => floats ["scada_ramp_up_rate"; "scada_ramp_down_rate"]
  | FInterconnectors _ => [("link", KText); ("generic_constraint_factor", KInt)]
  | FLosses _ _ => [("link", KText)]
  | _ => []
  end.
Definition or_undocumented (c : fcall) (d : doc) : doc := Doc (d_must d) (d_may d ++ undocumented c).

(** Calls whose tables are not documented correctly. *)
Definition well_documented (c : fcall) : Prop :=
  match c with
  | FFastStart _ _ | FJointRamping _ _ _ _ | FLosses _ _ => False
  | FRamp _ _ (Some _) r _ => r <> "fast_start_second_run"
  | _ => True
  end.

(** The errors of columns: one that is unknown, missing or not of its type. *)
Definition column_error (e : err) : Prop := e = EUnexpectedColumn \/ e = EMissingColumn \/ e = EDataType.
