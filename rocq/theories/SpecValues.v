(** The values that the docstrings of /repo/src/nempy/markets.py say are refused. *)

From Coq Require Import QArith ZArith String List Bool.
Import ListNotations.
From Verif Require Import PandasModel FrameModel SpecFrame CallModel.
Open Scope string_scope.
Open Scope list_scope.

(** No infinite or null values, no negative ones, none above 1.0. *)
Inductive rule := Real | NotNegative | AtMostOne.
Definition breaks (r : rule) (x : cell) : Prop :=
  match r with
  | Real => x = CPosInf \/ x = CNegInf \/ x = CNaN
  | NotNegative => x = CNegInf \/ exists q, value x = Some q /\ q < 0
  | AtMostOne => x = CPosInf \/ exists q, value x = Some q /\ 1 < q
  end.

Definition real_rules (l : list string) : list (string * rule) := map (fun n => (n, Real)) l.
Definition both_rules (l : list string) : list (string * rule) := flat_map (fun n => [(n, Real); (n, NotNegative)]) l.
Definition bid_bands : list string := ["1"; "2"; "3"; "4"; "5"; "6"; "7"; "8"; "9"; "10"].
Definition trapezium_columns : list string := ["enablement_min"; "low_break_point"; "high_break_point"; "enablement_max"].

(** The documented rules of a call: its tables, with columns and rules.  Some docstrings
    speak of bid bands or of a volume where the table has other columns of numbers; these
    are meant.  /repo/src/nempy/markets.py:254-255, 392-393, 517-518, 632-633, 820-821, 1018-1019,
    1134-1135, 1239-1240, 1337-1338, 1502-1503, 1718-1719, 1854-1855, 1981-1982, 2200-2202,
    2353-2354, 2439-2440, 2525-2526, 2602-2603. *)
Definition rules (c : fcall) : list (frame * list (string * rule)) :=
  match c with
  | FVolumeBids f => [(f, both_rules bid_bands)]
  | FPriceBids f => [(f, real_rules bid_bands)]
  | FCapacity f _ | FUigf f _ => [(f, both_rules ["capacity"])]
  | FRamp f _ _ _ _ => [(f, both_rules ["initial_output"; "ramp_up_rate"; "ramp_down_rate"])]
  | FFastStart f _ => [(f, both_rules ["end_mode"; "time_in_end_mode"; "mode_two_length"; "mode_four_length"; "min_loading"])]
  | FDemand f _ => [(f, both_rules ["demand"])]
  | FFcasReq f _ => [(f, both_rules ["volume"])]
  | FMaxAvail f _ => [(f, both_rules ["max_availability"])]
  | FJointRamping f _ _ _ => [(f, both_rules ["initial_output"; "scada_ramp_up_rate"; "scada_ramp_down_rate"])]
  | FJointCapacity f _ | FEnergyReg f _ => [(f, both_rules ("max_availability" :: trapezium_columns))]
  | FInterconnectors f => [(f, real_rules ["max"; "min"])]
  | FLosses lf bps => [(lf, both_rules ["from_region_loss_share"] ++ [("from_region_loss_share", AtMostOne)]); (bps, real_rules ["break_point"])]
  | FGeneric f _ => [(f, real_rules ["rhs"])]
  | FLinkUnits f | FLinkRegions f | FLinkInters f => [(f, real_rules ["coefficient"])]
  | FRemoveFastStart | FElastic _ _ | FTieBreak _ => []
  end.

(** A table of the call breaks a documented rule. *)
Definition breaks_rule (c : fcall) (n : string) (r : rule) : Prop :=
  exists f l i x, In (f, l) (rules c) /\ In (n, r) l /\ holds f n i x /\ breaks r x.

(** The rules that the code does not check. *)
Definition unchecked (c : fcall) : list (string * rule) :=
  match c with
  | FCapacity _ _ | FUigf _ _ => both_rules ["capacity"]
  | FRamp _ _ _ _ _ => map (fun n => (n, NotNegative)) ["initial_output"; "ramp_up_rate"; "ramp_down_rate"]
  | FDemand _ _ => [("demand", NotNegative)]
  | FFcasReq _ _ => [("volume", NotNegative)]
  | FJointRamping _ _ _ _ => both_rules ["initial_output"; "scada_ramp_up_rate"; "scada_ramp_down_rate"]
  | FJointCapacity _ _ | FEnergyReg _ _ => map (fun n => (n, NotNegative)) trapezium_columns
  | FLosses _ _ => [("from_region_loss_share", AtMostOne)]
  | _ => []
  end.
