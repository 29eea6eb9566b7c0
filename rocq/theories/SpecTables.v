(** What the tables of a call say: the rows they stand for, column by column, stated
    on the cells of the tables as the caller passes them in.  The names of the columns
    and the values assumed for columns that are left out are those of the docstrings of
    /repo/src/nempy/markets.py. *)

From Coq Require Import QArith ZArith String List Bool.
Import ListNotations.
From Verif Require Import PandasModel TablesModel MarketModel FrameModel SpecFrame CallModel.
Open Scope string_scope.
Open Scope list_scope.

(** ** Cells *)

(** The text, the number, the integer or the function in a column of a row. *)
Definition text_in_row (f : frame) (i : nat) (n s : string) : Prop := holds f n i (CStr s).
Definition number_in_row (f : frame) (i : nat) (n : string) (q : Q) : Prop := holds f n i (CNum q).
Definition integer_in_row (f : frame) (i : nat) (n : string) (z : Z) : Prop := holds f n i (CInt z).
Definition function_in_row (f : frame) (i : nat) (n : string) (g : Q -> Q) : Prop := holds f n i (CFun g).

(** The same for columns that may be left out, with the value then assumed. *)
Definition text_or (f : frame) (i : nat) (n d s : string) : Prop :=
  (In n (names f) -> text_in_row f i n s) /\ (~ In n (names f) -> s = d).
Definition number_or (f : frame) (i : nat) (n : string) (d q : Q) : Prop :=
  (In n (names f) -> number_in_row f i n q) /\ (~ In n (names f) -> q = d).
Definition integer_or (f : frame) (i : nat) (n : string) (d z : Z) : Prop :=
  (In n (names f) -> integer_in_row f i n z) /\ (~ In n (names f) -> z = d).

(** A number that may be null. *)
Definition number_or_null (f : frame) (i : nat) (n : string) (q : option Q) : Prop :=
  match q with
  | Some q => number_in_row f i n q
  | None => In n (names f) -> holds f n i CNaN
  end.

(** The rows of a table, in order. *)
Definition row_by_row {A : Type} (f : frame) (P : nat -> A -> Prop) (l : list A) : Prop :=
  length l = fm_rows f /\ forall i a, nth_error l i = Some a -> P i a.

(** ** The tables *)

(** Bids: every column other than the unit, the service and the dispatch type is a
    band.  /repo/src/nempy/markets.py:222-240, 359-376. *)
Definition bids_say (f : frame) (t : bid_table) : Prop :=
  NoDup (bt_bands t)
  /\ (forall b, In b (bt_bands t) <-> In b (names f) /\ b <> "unit" /\ b <> "service" /\ b <> "dispatch_type")
  /\ row_by_row f (fun i r =>
       text_in_row f i "unit" (br_unit r) /\ text_or f i "service" "energy" (br_service r)
       /\ text_or f i "dispatch_type" "generator" (br_dt r)
       /\ forall b, In b (bt_bands t) -> number_in_row f i b (br_val r b)) (bt_rows t).

(** /repo/src/nempy/markets.py:488-498, 607-613. *)
Definition limits_say (f : frame) : list limit_row -> Prop :=
  row_by_row f (fun i r =>
    text_in_row f i "unit" (li_unit r) /\ text_or f i "dispatch_type" "generator" (li_dt r)
    /\ number_in_row f i "capacity" (li_cap r)).
Definition forecast_says (f : frame) : list uigf_row -> Prop :=
  row_by_row f (fun i r => text_in_row f i "unit" (ug_unit r) /\ number_in_row f i "capacity" (ug_cap r)).

(** /repo/src/nempy/markets.py:734-768.  The SCADA rates are also taken from the table of
    bid ramp rates, which the documentation does not say (/repo/src/nempy/markets.py:890-893). *)
Definition has_column (f : frame) (n : string) (b : bool) : Prop := b = true <-> In n (names f).
Definition ramp_rates_say (f : frame) (t : ramp_table) : Prop :=
  has_column f "scada_ramp_up_rate" (rt_has_up t) /\ has_column f "scada_ramp_down_rate" (rt_has_down t)
  /\ row_by_row f (fun i r =>
       text_in_row f i "unit" (rr_unit (ri_row r)) /\ text_or f i "dispatch_type" "generator" (rr_dt (ri_row r))
       /\ number_in_row f i "initial_output" (rr_init (ri_row r))
       /\ number_in_row f i "ramp_up_rate" (rr_up (ri_row r))
       /\ number_in_row f i "ramp_down_rate" (rr_down (ri_row r))
       /\ number_or_null f i "scada_ramp_up_rate" (ri_own_up r)
       /\ number_or_null f i "scada_ramp_down_rate" (ri_own_down r)) (rt_rows t).
Definition scada_rates_say (f : frame) (t : scada_table) : Prop :=
  has_column f "scada_ramp_up_rate" (st_has_up t) /\ has_column f "scada_ramp_down_rate" (st_has_down t)
  /\ row_by_row f (fun i r =>
       text_in_row f i "unit" (sc_unit r)
       /\ number_or_null f i "scada_ramp_up_rate" (sc_up r)
       /\ number_or_null f i "scada_ramp_down_rate" (sc_down r)) (st_rows t).

(** The profiles of a run: the first run has the mode a unit is in, the second the one
    it ends in.  /repo/src/nempy/markets.py:770-797, 1452-1479. *)
Definition profiles_say (run_type : string) (f : frame) : list fs_ramp_row -> Prop :=
  row_by_row f (fun i r =>
    text_in_row f i "unit" (fr_unit r)
    /\ (run_type = "fast_start_first_run" -> integer_in_row f i "current_mode" (fr_current_mode r))
    /\ (run_type = "fast_start_second_run" ->
        integer_in_row f i "end_mode" (fr_end_mode r) /\ number_in_row f i "min_loading" (fr_min_loading r)
        /\ number_or_null f i "time_since_end_of_mode_two" (fr_since_mode_two r))).

(** /repo/src/nempy/markets.py:985-1003. *)
Definition fast_start_says (f : frame) : list fs_row -> Prop :=
  row_by_row f (fun i r =>
    text_in_row f i "unit" (fs_unit r) /\ integer_in_row f i "end_mode" (fs_end_mode r)
    /\ number_in_row f i "time_in_end_mode" (fs_time_in_end_mode r)
    /\ number_in_row f i "mode_two_length" (fs_mode_two_length r)
    /\ number_in_row f i "mode_four_length" (fs_mode_four_length r)
    /\ number_in_row f i "min_loading" (fs_min_loading r)).

(** /repo/src/nempy/markets.py:1111-1117, 1208-1222. *)
Definition demand_says (f : frame) : list demand_row -> Prop :=
  row_by_row f (fun i r => text_in_row f i "region" (de_region r) /\ number_in_row f i "demand" (de_demand r)).
Definition requirement_says (f : frame) : list fcas_req_row -> Prop :=
  row_by_row f (fun i r =>
    text_in_row f i "set" (fq_set r) /\ text_in_row f i "service" (fq_service r)
    /\ text_in_row f i "region" (fq_region r) /\ number_in_row f i "volume" (fq_volume r)
    /\ text_or f i "type" "=" (fq_type r)).

(** /repo/src/nempy/markets.py:1309-1320, 1434-1447, 1672-1700, 1808-1836. *)
Definition availability_says (f : frame) : list max_avail_row -> Prop :=
  row_by_row f (fun i r =>
    text_in_row f i "unit" (ma_unit r) /\ text_in_row f i "service" (ma_service r)
    /\ text_or f i "dispatch_type" "generator" (ma_dt r) /\ number_in_row f i "max_availability" (ma_max r)).
Definition joint_rates_say (f : frame) : list reg_ramp_row -> Prop :=
  row_by_row f (fun i r =>
    text_in_row f i "unit" (rg_unit r) /\ number_in_row f i "initial_output" (rg_init r)
    /\ number_in_row f i "scada_ramp_up_rate" (rg_up r) /\ number_in_row f i "scada_ramp_down_rate" (rg_down r)).
Definition trapeziums_say (f : frame) : list trap_row -> Prop :=
  row_by_row f (fun i r =>
    text_in_row f i "unit" (tz_unit r) /\ text_in_row f i "service" (tz_service r)
    /\ text_or f i "dispatch_type" "generator" (tz_dt r) /\ number_in_row f i "max_availability" (tz_max r)
    /\ number_in_row f i "enablement_min" (tz_emin r) /\ number_in_row f i "low_break_point" (tz_lbp r)
    /\ number_in_row f i "high_break_point" (tz_hbp r) /\ number_in_row f i "enablement_max" (tz_emax r)).

(** A link that is not named is the interconnector itself.
    /repo/src/nempy/markets.py:1936-1964, 2159-2184. *)
Definition link_says (f : frame) (i : nat) (l : string) : Prop :=
  (In "link" (names f) -> text_in_row f i "link" l)
  /\ (~ In "link" (names f) -> text_in_row f i "interconnector" l).
Definition interconnectors_say (f : frame) : list inter_row -> Prop :=
  row_by_row f (fun i r =>
    text_in_row f i "interconnector" (in_inter r) /\ link_says f i (in_link r)
    /\ text_in_row f i "to_region" (in_to r) /\ text_in_row f i "from_region" (in_from r)
    /\ number_in_row f i "max" (in_max r) /\ number_in_row f i "min" (in_min r)
    /\ integer_or f i "generic_constraint_factor" 1 (in_gcf r)
    /\ number_or f i "from_region_loss_factor" 1 (in_from_lf r)
    /\ number_or f i "to_region_loss_factor" 1 (in_to_lf r)).
Definition loss_functions_say (f : frame) : list lossfn_row -> Prop :=
  row_by_row f (fun i r =>
    text_in_row f i "interconnector" (lf_inter r) /\ link_says f i (lf_link r)
    /\ number_in_row f i "from_region_loss_share" (lf_share r) /\ function_in_row f i "loss_function" (lf_fun r)).
Definition break_points_say (f : frame) : list bp_row -> Prop :=
  row_by_row f (fun i r =>
    text_in_row f i "interconnector" (bp_inter r) /\ link_says f i (bp_link r)
    /\ integer_in_row f i "loss_segment" (bp_seg r) /\ number_in_row f i "break_point" (bp_point r)).

(** /repo/src/nempy/markets.py:2327-2335, 2419-2429, 2505-2515, 2584-2591. *)
Definition generics_say (f : frame) : list generic_row -> Prop :=
  row_by_row f (fun i r =>
    text_in_row f i "set" (ge_set r) /\ text_in_row f i "type" (ge_type r) /\ number_in_row f i "rhs" (ge_rhs r)).
Definition unit_terms_say (f : frame) : list gunit_row -> Prop :=
  row_by_row f (fun i r =>
    text_in_row f i "set" (gu_set r) /\ text_in_row f i "unit" (gu_unit r)
    /\ text_in_row f i "service" (gu_service r) /\ number_in_row f i "coefficient" (gu_coef r)).
Definition region_terms_say (f : frame) : list gregion_row -> Prop :=
  row_by_row f (fun i r =>
    text_in_row f i "set" (gr_set r) /\ text_in_row f i "region" (gr_region r)
    /\ text_in_row f i "service" (gr_service r) /\ number_in_row f i "coefficient" (gr_coef r)).
Definition inter_terms_say (f : frame) : list ginter_row -> Prop :=
  row_by_row f (fun i r =>
    text_in_row f i "set" (gi_set r) /\ text_in_row f i "interconnector" (gi_inter r)
    /\ number_in_row f i "coefficient" (gi_coef r)).

(** A violation cost: a number, or a number for each set.
    /repo/src/nempy/markets.py:2640-2700. *)
Definition cost_says (v : fcost) (w : vcost) : Prop :=
  match v, w with
  | FNum q, VNum q' => q' = q
  | FTable f, VTable t =>
      row_by_row f (fun i (r : string * Q) => text_in_row f i "set" (fst r) /\ number_in_row f i "cost" (snd r)) t
  | FOther, VOther => True
  | _, _ => False
  end.

(** Arguments that may be left out. *)
Definition if_given {A B : Type} (P : A -> B -> Prop) (a : option A) (b : option B) : Prop :=
  match a, b with Some a, Some b => P a b | None, None => True | _, _ => False end.
Definition profiles_given (run_type : string) (a : option frame) (b : option (list fs_ramp_row)) : Prop :=
  (run_type <> "no_fast_start_units" -> if_given (profiles_say run_type) a b)
  /\ (run_type = "no_fast_start_units" -> b = None).

(** ** The unit information.  /repo/src/nempy/markets.py:56-73. *)
Definition units_say (f : frame) : list unit_info_row -> Prop :=
  row_by_row f (fun i r =>
    text_in_row f i "unit" (ui_unit r) /\ text_in_row f i "region" (ui_region r)
    /\ number_or f i "loss_factor" 1 (ui_lf r) /\ text_or f i "dispatch_type" "generator" (ui_dt r)).

(** ** The calls *)

Definition says (c : fcall) (o : op) : Prop :=
  match c, o with
  | FVolumeBids f, OpVolumeBids t => bids_say f t
  | FPriceBids f, OpPriceBids t => bids_say f t
  | FCapacity f v, OpCapacity l w => limits_say f l /\ if_given cost_says v w
  | FUigf f v, OpUigf l w => forecast_says f l /\ if_given cost_says v w
  | FRamp f s p r v, OpRamp t s' p' r' w =>
      ramp_rates_say f t /\ if_given scada_rates_say s s' /\ profiles_given r p p' /\ r' = r /\ if_given cost_says v w
  | FFastStart f v, OpFastStart l w => fast_start_says f l /\ if_given cost_says v w
  | FRemoveFastStart, OpRemoveFastStart => True
  | FDemand f v, OpDemand l w => demand_says f l /\ if_given cost_says v w
  | FFcasReq f v, OpFcasReq l w => requirement_says f l /\ if_given cost_says v w
  | FMaxAvail f v, OpMaxAvail l w => availability_says f l /\ if_given cost_says v w
  | FJointRamping f p r v, OpJointRamping l p' r' w =>
      joint_rates_say f l /\ profiles_given r p p' /\ r' = r /\ if_given cost_says v w
  | FJointCapacity f v, OpJointCapacity l w => trapeziums_say f l /\ if_given cost_says v w
  | FEnergyReg f v, OpEnergyReg l w => trapeziums_say f l /\ if_given cost_says v w
  | FInterconnectors f, OpInterconnectors l => interconnectors_say f l
  | FLosses lf bps, OpLosses l b => loss_functions_say lf l /\ break_points_say bps b
  | FGeneric f v, OpGeneric l w => generics_say f l /\ if_given cost_says v w
  | FLinkUnits f, OpLinkUnits l => unit_terms_say f l
  | FLinkRegions f, OpLinkRegions l => region_terms_say f l
  | FLinkInters f, OpLinkInters l => inter_terms_say f l
  | FElastic k v, OpElastic k' w => k' = k /\ cost_says v w
  | FTieBreak v, OpTieBreak w => cost_says v w
  | _, _ => False
  end.

(** ** Real numbers: no cell is infinite, and only rates that may be unknown and the time
    since mode two are null. *)
Definition may_be_null : list string :=
  ["scada_ramp_up_rate"; "scada_ramp_down_rate"; "time_since_end_of_mode_two"].
Definition finite (f : frame) : Prop :=
  forall c x, In c (fm_cols f) -> In x (cl_cells c) ->
    x <> CPosInf /\ x <> CNegInf /\ (x = CNaN -> In (cl_name c) may_be_null).
Definition no_null (f : frame) : Prop := forall c, In c (fm_cols f) -> ~ In CNaN (cl_cells c).
Definition finite_if_given (p : option frame) : Prop := match p with Some f => finite f | None => True end.
Definition finite_args (c : fcall) : Prop :=
  match c with
  | FVolumeBids f | FPriceBids f | FInterconnectors f | FLinkUnits f | FLinkRegions f | FLinkInters f
  | FCapacity f _ | FUigf f _ | FFastStart f _ | FDemand f _ | FFcasReq f _ | FMaxAvail f _
  | FJointCapacity f _ | FEnergyReg f _ | FGeneric f _ => finite f
  | FRamp f s p _ _ => finite f /\ finite_if_given s /\ finite_if_given p
  | FJointRamping f p _ _ => finite f /\ no_null f /\ finite_if_given p
  | FLosses lf bps => finite lf /\ finite bps
  | FRemoveFastStart | FElastic _ _ | FTieBreak _ => True
  end.

(** ** Histories: calls that were all accepted, from one market to another. *)
Inductive calls_accepted (req : bool) : list fcall -> market -> market -> Prop :=
| no_call m : calls_accepted req [] m m
| one_call c cs m m1 c' m' :
    call req c m = Some (m1, None, Some c') -> calls_accepted req cs m1 m' -> calls_accepted req (c :: cs) m m'.
