(** The calls of markets.py on the untyped tables the caller passes in: the schemas,
    the columns that are added to the caller's tables and the reading of a table as
    typed rows.  Definitions only. *)

From Coq Require Import QArith ZArith String List Bool.
Import ListNotations.
From Verif Require Import PandasModel TablesModel MarketModel FrameModel.
Open Scope string_scope.
Open Scope list_scope.

(** ** The schemas *)

(** [dv.SeriesSchema] with the options nempy uses.
    /repo/src/nempy/spot_market_backend/dataframe_validator.py:50-58. *)
Definition text (n : string) : series := Series n TStr None false false.
(** A column of texts from a list.
    /repo/src/nempy/spot_market_backend/dataframe_validator.py:66-79,
    /repo/src/nempy/markets.py:143-144. *)
Definition text_in (n : string) (l : list string) : series := Series n TStr (Some (map CStr l)) false false.
(** A column of floats.  /repo/src/nempy/spot_market_backend/dataframe_validator.py:66-74. *)
Definition number (n : string) : series := Series n TFloat None false false.
(** A column of floats without NaN and infinities.
    /repo/src/nempy/spot_market_backend/dataframe_validator.py:66-74, 81-88. *)
Definition real (n : string) : series := Series n TFloat None true false.
(** The same without negative numbers.  /repo/src/nempy/spot_market_backend/dataframe_validator.py:66-74, 81-93. *)
Definition real_pos (n : string) : series := Series n TFloat None true true.

(** A schema from its columns, in the order they are added.  The second component
    says that a column is optional.
    /repo/src/nempy/spot_market_backend/dataframe_validator.py:13-16. *)
Definition make_schema (keys : list string) (cols : list (series * bool)) : schema :=
  fold_left (fun s (c : series * bool) => add_column (fst c) (snd c) s) cols (new_schema (Some keys)).
(** A column that has to be there.  /repo/src/nempy/spot_market_backend/dataframe_validator.py:13-16. *)
Definition must (c : series) : series * bool := (c, false).
(** A column that may be missing.  /repo/src/nempy/spot_market_backend/dataframe_validator.py:13-16. *)
Definition may (c : series) : series * bool := (c, true).

(** What a schema depends on: the market, and the flag [dispatch_type_required].
    /repo/src/nempy/markets.py:124-131. *)
Definition units (m : market) : list string := map ui_unit (c_ui (m_cfg m)).
(** The regions.  /repo/src/nempy/markets.py:110. *)
Definition regions (m : market) : list string := c_regions (m_cfg m).
(** The column dispatch_type.  /repo/src/nempy/markets.py:111, 147. *)
Definition dt_col : series := text_in "dispatch_type" allowed_dt.
(** The same, where the table of units has that column.  /repo/src/nempy/markets.py:127-131, 272-273. *)
Definition dt_if (req : bool) : list (series * bool) := if req then [must dt_col] else [].
(** The bands of a bid after the first.  /repo/src/nempy/markets.py:278-280. *)
Definition more_bands : list string := tl allowed_bands.

(** /repo/src/nempy/markets.py:141-148. *)
Definition unit_info_cols (rs : list string) : list (series * bool) :=
  [must (text "unit"); must (text_in "region" rs); must (real_pos "loss_factor"); must dt_col].
(** As above.  /repo/src/nempy/markets.py:141-148. *)
Definition unit_info_schema (rs : list string) : schema :=
  make_schema ["unit"; "dispatch_type"] (unit_info_cols rs).

(** /repo/src/nempy/markets.py:269-281. *)
Definition volume_cols (req : bool) (m : market) : list (series * bool) :=
  must (text_in "unit" (units m)) :: dt_if req
  ++ may (text_in "service" allowed_services) :: must (real_pos "1") :: map (fun b => may (real_pos b)) more_bands.
(** As above.  /repo/src/nempy/markets.py:269-281. *)
Definition volume_schema (req : bool) (m : market) : schema :=
  make_schema ["unit"; "service"; "dispatch_type"] (volume_cols req m).

(** /repo/src/nempy/markets.py:406-418. *)
Definition price_cols (req : bool) (m : market) : list (series * bool) :=
  must (text_in "unit" (units m)) :: may (text_in "service" allowed_services) :: dt_if req
  ++ must (real "1") :: map (fun b => may (real b)) more_bands.
(** As above.  /repo/src/nempy/markets.py:406-418. *)
Definition price_schema (req : bool) (m : market) : schema :=
  make_schema ["unit"; "service"; "dispatch_type"] (price_cols req m).

(** /repo/src/nempy/markets.py:534-540. *)
Definition limits_cols (req : bool) (m : market) : list (series * bool) :=
  must (text_in "unit" (units m)) :: dt_if req ++ [must (number "capacity")].
(** As above.  /repo/src/nempy/markets.py:534-540. *)
Definition limits_schema (req : bool) (m : market) : schema :=
  make_schema ["unit"; "dispatch_type"] (limits_cols req m).

(** /repo/src/nempy/markets.py:645-649. *)
Definition uigf_cols (m : market) : list (series * bool) :=
  [must (text_in "unit" (units m)); must (number "capacity")].
(** As above.  /repo/src/nempy/markets.py:645-649. *)
Definition uigf_schema (m : market) : schema := make_schema ["unit"] (uigf_cols m).

(** /repo/src/nempy/markets.py:884-896. *)
Definition ramp_cols (req : bool) (m : market) : list (series * bool) :=
  must (text_in "unit" (units m)) :: must (real "initial_output") :: must (real "ramp_up_rate")
  :: must (real "ramp_down_rate") :: may (number "scada_ramp_up_rate") :: may (number "scada_ramp_down_rate")
  :: dt_if req.
(** As above.  /repo/src/nempy/markets.py:884-896. *)
Definition ramp_schema (req : bool) (m : market) : schema :=
  make_schema ["unit"; "dispatch_type"] (ramp_cols req m).

(** /repo/src/nempy/markets.py:898-905. *)
Definition scada_cols (m : market) : list (series * bool) :=
  [must (text_in "unit" (units m)); may (number "scada_ramp_up_rate"); may (number "scada_ramp_down_rate")].
(** As above.  /repo/src/nempy/markets.py:898-905. *)
Definition scada_schema (m : market) : schema := make_schema ["unit"] (scada_cols m).

(** /repo/src/nempy/markets.py:907-921. *)
Definition fs_ramp_cols (run_type : string) (m : market) : list (series * bool) :=
  must (text_in "unit" (units m))
  :: (if String.eqb run_type "fast_start_first_run" then [must (Series "current_mode" TInt None true true)]
      else if String.eqb run_type "fast_start_second_run"
      then [must (Series "end_mode" TInt None true true); must (real_pos "min_loading");
            must (Series "time_since_end_of_mode_two" TFloat None false true)]
      else []).
(** As above.  /repo/src/nempy/markets.py:907-921. *)
Definition fs_ramp_schema (run_type : string) (m : market) : schema :=
  make_schema ["unit"] (fs_ramp_cols run_type m).

(** /repo/src/nempy/markets.py:1049-1062. *)
Definition fs_cols (m : market) : list (series * bool) :=
  [must (text_in "unit" (units m)); must (Series "end_mode" TInt None true true); must (real_pos "time_in_end_mode");
   must (real_pos "mode_two_length"); must (real_pos "mode_four_length"); must (real_pos "min_loading")].
(** As above.  /repo/src/nempy/markets.py:1049-1062. *)
Definition fs_schema (m : market) : schema := make_schema ["unit"] (fs_cols m).

(** /repo/src/nempy/markets.py:1147-1151. *)
Definition demand_cols (m : market) : list (series * bool) :=
  [must (text_in "region" (regions m)); must (real "demand")].
(** As above.  /repo/src/nempy/markets.py:1147-1151. *)
Definition demand_schema (m : market) : schema := make_schema ["region"] (demand_cols m).

(** /repo/src/nempy/markets.py:1252-1260. *)
Definition fcas_req_cols (m : market) : list (series * bool) :=
  [must (text_in "region" (regions m)); must (text "set"); must (text_in "service" allowed_services);
   must (real "volume"); may (text_in "type" allowed_types)].
(** As above.  /repo/src/nempy/markets.py:1252-1260. *)
Definition fcas_req_schema (m : market) : schema := make_schema ["set"; "region"; "service"] (fcas_req_cols m).

(** /repo/src/nempy/markets.py:1351-1359. *)
Definition max_avail_cols (m : market) : list (series * bool) :=
  [must (text_in "unit" (units m)); must (text_in "service" allowed_fcas); must (real_pos "max_availability");
   may dt_col].
(** As above.  /repo/src/nempy/markets.py:1351-1359. *)
Definition max_avail_schema (m : market) : schema :=
  make_schema ["unit"; "service"; "dispatch_type"] (max_avail_cols m).

(** /repo/src/nempy/markets.py:1603-1609. *)
Definition reg_ramp_cols (m : market) : list (series * bool) :=
  [must (text_in "unit" (units m)); must (number "initial_output"); must (number "scada_ramp_up_rate");
   must (number "scada_ramp_down_rate")].
(** As above.  /repo/src/nempy/markets.py:1603-1609. *)
Definition reg_ramp_schema (m : market) : schema := make_schema ["unit"] (reg_ramp_cols m).

(** /repo/src/nempy/markets.py:1732-1745, 1871-1884. *)
Definition trap_cols (services : list string) (m : market) : list (series * bool) :=
  [must (text_in "unit" (units m)); must (text_in "service" services); must (real_pos "max_availability");
   must (real "enablement_min"); must (real "low_break_point"); must (real "high_break_point");
   must (real "enablement_max"); may dt_col].
(** As above.  /repo/src/nempy/markets.py:1732-1745, 1871-1884. *)
Definition trap_schema (services : list string) (m : market) : schema :=
  make_schema ["unit"; "service"; "dispatch_type"] (trap_cols services m).

(** /repo/src/nempy/markets.py:2003-2017. *)
Definition inter_cols (m : market) : list (series * bool) :=
  [must (text "interconnector"); must (text "link"); must (text_in "to_region" (regions m));
   must (text_in "from_region" (regions m)); must (real "max"); must (real "min");
   must (Series "generic_constraint_factor" TInt (Some [CInt 1; CInt (-1)]) false false);
   must (real_pos "from_region_loss_factor"); must (real_pos "to_region_loss_factor")].
(** As above.  /repo/src/nempy/markets.py:2003-2017. *)
Definition inter_schema (m : market) : schema := make_schema ["interconnector"; "link"] (inter_cols m).

(** /repo/src/nempy/markets.py:2266-2274. *)
Definition lossfn_cols : list (series * bool) :=
  [must (text "interconnector"); must (text "link"); must (Series "loss_function" TCallable None false false);
   must (real_pos "from_region_loss_share")].
(** As above.  /repo/src/nempy/markets.py:2266-2274. *)
Definition lossfn_schema : schema := make_schema ["interconnector"; "link"] lossfn_cols.

(** /repo/src/nempy/markets.py:2276-2284. *)
Definition bp_cols : list (series * bool) :=
  [must (text "interconnector"); must (text "link"); must (Series "loss_segment" TInt None false false);
   must (real "break_point")].
(** As above.  /repo/src/nempy/markets.py:2276-2284. *)
Definition bp_schema : schema := make_schema ["interconnector"; "link"; "loss_segment"] bp_cols.

(** /repo/src/nempy/markets.py:2365-2371. *)
Definition generic_cols : list (series * bool) := [must (text "set"); must (text "type"); must (real "rhs")].
(** As above.  /repo/src/nempy/markets.py:2365-2371. *)
Definition generic_schema : schema := make_schema ["set"] generic_cols.

(** /repo/src/nempy/markets.py:2446-2452, 2532-2538, 2609-2614. *)
Definition gunit_cols (m : market) : list (series * bool) :=
  [must (text "set"); must (text_in "unit" (units m)); must (text_in "service" allowed_services);
   must (real "coefficient")].
(** As above.  /repo/src/nempy/markets.py:2446-2452, 2532-2538, 2609-2614. *)
Definition gunit_schema (m : market) : schema := make_schema ["set"; "unit"; "service"] (gunit_cols m).
(** The columns of regional terms.  /repo/src/nempy/markets.py:2532-2538. *)
Definition gregion_cols (m : market) : list (series * bool) :=
  [must (text "set"); must (text_in "region" (regions m)); must (text_in "service" allowed_services);
   must (real "coefficient")].
(** Their schema.  /repo/src/nempy/markets.py:2532-2538. *)
Definition gregion_schema (m : market) : schema := make_schema ["set"; "region"; "service"] (gregion_cols m).
(** The columns of terms of interconnectors.  /repo/src/nempy/markets.py:2609-2614. *)
Definition ginter_cols : list (series * bool) :=
  [must (text "set"); must (text "interconnector"); must (real "coefficient")].
(** Their schema.  /repo/src/nempy/markets.py:2609-2614. *)
Definition ginter_schema : schema := make_schema ["set"; "interconnector"] ginter_cols.

(** /repo/src/nempy/markets.py:2744-2749. *)
Definition vcost_cols : list (series * bool) := [must (text "set"); must (real "cost")].
(** As above.  /repo/src/nempy/markets.py:2744-2749. *)
Definition vcost_schema : schema := make_schema ["set"; "cost"] vcost_cols.

(** ** Columns added to the caller's table *)

(** [if n not in df.columns: df[n] = value].  /repo/src/nempy/markets.py:124-129, 829-830,
    1986-1991, /repo/src/nempy/spot_market_backend/variable_ids.py:129-133, /repo/src/nempy/spot_market_backend/unit_constraints.py:501-505. *)
Definition fill (n : string) (t : dtype) (v : cell) (f : frame) : frame :=
  if mem_str n (names f) then f else Frame (fm_rows f) (fm_cols f ++ [Col n t (repeat v (fm_rows f))]).
(** As above.
    /repo/src/nempy/markets.py:124-129, 829-830, 1986-1991,
    /repo/src/nempy/spot_market_backend/variable_ids.py:129-133,
    /repo/src/nempy/spot_market_backend/unit_constraints.py:501-505. *)
Definition fill_text (n v : string) (f : frame) : frame := fill n DObject (CStr v) f.

(** [if 'link' not in df.columns: df['link'] = df['interconnector']]: KeyError ([None])
    when the table has neither.  /repo/src/nempy/markets.py:1984-1985, 2207-2211. *)
Definition fill_link (f : frame) : option frame :=
  if mem_str "link" (names f) then Some f
  else match col "interconnector" f with
       | Some c => Some (Frame (fm_rows f) (fm_cols f ++ [Col "link" (cl_dtype c) (cl_cells c)]))
       | None => None
       end.

(** ** Reading a table as typed rows

    [None] when a cell does not have the kind the typed model has for it; after
    validation that is so only for NaN and infinities in columns that need not be
    real numbers.
    /repo/src/nempy/markets.py:257-2615. *)

Definition cell_at (n : string) (f : frame) (i : nat) : option cell :=
  match col n f with Some c => nth_error (cl_cells c) i | None => None end.
(** A text.  /repo/src/nempy/spot_market_backend/dataframe_validator.py:66-74. *)
Definition str_at (n : string) (f : frame) (i : nat) : option string :=
  match cell_at n f i with Some (CStr s) => Some s | _ => None end.
(** A float.  /repo/src/nempy/spot_market_backend/dataframe_validator.py:66-74. *)
Definition num_at (n : string) (f : frame) (i : nat) : option Q :=
  match cell_at n f i with Some (CNum q) => Some q | _ => None end.
(** A whole number.  /repo/src/nempy/spot_market_backend/dataframe_validator.py:66-74. *)
Definition int_at (n : string) (f : frame) (i : nat) : option Z :=
  match cell_at n f i with Some (CInt z) => Some z | _ => None end.
(** A function.  /repo/src/nempy/spot_market_backend/dataframe_validator.py:66-74. *)
Definition fun_at (n : string) (f : frame) (i : nat) : option (Q -> Q) :=
  match cell_at n f i with Some (CFun g) => Some g | _ => None end.

(** A column that may be missing: the default, or null.
    /repo/src/nempy/markets.py:1984-1991. *)
Definition str_or (d n : string) (f : frame) (i : nat) : option string :=
  if mem_str n (names f) then str_at n f i else Some d.
(** A number that may be missing.  /repo/src/nempy/spot_market_backend/ramp_rate_processing.py:78-85. *)
Definition maybe_num (n : string) (f : frame) (i : nat) : option (option Q) :=
  if mem_str n (names f)
  then match cell_at n f i with Some (CNum q) => Some (Some q) | Some CNaN => Some None | _ => None end
  else Some None.

(** All cells of a column.  /repo/src/nempy/spot_market_backend/dataframe_validator.py:66-93. *)
Fixpoint all_some {A : Type} (l : list (option A)) : option (list A) :=
  match l with
  | [] => Some []
  | Some a :: t => match all_some t with Some t' => Some (a :: t') | None => None end
  | None :: _ => None
  end.
(** All rows of a table.  /repo/src/nempy/spot_market_backend/dataframe_validator.py:18-37. *)
Definition rows_of {A : Type} (mk : nat -> option A) (f : frame) : option (list A) :=
  all_some (map mk (seq 0 (fm_rows f))).

(** One field after the other.
    /repo/src/nempy/spot_market_backend/dataframe_validator.py:18-37. *)
Definition given {A B : Type} (o : option A) (k : A -> option B) : option B :=
  match o with Some a => k a | None => None end.
Notation "'field' x <- o ; k" := (given o (fun x => k)) (at level 200, x name, right associativity).

(** The rows of the tables.  The row types cite the columns,
    /repo/src/nempy/markets.py:141-148, 269-281, 406-418, 534-540, 645-649, 884-921,
    1049-1062, 1147-1151, 1252-1260, 1351-1359, 1603-1609, 1732-1745, 1871-1884,
    2003-2017, 2266-2284, 2365-2371, 2446-2452, 2532-2538, 2609-2614, 2744-2749. *)
Definition read_unit_info (f : frame) : option (list unit_info_row) :=
  rows_of (fun i => field u <- str_at "unit" f i; field r <- str_at "region" f i;
                    field d <- str_at "dispatch_type" f i; field q <- num_at "loss_factor" f i;
                    Some (UnitInfo u r d q)) f.

(** The band columns are those that are no key column.
    /repo/src/nempy/spot_market_backend/variable_ids.py:135-138. *)
Definition bands_of (f : frame) : list string :=
  filter (fun n => negb (mem_str n ["unit"; "service"; "dispatch_type"])) (names f).
(** As above.  /repo/src/nempy/spot_market_backend/variable_ids.py:135-138. *)
Fixpoint band_value (l : list (string * Q)) (b : string) : Q :=
  match l with
  | [] => 0
  | (b', q) :: t => if String.eqb b b' then q else band_value t b
  end.
(** Volume and price bids.
    /repo/src/nempy/markets.py:269-281, 406-418,
    /repo/src/nempy/spot_market_backend/variable_ids.py:129-138. *)
Definition read_bids (f : frame) : option bid_table :=
  field rows <- rows_of (fun i => field u <- str_at "unit" f i; field s <- str_or "energy" "service" f i;
                          field d <- str_or "generator" "dispatch_type" f i;
                          field qs <- all_some (map (fun b => num_at b f i) (bands_of f));
                          Some (BidRow u s d (band_value (combine (bands_of f) qs)))) f;
  Some (BidTable (bands_of f) rows).
(** Capacities.  /repo/src/nempy/markets.py:534-540. *)
Definition read_limits (f : frame) : option (list limit_row) :=
  rows_of (fun i => field u <- str_at "unit" f i; field d <- str_or "generator" "dispatch_type" f i;
                    field q <- num_at "capacity" f i; Some (Limit u d q)) f.
(** Forecasts.  /repo/src/nempy/markets.py:645-649. *)
Definition read_uigf (f : frame) : option (list uigf_row) :=
  rows_of (fun i => field u <- str_at "unit" f i; field q <- num_at "capacity" f i; Some (Uigf u q)) f.
(** Ramp rates.  /repo/src/nempy/markets.py:884-896. *)
Definition read_ramp (f : frame) : option ramp_table :=
  field rows <- rows_of (fun i => field u <- str_at "unit" f i; field d <- str_or "generator" "dispatch_type" f i;
                          field p <- num_at "initial_output" f i; field up <- num_at "ramp_up_rate" f i;
                          field dn <- num_at "ramp_down_rate" f i; field su <- maybe_num "scada_ramp_up_rate" f i;
                          field sd <- maybe_num "scada_ramp_down_rate" f i;
                          Some (RampIn (Ramp u d p up dn) su sd)) f;
  Some (RampTable (mem_str "scada_ramp_up_rate" (names f)) (mem_str "scada_ramp_down_rate" (names f)) rows).
(** SCADA ramp rates.  /repo/src/nempy/markets.py:898-905. *)
Definition read_scada (f : frame) : option scada_table :=
  field rows <- rows_of (fun i => field u <- str_at "unit" f i; field su <- maybe_num "scada_ramp_up_rate" f i;
                          field sd <- maybe_num "scada_ramp_down_rate" f i; Some (Scada u su sd)) f;
  Some (ScadaTable (mem_str "scada_ramp_up_rate" (names f)) (mem_str "scada_ramp_down_rate" (names f)) rows).

(** Only the columns the run uses are read, the others get any value.
    /repo/src/nempy/markets.py:907-921. *)
Definition read_fs_ramp (run_type : string) (f : frame) : option (list fs_ramp_row) :=
  if String.eqb run_type "fast_start_first_run"
  then rows_of (fun i => field u <- str_at "unit" f i; field c <- int_at "current_mode" f i;
                         Some (FsRamp u c 0 0 None)) f
  else if String.eqb run_type "fast_start_second_run"
  then rows_of (fun i => field u <- str_at "unit" f i; field e <- int_at "end_mode" f i;
                         field l <- num_at "min_loading" f i;
                         field t <- maybe_num "time_since_end_of_mode_two" f i;
                         Some (FsRamp u 0 e l t)) f
  else rows_of (fun i => field u <- str_at "unit" f i; Some (FsRamp u 0 0 0 None)) f.
(** Fast start profiles.  /repo/src/nempy/markets.py:1049-1062. *)
Definition read_fs (f : frame) : option (list fs_row) :=
  rows_of (fun i => field u <- str_at "unit" f i; field e <- int_at "end_mode" f i;
                    field t <- num_at "time_in_end_mode" f i; field t2 <- num_at "mode_two_length" f i;
                    field t4 <- num_at "mode_four_length" f i; field l <- num_at "min_loading" f i;
                    Some (Fs u e t t2 t4 l)) f.
(** Demand.  /repo/src/nempy/markets.py:1147-1151. *)
Definition read_demand (f : frame) : option (list demand_row) :=
  rows_of (fun i => field r <- str_at "region" f i; field q <- num_at "demand" f i; Some (Demand r q)) f.
(** FCAS requirements.  /repo/src/nempy/markets.py:1252-1260. *)
Definition read_fcas_req (f : frame) : option (list fcas_req_row) :=
  rows_of (fun i => field s <- str_at "set" f i; field r <- str_at "region" f i; field v <- str_at "service" f i;
                    field q <- num_at "volume" f i; field t <- str_or "=" "type" f i; Some (FcasReq s r v q t)) f.
(** FCAS availabilities.  /repo/src/nempy/markets.py:1351-1359. *)
Definition read_max_avail (f : frame) : option (list max_avail_row) :=
  rows_of (fun i => field u <- str_at "unit" f i; field s <- str_at "service" f i;
                    field d <- str_or "generator" "dispatch_type" f i; field q <- num_at "max_availability" f i;
                    Some (MaxAvail u s d q)) f.
(** Ramp rates of regulation.  /repo/src/nempy/markets.py:1603-1609. *)
Definition read_reg_ramp (f : frame) : option (list reg_ramp_row) :=
  rows_of (fun i => field u <- str_at "unit" f i; field p <- num_at "initial_output" f i;
                    field up <- num_at "scada_ramp_up_rate" f i; field dn <- num_at "scada_ramp_down_rate" f i;
                    Some (RegRamp u p up dn)) f.
(** Trapeziums.  /repo/src/nempy/markets.py:1732-1745, 1871-1884. *)
Definition read_traps (f : frame) : option (list trap_row) :=
  rows_of (fun i => field u <- str_at "unit" f i; field s <- str_at "service" f i;
                    field d <- str_or "generator" "dispatch_type" f i; field x <- num_at "max_availability" f i;
                    field a <- num_at "enablement_min" f i; field b <- num_at "low_break_point" f i;
                    field c <- num_at "high_break_point" f i; field e <- num_at "enablement_max" f i;
                    Some (Trap u s d x a b c e)) f.
(** Interconnectors.  /repo/src/nempy/markets.py:2003-2017. *)
Definition read_inter (f : frame) : option (list inter_row) :=
  rows_of (fun i => field n <- str_at "interconnector" f i; field l <- str_at "link" f i;
                    field t <- str_at "to_region" f i; field r <- str_at "from_region" f i;
                    field a <- num_at "max" f i; field b <- num_at "min" f i;
                    field g <- int_at "generic_constraint_factor" f i;
                    field fl <- num_at "from_region_loss_factor" f i;
                    field tl <- num_at "to_region_loss_factor" f i; Some (Inter n l t r a b g fl tl)) f.
(** Loss functions.  /repo/src/nempy/markets.py:2266-2274. *)
Definition read_lossfn (f : frame) : option (list lossfn_row) :=
  rows_of (fun i => field n <- str_at "interconnector" f i; field l <- str_at "link" f i;
                    field s <- num_at "from_region_loss_share" f i; field g <- fun_at "loss_function" f i;
                    Some (LossFn n l s g)) f.
(** Break points.  /repo/src/nempy/markets.py:2276-2284. *)
Definition read_bps (f : frame) : option (list bp_row) :=
  rows_of (fun i => field n <- str_at "interconnector" f i; field l <- str_at "link" f i;
                    field s <- int_at "loss_segment" f i; field p <- num_at "break_point" f i;
                    Some (Bp n l s p)) f.
(** Generic constraints.  /repo/src/nempy/markets.py:2365-2371. *)
Definition read_generic (f : frame) : option (list generic_row) :=
  rows_of (fun i => field s <- str_at "set" f i; field t <- str_at "type" f i; field q <- num_at "rhs" f i;
                    Some (Generic s t q)) f.
(** Their terms of units.  /repo/src/nempy/markets.py:2446-2452. *)
Definition read_gunit (f : frame) : option (list gunit_row) :=
  rows_of (fun i => field s <- str_at "set" f i; field u <- str_at "unit" f i; field v <- str_at "service" f i;
                    field q <- num_at "coefficient" f i; Some (GUnit s u v q)) f.
(** Their terms of regions.  /repo/src/nempy/markets.py:2532-2538. *)
Definition read_gregion (f : frame) : option (list gregion_row) :=
  rows_of (fun i => field s <- str_at "set" f i; field r <- str_at "region" f i; field v <- str_at "service" f i;
                    field q <- num_at "coefficient" f i; Some (GRegion s r v q)) f.
(** Their terms of interconnectors.  /repo/src/nempy/markets.py:2609-2614. *)
Definition read_ginter (f : frame) : option (list ginter_row) :=
  rows_of (fun i => field s <- str_at "set" f i; field n <- str_at "interconnector" f i;
                    field q <- num_at "coefficient" f i; Some (GInter s n q)) f.
(** Violation costs.  /repo/src/nempy/markets.py:2744-2749. *)
Definition read_vcost (f : frame) : option (list (string * Q)) :=
  rows_of (fun i => field s <- str_at "set" f i; field q <- num_at "cost" f i; Some (s, q)) f.

(** ** The calls *)

(** The argument violation_cost.  /repo/src/nempy/markets.py:2727-2733. *)
Inductive fcost := FNum (q : Q) | FTable (f : frame) | FOther.

(** The market building calls on the tables of the caller.
    /repo/src/nempy/markets.py:150-2853. *)
Inductive fcall :=
| FVolumeBids (f : frame)
| FPriceBids (f : frame)
| FCapacity (f : frame) (v : option fcost)
| FUigf (f : frame) (v : option fcost)
| FRamp (f : frame) (s p : option frame) (run_type : string) (v : option fcost)
| FFastStart (f : frame) (v : option fcost)
| FRemoveFastStart
| FDemand (f : frame) (v : option fcost)
| FFcasReq (f : frame) (v : option fcost)
| FMaxAvail (f : frame) (v : option fcost)
| FJointRamping (f : frame) (p : option frame) (run_type : string) (v : option fcost)
| FJointCapacity (f : frame) (v : option fcost)
| FEnergyReg (f : frame) (v : option fcost)
| FInterconnectors (f : frame)
| FLosses (lf bps : frame)
| FGeneric (f : frame) (v : option fcost)
| FLinkUnits (f : frame)
| FLinkRegions (f : frame)
| FLinkInters (f : frame)
| FElastic (k : string) (v : fcost)
| FTieBreak (v : fcost).

(** Columns added before the tables are validated ([None]: KeyError).
    /repo/src/nempy/markets.py:1984-1991, 2207-2211. *)
Definition before_check (c : fcall) : option fcall :=
  match c with
  | FInterconnectors f =>
      field f' <- fill_link f;
      Some (FInterconnectors
              (fill "generic_constraint_factor" DInt (CInt 1)
                (fill "to_region_loss_factor" DFloat (CNum 1)
                  (fill "from_region_loss_factor" DFloat (CNum 1) f'))))
  | FLosses lf bps =>
      field lf' <- fill_link lf; field bps' <- fill_link bps; Some (FLosses lf' bps')
  | _ => Some c
  end.

(** Columns added after the tables have been validated.
    /repo/src/nempy/spot_market_backend/variable_ids.py:129-133, /repo/src/nempy/spot_market_backend/objective_function.py:13-17,
    /repo/src/nempy/spot_market_backend/unit_constraints.py:501-505, /repo/src/nempy/spot_market_backend/market_constraints.py:173-174, /repo/src/nempy/spot_market_backend/fcas_constraints.py:218-219,
    411-412, /repo/src/nempy/markets.py:829-830.  The other calls work on copies. *)
Definition fill_dt (f : frame) : frame := fill_text "dispatch_type" "generator" f.
(** As above.
    /repo/src/nempy/spot_market_backend/variable_ids.py:129-133,
    /repo/src/nempy/spot_market_backend/objective_function.py:13-17,
    /repo/src/nempy/spot_market_backend/unit_constraints.py:501-505,
    /repo/src/nempy/spot_market_backend/market_constraints.py:173-174,
    /repo/src/nempy/spot_market_backend/fcas_constraints.py:218-219, 411-412,
    /repo/src/nempy/markets.py:829-830. *)
Definition fill_service_dt (f : frame) : frame := fill_dt (fill_text "service" "energy" f).
(** As above.
    /repo/src/nempy/spot_market_backend/variable_ids.py:129-133,
    /repo/src/nempy/spot_market_backend/objective_function.py:13-17,
    /repo/src/nempy/spot_market_backend/unit_constraints.py:501-505,
    /repo/src/nempy/spot_market_backend/market_constraints.py:173-174,
    /repo/src/nempy/spot_market_backend/fcas_constraints.py:218-219, 411-412,
    /repo/src/nempy/markets.py:829-830. *)
Definition after_check (c : fcall) : fcall :=
  match c with
  | FVolumeBids f => FVolumeBids (fill_service_dt f)
  | FPriceBids f => FPriceBids (fill_service_dt f)
  | FCapacity f v => FCapacity (fill_service_dt f) v
  | FUigf f v => FUigf (fill_service_dt f) v
  | FRamp f s p r v => FRamp (fill_dt f) s p r v
  | FFcasReq f v => FFcasReq (fill_text "type" "=" f) v
  | FMaxAvail f v => FMaxAvail (fill_service_dt f) v
  | FJointCapacity f v => FJointCapacity (fill_dt f) v
  | FEnergyReg f v => FEnergyReg (fill_dt f) v
  | _ => c
  end.

(** [_check_unit_volume_bids_set] comes before the validation.
    /repo/src/nempy/markets.py:397, 520, 635. *)
Definition first_check (c : fcall) (m : market) : option err :=
  match c with
  | FPriceBids _ | FCapacity _ _ | FUigf _ _ =>
      match m_bids m with Some _ => None | None => Some EModelBuild end
  | _ => None
  end.

(** The units named by a table.
    /repo/src/nempy/markets.py:289-290. *)
Definition named_units (f : frame) : list string :=
  flat_map (fun i => match str_at "unit" f i with Some u => [u] | None => [] end) (seq 0 (fm_rows f)).

(** The checks of a call in their order: a table against a schema, or any other.
    /repo/src/nempy/markets.py:257, 398, 521, 636, 823-840, 1019-1020, 1138, 1243, 1341,
    1505-1509, 1722, 1858, 1993-1994, 2213-2215, 2354, 2442, 2528, 2605. *)
Definition fs_ramp_check (p : option frame) (run_type : string) (m : market) : option err :=
  match p with
  | Some f => if String.eqb run_type "no_fast_start_units" then None else validate (fs_ramp_schema run_type m) f
  | None => None
  end.
(** As above.
    /repo/src/nempy/markets.py:257, 398, 521, 636, 823-840, 1019-1020, 1138, 1243, 1341, 1505-1509, 1722, 1858, 1993-1994, 2213-2215, 2354, 2442, 2528, 2605. *)
Definition checks (req : bool) (m : market) (c : fcall) : option err :=
  match c with
  | FVolumeBids f => validate (volume_schema req m) f
  | FPriceBids f => validate (price_schema req m) f
  | FCapacity f _ => validate (limits_schema req m) f
  | FUigf f _ => validate (uigf_schema m) f
  | FRamp f s p r _ =>
      or_else (validate (ramp_schema req m) f)
      (or_else (check_bdu m (named_units f))
      (or_else (fs_ramp_check p r m)
      (match s with Some s => validate (scada_schema m) s | None => None end)))
  | FFastStart f _ => validate (fs_schema m) f
  | FRemoveFastStart => None
  | FDemand f _ => validate (demand_schema m) f
  | FFcasReq f _ => validate (fcas_req_schema m) f
  | FMaxAvail f _ => validate (max_avail_schema m) f
  | FJointRamping f p r _ => or_else (validate (reg_ramp_schema m) f) (fs_ramp_check p r m)
  | FJointCapacity f _ => validate (trap_schema allowed_contingency m) f
  | FEnergyReg f _ => validate (trap_schema allowed_regulation m) f
  | FInterconnectors f => validate (inter_schema m) f
  | FLosses lf bps => or_else (validate lossfn_schema lf) (validate bp_schema bps)
  | FGeneric f _ => validate generic_schema f
  | FLinkUnits f => validate (gunit_schema m) f
  | FLinkRegions f => validate (gregion_schema m) f
  | FLinkInters f => validate ginter_schema f
  | FElastic _ _ | FTieBreak _ => None
  end.

(** The violation cost as the typed model has it.  A table that is rejected is
    rejected inside [make_constraints_elastic], in the middle of the call
    (/repo/src/nempy/markets.py:2729-2730); the typed call is then made with a table
    that the typed check rejects at the same place, and its error is replaced by the
    error of the schema. *)
Definition rejected_table : list (string * Q) := [("", 0%Q); ("", 0%Q)].
(** The error of the schema of violation costs.  /repo/src/nempy/markets.py:2729-2730. *)
Definition cost_error (v : option fcost) : option err :=
  match v with Some (FTable f) => validate vcost_schema f | _ => None end.
(** A violation cost.  /repo/src/nempy/markets.py:2727-2733. *)
Definition read_cost (v : fcost) : option vcost :=
  match v with
  | FNum q => Some (VNum q)
  | FOther => Some VOther
  | FTable f => match validate vcost_schema f with
                | None => field t <- read_vcost f; Some (VTable t)
                | Some _ => Some (VTable rejected_table)
                end
  end.
(** An argument that may be left out.  /repo/src/nempy/markets.py:531, 823-840. *)
Definition read_opt {A B : Type} (rd : A -> option B) (o : option A) : option (option B) :=
  match o with None => Some None | Some a => field b <- rd a; Some (Some b) end.

(** The profiles are not looked at in a run without fast start units.
    /repo/src/nempy/spot_market_backend/ramp_rate_processing.py:65-74. *)
Definition read_profiles (run_type : string) (p : option frame) : option (option (list fs_ramp_row)) :=
  if String.eqb run_type "no_fast_start_units" then Some None else read_opt (read_fs_ramp run_type) p.

(** The typed call of a call.  /repo/src/nempy/markets.py:150-2853. *)
Definition cost_of_call (c : fcall) : option fcost :=
  match c with
  | FCapacity _ v | FUigf _ v | FRamp _ _ _ _ v | FFastStart _ v | FDemand _ v | FFcasReq _ v
  | FMaxAvail _ v | FJointRamping _ _ _ v | FJointCapacity _ v | FEnergyReg _ v | FGeneric _ v => v
  | FElastic _ v | FTieBreak v => Some v
  | _ => None
  end.
(** The arguments as typed rows.  /repo/src/nempy/markets.py:150-2853. *)
Definition typed (c : fcall) : option op :=
  match c with
  | FVolumeBids f => field t <- read_bids f; Some (OpVolumeBids t)
  | FPriceBids f => field t <- read_bids f; Some (OpPriceBids t)
  | FCapacity f v => field l <- read_limits f; field v <- read_opt read_cost v; Some (OpCapacity l v)
  | FUigf f v => field l <- read_uigf f; field v <- read_opt read_cost v; Some (OpUigf l v)
  | FRamp f s p r v =>
      field t <- read_ramp f; field s <- read_opt read_scada s; field p <- read_profiles r p;
      field v <- read_opt read_cost v; Some (OpRamp t s p r v)
  | FFastStart f v => field l <- read_fs f; field v <- read_opt read_cost v; Some (OpFastStart l v)
  | FRemoveFastStart => Some OpRemoveFastStart
  | FDemand f v => field l <- read_demand f; field v <- read_opt read_cost v; Some (OpDemand l v)
  | FFcasReq f v => field l <- read_fcas_req f; field v <- read_opt read_cost v; Some (OpFcasReq l v)
  | FMaxAvail f v => field l <- read_max_avail f; field v <- read_opt read_cost v; Some (OpMaxAvail l v)
  | FJointRamping f p r v =>
      field l <- read_reg_ramp f; field p <- read_profiles r p; field v <- read_opt read_cost v;
      Some (OpJointRamping l p r v)
  | FJointCapacity f v => field l <- read_traps f; field v <- read_opt read_cost v; Some (OpJointCapacity l v)
  | FEnergyReg f v => field l <- read_traps f; field v <- read_opt read_cost v; Some (OpEnergyReg l v)
  | FInterconnectors f => field l <- read_inter f; Some (OpInterconnectors l)
  | FLosses lf bps => field l <- read_lossfn lf; field b <- read_bps bps; Some (OpLosses l b)
  | FGeneric f v => field l <- read_generic f; field v <- read_opt read_cost v; Some (OpGeneric l v)
  | FLinkUnits f => field l <- read_gunit f; Some (OpLinkUnits l)
  | FLinkRegions f => field l <- read_gregion f; Some (OpLinkRegions l)
  | FLinkInters f => field l <- read_ginter f; Some (OpLinkInters l)
  | FElastic k v => field v <- read_cost v; Some (OpElastic k v)
  | FTieBreak v => field v <- read_cost v; Some (OpTieBreak v)
  end.

(** A call: the market left behind, the exception, and on success the arguments as
    the caller finds them afterwards.  [None]: the tables hold NaN or infinities the
    typed model has no rows for.  /repo/src/nempy/markets.py:150-2853. *)
Definition reply := (market * option err * option fcall)%type.
(** The call: checks, then the typed call.  /repo/src/nempy/markets.py:150-2853. *)
Definition call (req : bool) (c : fcall) (m : market) : option reply :=
  match first_check c m with
  | Some e => Some (m, Some e, None)
  | None =>
    match before_check c with
    | None => Some (m, Some EKey, None)
    | Some c1 =>
      match checks req m c1 with
      | Some e => Some (m, Some e, None)
      | None =>
        field o <- typed c1;
        match step o m with
        | (m', None) => Some (m', None, Some (after_check c1))
        | (m', Some e) =>
            Some (m', match cost_error (cost_of_call c1) with
                      | Some e' => match e with ERepeatedRow => Some e' | _ => Some e end
                      | None => Some e
                      end, None)
        end
      end
    end
  end.

(** The constructor: the market, the flag and the table as the caller finds it
    afterwards.  /repo/src/nempy/markets.py:92-139. *)
Definition construct (rs : list string) (interval : Q) (f : frame) : option (result (bool * market * frame)) :=
  let req := mem_str "dispatch_type" (names f) in
  let f' := fill_dt (fill "loss_factor" DFloat (CNum 1) f) in
  match validate (unit_info_schema rs) f' with
  | Some e => Some (Err e)
  | None =>
    field l <- read_unit_info f';
    match new_market (Config rs l interval) with
    | Err e => Some (Err e)
    | Ok m => Some (Ok (req, m, f'))
    end
  end.
