(** Model of nempy/historical_inputs/units.py: the class [UnitData], which turns the
    inputs read for an interval into the tables of a market.  Definitions only. *)

From Coq Require Import QArith String List Bool.
Import ListNotations.
From Verif Require Import PandasModel TablesModel MarketModel ReportsModel OffersModel UnitsModel.
Open Scope string_scope.
Open Scope list_scope.

(** ** The inputs *)

(** A row of volume bids as read from the case file, with the ramp rates; a missing
    direction is [None], and so is a missing ramp rate.  Missing volumes and corners
    are not modelled.
    /repo/src/nempy/historical_inputs/xml_cache.py:412-463, /repo/src/nempy/historical_inputs/units.py:77. *)
Record volume_row := Volume {
  vo_duid : string; vo_dir : option string; vo_type : string; vo_max : Q;
  vo_emin : Q; vo_low : Q; vo_high : Q; vo_emax : Q; vo_bands : list Q;
  vo_down : option Q; vo_up : option Q }.

(** A row of unit details: DUID, REGIONID, TRANSMISSIONLOSSFACTOR,
    DISTRIBUTIONLOSSFACTOR and SECONDARY_TLF, [None] for NaN.  CONNECTIONPOINTID is
    selected and dropped again, so it is left out.
    /repo/src/nempy/historical_inputs/units.py:84, 550-579. *)
Record detail := Detail {
  dt_duid : string; dt_region : string; dt_tlf : Q; dt_dlf : Q; dt_second : option Q }.

(** The tables [UnitData] takes from the loader; [in_old] says that the interval is
    before 2023/07/07 13:40.  The fast start profiles are in ModesModel.
    /repo/src/nempy/historical_inputs/units.py:76-84, 145, 674. *)
Record inputs := Inputs {
  in_prices : list price_offer; in_volumes : list volume_row; in_initials : list initial;
  in_uigf : list uigf_row; in_details : list detail; in_agc : list agc_row; in_old : bool }.

(** ** Directions of volume bids *)

(** [_map_direction_to_volume_bids]: a left merge with the price bids on the unit and
    the type of bid, put in front of the rows that have a direction.
    /repo/src/nempy/historical_inputs/units.py:89-101. *)
Definition with_dir (v : volume_row) (d : option string) : volume_row :=
  Volume (vo_duid v) d (vo_type v) (vo_max v) (vo_emin v) (vo_low v) (vo_high v) (vo_emax v) (vo_bands v) (vo_down v) (vo_up v).
(** As above.  /repo/src/nempy/historical_inputs/units.py:89-101. *)
Definition no_dir (v : volume_row) : bool := match vo_dir v with None => true | Some _ => false end.
(** As above.  /repo/src/nempy/historical_inputs/units.py:89-101. *)
Definition map_direction (vs : list volume_row) (ps : list price_offer) : list volume_row :=
  map (fun p => with_dir (fst p) (option_map po_dir (snd p)))
    (merge_left (fun v p => String.eqb (vo_duid v) (po_duid p) && String.eqb (vo_type v) (po_type p))
       (filter no_dir vs) ps)
  ++ filter (fun v => negb (no_dir v)) vs.

(** [self.volume_bids].  /repo/src/nempy/historical_inputs/units.py:78. *)
Definition bids_of (i : inputs) : list volume_row := map_direction (in_volumes i) (in_prices i).

(** ** Names *)

(** [name_map] on the values of the column dispatch_type; a name that is not in it,
    and NaN, are a KeyError.  The map holds further names, which are no directions.
    /repo/src/nempy/historical_inputs/aemo_to_nempy_name_mapping.py:25-26, 53-55. *)
Definition dir_name (d : string) : result string :=
  if String.eqb d "GENERATOR" then Ok "generator" else if String.eqb d "LOAD" then Ok "load" else Err EKey.
(** As above.  /repo/src/nempy/historical_inputs/aemo_to_nempy_name_mapping.py:25-26, 53-55. *)
Definition opt_dir_name (d : option string) : result string :=
  match d with Some x => dir_name x | None => Err EKey end.

(** [service_name_mapping].  /repo/src/nempy/historical_inputs/units.py:71-74. *)
Definition service_names : list (string * string) :=
  [("ENERGY", "energy"); ("RAISEREG", "raise_reg"); ("LOWERREG", "lower_reg"); ("RAISE6SEC", "raise_6s");
   ("RAISE1SEC", "raise_1s"); ("RAISE60SEC", "raise_60s"); ("RAISE5MIN", "raise_5min"); ("LOWER6SEC", "lower_6s");
   ("LOWER1SEC", "lower_1s"); ("LOWER60SEC", "lower_60s"); ("LOWER5MIN", "lower_5min")].
(** As above.  /repo/src/nempy/historical_inputs/units.py:71-74. *)
Definition service_name (s : string) : result string :=
  match dget s service_names with Some n => Ok n | None => Err EKey end.

(** [apply] of a function that may raise to the rows of a table.
    /repo/src/nempy/historical_inputs/units.py:1003, 1075, 1143. *)
Fixpoint each {A B : Type} (f : A -> result B) (l : list A) : result (list B) :=
  match l with
  | [] => Ok []
  | a :: t => bind (f a) (fun b => bind (each f t) (fun bs => Ok (b :: bs)))
  end.

(** ** Unit info *)

(** The loss factor: the secondary one for the generation side of two-way units that
    have one.  /repo/src/nempy/historical_inputs/units.py:569-575. *)
Definition loss_factor (t dir : string) (d : detail) : Q :=
  match dt_second d with
  | Some q => if String.eqb dir "GENERATOR" && String.eqb t "BIDIRECTIONAL" then q * dt_dlf d else dt_tlf d * dt_dlf d
  | None => dt_tlf d * dt_dlf d
  end.

(** [get_unit_info].  /repo/src/nempy/historical_inputs/units.py:550-579. *)
Definition unit_info (i : inputs) : result (list unit_info_row) :=
  let directions := drop_duplicates (fun a b => String.eqb (fst a) (fst b) && String.eqb (snd a) (snd b))
                      (map (fun p => (po_duid p, po_dir p)) (in_prices i)) in
  let details := merge (fun x d => String.eqb (fst x) (dt_duid d)) directions (in_details i) in
  let merged := merge (fun t x => String.eqb (OffersModel.ic_duid t) (fst (fst x))) (in_initials i) details in
  each (fun m => let '(t, ((u, dir), d)) := m in
          bind (dir_name dir) (fun n => Ok (UnitInfo u (dt_region d) n (loss_factor (OffersModel.ic_type t) dir d)))) merged.

(** ** Limits and ramp rates *)

(** [get_unit_bid_availability].
    /repo/src/nempy/historical_inputs/units.py:142-158. *)
Definition bid_availability (i : inputs) : result (list limit_row) :=
  each (fun v => bind (opt_dir_name (vo_dir v)) (fun n => Ok (Limit (vo_duid v) n (vo_max v))))
    (filter (fun v => negb (in_old i && mem_str (vo_duid v) (map ug_unit (in_uigf i))))
       (filter (fun v => String.eqb (vo_type v) "ENERGY") (bids_of i))).

(** [get_unit_uigf_limits]: only the names of the columns change.
    /repo/src/nempy/historical_inputs/units.py:198-199. *)
Definition uigf_limits (i : inputs) : list uigf_row := in_uigf i.

(** A row of [get_bid_ramp_rates]: unit, dispatch type, rates down and up and the
    initial output.  /repo/src/nempy/historical_inputs/units.py:244-251. *)
Record bid_ramp := BidRamp {
  bm_unit : string; bm_dt : string; bm_down : option Q; bm_up : option Q; bm_initial : option Q }.
(** As above.  /repo/src/nempy/historical_inputs/units.py:244-251. *)
Definition bid_ramp_rates (i : inputs) : result (list bid_ramp) :=
  each (fun p => bind (opt_dir_name (vo_dir (fst p))) (fun n =>
                 Ok (BidRamp (vo_duid (fst p)) n (vo_down (fst p)) (vo_up (fst p)) (ic_mw (snd p)))))
    (filter (fun p => String.eqb (vo_type (fst p)) "ENERGY")
       (merge (fun v t => String.eqb (vo_duid v) (OffersModel.ic_duid t)) (bids_of i) (in_initials i))).

(** [get_scada_ramp_rates]: rows with a rate.
    /repo/src/nempy/historical_inputs/units.py:300-313. *)
Record scada_rate := ScadaRate { sr_unit : string; sr_down : option Q; sr_up : option Q; sr_initial : option Q }.
(** As above.  /repo/src/nempy/historical_inputs/units.py:300-313. *)
Definition no_rate (r : scada_rate) : bool :=
  match sr_up r, sr_down r with None, None => true | _, _ => false end.
(** As above.  /repo/src/nempy/historical_inputs/units.py:300-313. *)
Definition scada_rates (i : inputs) : list scada_rate :=
  filter (fun r => negb (no_rate r))
    (map (fun t => ScadaRate (OffersModel.ic_duid t) (ic_down t) (ic_up t) (ic_mw t)) (in_initials i)).

(** [get_initial_unit_output].  /repo/src/nempy/historical_inputs/units.py:353-355. *)
Definition initial_output (i : inputs) : list (string * option Q) :=
  map (fun t => (OffersModel.ic_duid t, ic_mw t)) (in_initials i).

(** ** Processed bids *)

(** A volume bid without its ramp rates.  A missing direction becomes the empty name,
    which is no direction either; pandas would match it with the missing directions
    of the forecasts.  /repo/src/nempy/historical_inputs/units.py:666. *)
Definition offer_of (v : volume_row) : offer :=
  Offer (vo_duid v) (match vo_dir v with Some d => d | None => "" end) (vo_type v) (vo_max v)
    (vo_emin v) (vo_low v) (vo_high v) (vo_emax v) (vo_bands v).

(** The ten bands of a row under their new names; a row with fewer bands does not
    occur in a table of ten columns.
    /repo/src/nempy/historical_inputs/units.py:1071-1074, 1139-1142. *)
Definition band_value (bands : list Q) (b : string) : Q :=
  match dget b (combine ten_bands bands) with Some q => q | None => 0 end.

(** [_format_volume_bids] and [_format_price_bids].
    /repo/src/nempy/historical_inputs/units.py:1071-1077, 1139-1145. *)
Definition named_bid (u s d : string) (bands : list Q) : result TablesModel.bid_row :=
  bind (service_name s) (fun sn => bind (dir_name d) (fun dn => Ok (BidRow u sn dn (band_value bands)))).
(** As above.  /repo/src/nempy/historical_inputs/units.py:1071-1077, 1139-1145. *)
Definition format_volumes (os : list offer) : result (list TablesModel.bid_row) :=
  each (fun o => named_bid (of_duid o) (of_type o) (of_dir o) (of_bands o)) os.
(** As above.  /repo/src/nempy/historical_inputs/units.py:1071-1077, 1139-1145. *)
Definition format_prices (ps : list price_offer) : result (list TablesModel.bid_row) :=
  each (fun p => named_bid (po_duid p) (po_type p) (po_dir p) (po_bands p)) ps.

(** The state of [UnitData]: its inputs, BIDPEROFFER_D and fcas_trapeziums.
    /repo/src/nempy/historical_inputs/units.py:67-87. *)
Record unit_data := UnitData {
  ud_in : inputs; ud_offers : option (list offer); ud_traps : option (list trap_row) }.
(** As above.  /repo/src/nempy/historical_inputs/units.py:67-87. *)
Definition new_data (i : inputs) : unit_data := UnitData i None None.

(** What a method may raise: a MethodCallOrderError or an error of another kind.
    /repo/src/nempy/historical_inputs/units.py:21-22. *)
Inductive ud_err := CallOrder | Other (e : err).
(** As above.  /repo/src/nempy/historical_inputs/units.py:21-22. *)
Inductive ud_res (A : Type) := Gives (a : A) | Raises (e : ud_err).
Arguments Gives {A} a.
Arguments Raises {A} e.
(** As above.  /repo/src/nempy/historical_inputs/units.py:21-22. *)
Definition lift {A : Type} (r : result A) : ud_res A := match r with Ok a => Gives a | Err e => Raises (Other e) end.

(** [get_processed_bids]: [self.BIDPEROFFER_D] is set before the tables are renamed.
    /repo/src/nempy/historical_inputs/units.py:666-693. *)
Definition selected (ui : list unit_info_row) (rows : list TablesModel.bid_row) : bid_table :=
  BidTable ten_bands (filter (fun r => mem_str (br_unit r) (map ui_unit ui)) rows).
(** As above.  /repo/src/nempy/historical_inputs/units.py:666-693. *)
Definition processed_offers (i : inputs) : result (list offer * list price_offer) :=
  bind (unit_info i) (fun _ => bind (bid_availability i) (fun _ =>
  process_offers (in_old i) (map offer_of (bids_of i)) (in_prices i) (in_agc i) (in_initials i) (in_uigf i))).
(** As above.  /repo/src/nempy/historical_inputs/units.py:666-693. *)
Definition processed_tables (i : inputs) (v : list offer) (p : list price_offer) : result (bid_table * bid_table) :=
  bind (unit_info i) (fun ui =>
  bind (format_volumes v) (fun vr =>
  bind (format_prices p) (fun pr =>
  bind (unscale_price_bids (selected ui pr) ui) (fun pt => Ok (selected ui vr, pt))))).
(** As above.  /repo/src/nempy/historical_inputs/units.py:666-693. *)
Definition get_processed_bids (d : unit_data) : unit_data * ud_res (bid_table * bid_table) :=
  match processed_offers (ud_in d) with
  | Err e => (d, Raises (Other e))
  | Ok (v, p) => (UnitData (ud_in d) (Some v) (ud_traps d), lift (processed_tables (ud_in d) v p))
  end.

(** ** Trapeziums *)

(** [_format_fcas_trapezium_constraints].
    /repo/src/nempy/historical_inputs/units.py:998-1005. *)
Definition format_traps (os : list offer) : result (list trap_row) :=
  each (fun o => bind (service_name (of_type o)) (fun sn => bind (dir_name (of_dir o)) (fun dn =>
                 Ok (Trap (of_duid o) sn dn (of_max o) (of_emin o) (of_low o) (of_high o) (of_emax o)))))
    (filter (fun o => negb (of_type_is "ENERGY" o)) os).

(** [add_fcas_trapezium_constraints].
    /repo/src/nempy/historical_inputs/units.py:770-772. *)
Definition add_traps (d : unit_data) : unit_data * ud_res unit :=
  match ud_offers d with
  | None => (d, Raises CallOrder)
  | Some os => match format_traps os with
               | Ok ts => (UnitData (ud_in d) (Some os) (Some ts), Gives tt)
               | Err e => (d, Raises (Other e))
               end
  end.

(** [get_fcas_max_availability], [get_fcas_regulation_trapeziums] and
    [get_contingency_services].
    /repo/src/nempy/historical_inputs/units.py:824-826, 896-898, 969-971. *)
Definition with_traps {A : Type} (d : unit_data) (f : list trap_row -> A) : ud_res A :=
  match ud_traps d with None => Raises CallOrder | Some ts => Gives (f ts) end.
(** As above.  /repo/src/nempy/historical_inputs/units.py:824-826, 896-898, 969-971. *)
Definition is_regulation (t : trap_row) : bool := mem_str (tz_service t) ["raise_reg"; "lower_reg"].
(** As above.  /repo/src/nempy/historical_inputs/units.py:824-826, 896-898, 969-971. *)
Definition max_availability (d : unit_data) : ud_res (list max_avail_row) :=
  with_traps d (map (fun t => MaxAvail (tz_unit t) (tz_service t) (tz_dt t) (tz_max t))).
(** As above.  /repo/src/nempy/historical_inputs/units.py:824-826, 896-898, 969-971. *)
Definition regulation_traps (d : unit_data) : ud_res (list trap_row) := with_traps d (filter is_regulation).
(** As above.  /repo/src/nempy/historical_inputs/units.py:824-826, 896-898, 969-971. *)
Definition contingency_traps (d : unit_data) : ud_res (list trap_row) :=
  with_traps d (filter (fun t => negb (is_regulation t))).

(** The calls that change the state, in any order; an exception leaves the state as
    the method left it.  /repo/src/nempy/historical_inputs/units.py:586, 707. *)
Inductive ud_call := Processed | AddTraps.
(** As above.  /repo/src/nempy/historical_inputs/units.py:586, 707. *)
Definition call_data (d : unit_data) (c : ud_call) : unit_data :=
  match c with Processed => fst (get_processed_bids d) | AddTraps => fst (add_traps d) end.
(** As above.  /repo/src/nempy/historical_inputs/units.py:586, 707. *)
Definition after_calls (i : inputs) (cs : list ud_call) : unit_data := fold_left call_data cs (new_data i).
