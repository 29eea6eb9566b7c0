(** Model of nempy/historical_inputs/units.py: scaling and filtering of historical
    FCAS offers.  Definitions only. *)

From Coq Require Import QArith Qround Qabs String Ascii List Bool ZArith.
Import ListNotations.
From Verif Require Import PandasModel TablesModel MarketModel ReportsModel.
Open Scope string_scope.
Open Scope list_scope.

(** A row of volume offers: DUID, DIRECTION, BIDTYPE, MAXAVAIL, the four corners of
    the trapezium and the bands.  The direction is the one after the missing ones
    have been filled in; missing numbers are not modelled.
    /repo/src/nempy/historical_inputs/units.py:90-101, 663, /repo/src/nempy/historical_inputs/xml_cache.py:412-463. *)
Record offer := Offer {
  of_duid : string; of_dir : string; of_type : string; of_max : Q;
  of_emin : Q; of_low : Q; of_high : Q; of_emax : Q; of_bands : list Q }.

(** A row of price offers.  /repo/src/nempy/historical_inputs/units.py:666. *)
Record price_offer := PriceOffer {
  po_duid : string; po_dir : string; po_type : string; po_bands : list Q }.

(** A row of AGC enablement limits; [None] is NaN.
    /repo/src/nempy/historical_inputs/units.py:1220-1230. *)
Record agc_row := Agc {
  ag_duid : string; ag_lower_min : option Q; ag_lower_max : option Q;
  ag_raise_min : option Q; ag_raise_max : option Q }.

(** A row of initial conditions: TRADERTYPE, INITIALMW, RAMPUPRATE, RAMPDOWNRATE,
    AGCSTATUS; [None] is NaN.
    /repo/src/nempy/historical_inputs/xml_cache.py:260-281. *)
Record initial := Initial {
  ic_duid : string; ic_type : string; ic_mw : option Q; ic_up : option Q; ic_down : option Q; ic_agc : option Q }.

(** A row of unit availability; the direction of forecasts is missing.
    /repo/src/nempy/historical_inputs/units.py:581-584. *)
Record cap_row := Cap { cp_unit : string; cp_dir : option string; cp_cap : Q }.

(** An offer with other corners.  /repo/src/nempy/historical_inputs/units.py:1243-1279, 1440-1448, 1518-1526. *)
Definition set_of_trap (o : offer) (mx emin low high emax : Q) : offer :=
  Offer (of_duid o) (of_dir o) (of_type o) mx emin low high emax (of_bands o).

(** ** Scaling for AGC enablement limits *)

(** The limit [lim] is more restrictive and positive.
    /repo/src/nempy/historical_inputs/units.py:1244-1260. *)
Definition tighter_min (lim : option Q) (q : Q) : bool :=
  match lim with Some l => Qlt_bool q l && Qlt_bool 0 l | None => false end.
(** The same for the upper limit.  /repo/src/nempy/historical_inputs/units.py:1252-1260, 1272-1279. *)
Definition tighter_max (lim : option Q) (q : Q) : bool :=
  match lim with Some l => Qlt_bool l q && Qlt_bool 0 l | None => false end.
(** The limit, where there is one.  /repo/src/nempy/historical_inputs/units.py:1244-1260. *)
Definition or_else (lim : option Q) (q : Q) : Q := match lim with Some l => l | None => q end.

(** Both slopes of a regulation offer; the break points are moved before the
    enablement limits.  /repo/src/nempy/historical_inputs/units.py:1243-1279. *)
Definition agc_scaled (mn mx : option Q) (o : offer) : offer :=
  let low := if tighter_min mn (of_emin o) then of_low o + (or_else mn 0 - of_emin o) else of_low o in
  let emin := if tighter_min mn (of_emin o) then or_else mn 0 else of_emin o in
  let high := if tighter_max mx (of_emax o) then of_high o - (of_emax o - or_else mx 0) else of_high o in
  let emax := if tighter_max mx (of_emax o) then or_else mx 0 else of_emax o in
  set_of_trap o (of_max o) emin low high emax.

(** The type of a bid.  /repo/src/nempy/historical_inputs/units.py:1232-1241, 1502-1504, 1808-1811. *)
Definition of_type_is (s : string) (o : offer) : bool := String.eqb (of_type o) s.
(** A regulation bid.  /repo/src/nempy/historical_inputs/units.py:1232-1241, 1393. *)
Definition is_reg (o : offer) : bool := of_type_is "RAISEREG" o || of_type_is "LOWERREG" o.

(** [_scaling_for_agc_enablement_limits].
    /repo/src/nempy/historical_inputs/units.py:1232-1288. *)
Definition scale_agc (offers : list offer) (agc : list agc_row) : list offer :=
  let on := fun o a => String.eqb (of_duid o) (ag_duid a) in
  let lower := merge on (filter (of_type_is "LOWERREG") offers) agc in
  let raise := merge on (filter (of_type_is "RAISEREG") offers) agc in
  filter (fun o => negb (is_reg o)) offers
  ++ map (fun p => agc_scaled (ag_lower_min (snd p)) (ag_lower_max (snd p)) (fst p)) lower
  ++ map (fun p => agc_scaled (ag_raise_min (snd p)) (ag_raise_max (snd p)) (fst p)) raise.

(** ** Scaling for AGC ramp rates *)

(** A unit has a rate if some row of it holds one that is neither NaN nor zero.
    The code's [notna & rate != 0] parses as [(notna & rate) != 0]; for a column of
    floats pandas makes both sides of [&] booleans first, which is the same.
    /repo/src/nempy/historical_inputs/units.py:1377-1384. *)
Definition has_rate (rate : initial -> option Q) (i : initial) : bool :=
  match rate i with Some q => negb (Qeq_bool q 0) | None => false end.
(** The units with a rate.  /repo/src/nempy/historical_inputs/units.py:1377-1378, 1381-1382. *)
Definition units_with (rate : initial -> option Q) (ics : list initial) : list string :=
  map ic_duid (filter (has_rate rate) ics).
(** The others.  /repo/src/nempy/historical_inputs/units.py:1379-1380, 1383-1384. *)
Definition units_without (rate : initial -> option Q) (ics : list initial) : list string :=
  filter (fun u => negb (mem_str u (units_with rate ics))) (map ic_duid ics).

(** [get_new_low_break_point] and [get_new_high_break_point]; the quotients are
    those of the code, a zero divisor is excluded in the theorems.
    /repo/src/nempy/historical_inputs/units.py:1421-1437. *)
Definition new_low (mx ramp low emin : Q) : Q :=
  if Qlt_bool ramp mx && negb (Qeq_bool (low - emin) 0) then ramp / (mx / (low - emin)) + emin else low.
(** As above.  /repo/src/nempy/historical_inputs/units.py:1421-1437. *)
Definition new_high (mx ramp high emax : Q) : Q :=
  if Qlt_bool ramp mx && negb (Qeq_bool (emax - high) 0) then emax - ramp / (mx / (emax - high)) else high.

(** A regulation offer and the most that can be delivered in five minutes; a NaN
    rate leaves it as it is.  /repo/src/nempy/historical_inputs/units.py:1407-1448. *)
Definition ramp_scaled (rate : option Q) (o : offer) : offer :=
  match rate with
  | Some r =>
      let ramp := r * (5 # 60) in
      set_of_trap o (if Qlt_bool ramp (of_max o) then ramp else of_max o)
        (of_emin o) (new_low (of_max o) ramp (of_low o) (of_emin o))
        (new_high (of_max o) ramp (of_high o) (of_emax o)) (of_emax o)
  | None => o
  end.

(** [_scaling_for_agc_ramp_rates].  Without a regulation offer to scale
    [reg.apply] returns a table and the assignment raises ValueError.
    /repo/src/nempy/historical_inputs/units.py:1377-1455. *)
Definition scale_ramp (offers : list offer) (ics : list initial) : result (list offer) :=
  let up := units_with ic_up ics in
  let down := units_with ic_down ics in
  let live := filter (fun i => mem_str (ic_duid i) (up ++ down)) ics in
  let on := fun o i => String.eqb (of_duid o) (ic_duid i) in
  let lower := merge on (filter (fun o => of_type_is "LOWERREG" o && mem_str (of_duid o) down) offers) live in
  let raise := merge on (filter (fun o => of_type_is "RAISEREG" o && mem_str (of_duid o) up) offers) live in
  let reg := map (fun p => (fst p, ic_down (snd p))) lower ++ map (fun p => (fst p, ic_up (snd p))) raise in
  bind (apply_rows (fun p => ramp_scaled (snd p) (fst p)) reg) (fun scaled =>
  Ok (filter (fun o => negb (is_reg o)) offers
      ++ filter (fun o => of_type_is "RAISEREG" o && mem_str (of_duid o) (units_without ic_up ics)) offers
      ++ filter (fun o => of_type_is "LOWERREG" o && mem_str (of_duid o) (units_without ic_down ics)) offers
      ++ scaled)).

(** ** Scaling for the forecast of semi-scheduled units *)

(** /repo/src/nempy/historical_inputs/units.py:1511-1526. *)
Definition uigf_scaled (f : Q) (o : offer) : offer :=
  let less := Qlt_bool f (of_emax o) in
  set_of_trap o (of_max o) (of_emin o) (of_low o)
    (if less then of_high o - (of_emax o - f) else of_high o) (if less then f else of_emax o).

(** [_scaling_for_uigf].  /repo/src/nempy/historical_inputs/units.py:1501-1537. *)
Definition scale_uigf (offers : list offer) (uigf : list uigf_row) : list offer :=
  let semi := map ug_unit uigf in
  let fcas := filter (fun o => negb (of_type_is "ENERGY" o)) offers in
  filter (of_type_is "ENERGY") offers
  ++ filter (fun o => negb (mem_str (of_duid o) semi)) fcas
  ++ map (fun p => uigf_scaled (ug_cap (snd p)) (fst p))
       (merge (fun o f => String.eqb (of_duid o) (ug_unit f)) (filter (fun o => mem_str (of_duid o) semi) fcas) uigf).

(** ** Preconditions for enabling *)

(** [str.upper] for the letters of ASCII.
    /repo/src/nempy/historical_inputs/units.py:1827. *)
Definition upper_char (c : ascii) : ascii :=
  let n := nat_of_ascii c in if (97 <=? n)%nat && (n <=? 122)%nat then ascii_of_nat (n - 32) else c.
(** As above.  /repo/src/nempy/historical_inputs/units.py:1827. *)
Fixpoint upper (s : string) : string :=
  match s with EmptyString => EmptyString | String c t => String (upper_char c) (upper t) end.

(** [round(5)]: to the nearest multiple of 0.00001, halves to even, without the
    error of floats.  /repo/src/nempy/historical_inputs/units.py:1938-1943. *)
Definition round_even (q : Q) : Z :=
  let f := Qfloor q in
  let d := q - inject_Z f in
  if Qlt_bool d (1 # 2) then f
  else if Qlt_bool (1 # 2) d then (f + 1)%Z
  else if Z.even f then f else (f + 1)%Z.
(** As above.  /repo/src/nempy/historical_inputs/units.py:1938-1943. *)
Definition round5 (q : Q) : Q := inject_Z (round_even (q * 100000)) / 100000.

(** [str.find('REG') != -1].  /repo/src/nempy/historical_inputs/units.py:1848-1851. *)
Definition has_reg (s : string) : bool := match index 0 "REG" s with Some _ => true | None => false end.

(** A row of FCAS offers while it is filtered: the offer, the capacity merged with it
    and the initial conditions.  /repo/src/nempy/historical_inputs/units.py:1828-1842. *)
Record fcas_row := Fcas { fc_offer : offer; fc_cap : option Q; fc_init : initial }.

(** The keys of the merge.  /repo/src/nempy/historical_inputs/units.py:1827-1834, 1865-1872. *)
Definition cap_on (u d : string) (c : cap_row) : bool :=
  String.eqb u (cp_unit c)
  && match cp_dir c with Some x => String.eqb d (upper x) | None => false end.
(** [capacity >= q | capacity.isna()].  /repo/src/nempy/historical_inputs/units.py:1835. *)
Definition reaches (cap : option Q) (q : Q) : bool :=
  match cap with Some c => Qle_bool q c | None => true end.
(** [-1 * capacity <= q | capacity.isna()].
    /repo/src/nempy/historical_inputs/units.py:1873-1875, 1921-1923. *)
Definition charges (cap : option Q) (q : Q) : bool :=
  match cap with Some c => Qle_bool (- (1) * c) q | None => true end.

(** The rows up to the merge with the initial conditions.
    /repo/src/nempy/historical_inputs/units.py:1809-1842. *)
Definition fcas_rows (offers : list offer) (ics : list initial) (caps : list cap_row) : list fcas_row :=
  let fcas := filter (fun o => negb (of_type_is "ENERGY" o)) offers in
  let fcas := filter (fun o => Qlt_bool 0 (of_max o)) fcas in
  let fcas := filter (fun o => existsb (Qlt_bool 0) (of_bands o)) fcas in
  let merged := merge_left (fun o c => cap_on (of_duid o) (of_dir o) c) fcas caps in
  let merged := map (fun p => (fst p, option_map cp_cap (snd p))) merged in
  let merged := filter (fun p => reaches (snd p) (of_emin (fst p))) merged in
  map (fun p => Fcas (fst (fst p)) (snd (fst p)) (snd p))
      (merge (fun p i => String.eqb (of_duid (fst p)) (ic_duid i)) merged ics).

(** Units that bid both ways, and the split of their rows.
    /repo/src/nempy/historical_inputs/units.py:1844-1851. *)
Definition is_bdu (r : fcas_row) : bool := String.eqb (ic_type (fc_init r)) "BIDIRECTIONAL".
(** As above.  /repo/src/nempy/historical_inputs/units.py:1844-1851. *)
Definition dir_is (s : string) (r : fcas_row) : bool := String.eqb (of_dir (fc_offer r)) s.
(** As above.  /repo/src/nempy/historical_inputs/units.py:1844-1851. *)
Definition reg_row (r : fcas_row) : bool := has_reg (of_type (fc_offer r)).

(** Initial output within limits; NaN never is.
    /repo/src/nempy/historical_inputs/units.py:1938-1943. *)
Definition starts_within (lo hi : Q) (mw : option Q) : bool :=
  match mw with Some q => Qle_bool (round5 q) hi && Qle_bool lo (round5 q) | None => false end.

(** Rows of other units.  /repo/src/nempy/historical_inputs/units.py:1854-1858, 1932-1939. *)
Definition keep_plain (r : fcas_row) : bool :=
  let o := fc_offer r in
  Qle_bool 0 (of_emax o) && reaches (fc_cap r) (of_emin o)
  && starts_within (of_emin o) (of_emax o)
       (match ic_mw (fc_init r) with Some q => Some (if Qlt_bool q 0 then 0 else q) | None => None end).

(** Contingency rows of two-way units, generation side; the capacity of the other
    side is merged in.  /repo/src/nempy/historical_inputs/units.py:1855-1876, 1938-1939. *)
Definition keep_gen_con (r : fcas_row) : bool :=
  let o := fc_offer r in Qle_bool 0 (of_emax o) && reaches (fc_cap r) (of_emin o).
(** As above.  /repo/src/nempy/historical_inputs/units.py:1855-1876, 1938-1939. *)
Definition gen_con_rows (rows : list fcas_row) (caps : list cap_row) : list fcas_row :=
  map (fun p => Fcas (fc_offer (fst p)) (option_map cp_cap (snd p)) (fc_init (fst p)))
    (filter (fun p => charges (option_map cp_cap (snd p)) (of_emax (fc_offer (fst p))))
      (merge_left (fun r c => cap_on (of_duid (fc_offer r)) "LOAD" c) (filter keep_gen_con rows) caps)).

(** Contingency rows, consumption side.
    /repo/src/nempy/historical_inputs/units.py:1879. *)
Definition keep_load_con (r : fcas_row) : bool := Qle_bool (of_emin (fc_offer r)) 0.
(** Initial output within the own limits.  /repo/src/nempy/historical_inputs/units.py:1938-1939. *)
Definition within_own (r : fcas_row) : bool :=
  starts_within (of_emin (fc_offer r)) (of_emax (fc_offer r)) (ic_mw (fc_init r)).

(** Regulation rows of two-way units with the limits used for them: the lower one of
    the consumption side and the upper one of the generation side where there are
    such rows.  /repo/src/nempy/historical_inputs/units.py:1881-1923. *)
Definition other_side (a b : fcas_row) : bool :=
  String.eqb (of_duid (fc_offer a)) (of_duid (fc_offer b)) && String.eqb (of_type (fc_offer a)) (of_type (fc_offer b)).
(** As above.  /repo/src/nempy/historical_inputs/units.py:1881-1923. *)
Definition gen_reg_rows (gen load : list fcas_row) : list (fcas_row * Q * Q) :=
  filter (fun p => let r := fst (fst p) in
                   Qle_bool 0 (of_emax (fc_offer r)) && reaches (fc_cap r) (of_emin (fc_offer r)))
    (map (fun p => (fst p, or_else (option_map (fun l => of_emin (fc_offer l)) (snd p)) (of_emin (fc_offer (fst p))),
                    of_emax (fc_offer (fst p))))
       (merge_left other_side gen load)).
(** As above.  /repo/src/nempy/historical_inputs/units.py:1881-1923. *)
Definition load_reg_rows (gen load : list fcas_row) : list (fcas_row * Q * Q) :=
  filter (fun p => let r := fst (fst p) in
                   Qle_bool (of_emin (fc_offer r)) 0 && charges (fc_cap r) (of_emax (fc_offer r)))
    (map (fun p => (fst p, of_emin (fc_offer (fst p)),
                    or_else (option_map (fun g => of_emax (fc_offer g)) (snd p)) (of_emax (fc_offer (fst p)))))
       (merge_left other_side load gen)).

(** Regulation needs AGC.  /repo/src/nempy/historical_inputs/units.py:1948. *)
Definition agc_on (r : fcas_row) : bool :=
  negb (match ic_agc (fc_init r) with Some q => Qeq_bool q 0 | None => false end && is_reg (fc_offer r)).

(** The FCAS offers that stay.  /repo/src/nempy/historical_inputs/units.py:1844-1949. *)
Definition enabled_rows (offers : list offer) (ics : list initial) (caps : list cap_row) : list fcas_row :=
  let rows := fcas_rows offers ics caps in
  let bdu := filter is_bdu rows in
  let gen := filter (dir_is "GENERATOR") bdu in
  let load := filter (dir_is "LOAD") bdu in
  let gen_reg := filter reg_row gen in
  let load_reg := filter reg_row load in
  let gen_con := gen_con_rows (filter (fun r => negb (reg_row r)) gen) caps in
  let load_con := filter keep_load_con (filter (fun r => negb (reg_row r)) load) in
  let plain := filter (fun r => negb (is_bdu r)) rows in
  filter agc_on
    (filter within_own load_con ++ filter within_own gen_con ++ filter keep_plain plain
     ++ map (fun p => fst (fst p))
          (filter (fun p => starts_within (snd (fst p)) (snd p) (ic_mw (fc_init (fst (fst p)))))
             (gen_reg_rows gen_reg load_reg ++ load_reg_rows gen_reg load_reg))).

(** [_enforce_preconditions_for_enabling_fcas].
    /repo/src/nempy/historical_inputs/units.py:1807-1970. *)
Definition enforce (offers : list offer) (prices : list price_offer) (ics : list initial) (caps : list cap_row)
  : list offer * list price_offer :=
  let fcas := map fc_offer (enabled_rows offers ics caps) in
  (filter (of_type_is "ENERGY") offers ++ fcas,
   filter (fun p => String.eqb (po_type p) "ENERGY") prices
   ++ map fst (merge (fun p o => String.eqb (po_duid p) (of_duid o) && String.eqb (po_type p) (of_type o)
                                 && String.eqb (po_dir p) (of_dir o))
                 (filter (fun p => negb (String.eqb (po_type p) "ENERGY")) prices) fcas)).

(** [_get_unit_availability]: bids of MAXAVAIL, without the semi-scheduled units
    before July 2023, and the forecasts, which have no direction.  [lower_name] is
    the renaming of directions.
    /repo/src/nempy/historical_inputs/units.py:141-158, 581-584. *)
Definition lower_name (s : string) : string :=
  if String.eqb s "GENERATOR" then "generator" else if String.eqb s "LOAD" then "load" else s.
(** As above.  /repo/src/nempy/historical_inputs/units.py:141-158, 581-584. *)
Definition unit_availability (old : bool) (offers : list offer) (uigf : list uigf_row) : list cap_row :=
  map (fun o => Cap (of_duid o) (Some (lower_name (of_dir o))) (of_max o))
    (filter (fun o => negb (old && mem_str (of_duid o) (map ug_unit uigf)))
      (filter (of_type_is "ENERGY") offers))
  ++ map (fun f => Cap (ug_unit f) None (ug_cap f)) uigf.

(** The processing of offers in [get_processed_bids] up to the renaming.
    /repo/src/nempy/historical_inputs/units.py:663-679. *)
Definition process_offers (old : bool) (offers : list offer) (prices : list price_offer) (agc : list agc_row)
  (ics : list initial) (uigf : list uigf_row) : result (list offer * list price_offer) :=
  bind (scale_ramp (scale_agc offers agc) ics) (fun scaled =>
  Ok (enforce (scale_uigf scaled uigf) prices ics (unit_availability old offers uigf))).
