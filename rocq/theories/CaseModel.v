(** Model of how a case file reaches the inputs of [UnitData]: the loader passes the
    tables of the cache on.  Definitions only. *)

From Coq Require Import QArith String List Bool.
Import ListNotations.
From Verif Require Import PandasModel TablesModel OffersModel XmlModel UnitDataModel.
Open Scope string_scope.
Open Scope list_scope.

(** A column of numbers of a bid table.  A table may also hold texts and None there;
    what pandas does with these later is not modelled, they are a TypeError here.
    /repo/src/nempy/historical_inputs/xml_cache.py:443, 534. *)
Definition cell_number (cells : list (string * value)) (n : string) : xres Q :=
  match dget n cells with Some (VNum q) => Got q | _ => Raise TypeE end.

(** The columns of the ten bands.
    /repo/src/nempy/historical_inputs/xml_cache.py:428-431, 516-518. *)
Definition volume_bands : list string :=
  ["BANDAVAIL1"; "BANDAVAIL2"; "BANDAVAIL3"; "BANDAVAIL4"; "BANDAVAIL5"; "BANDAVAIL6"; "BANDAVAIL7"; "BANDAVAIL8";
   "BANDAVAIL9"; "BANDAVAIL10"].
(** As above.  /repo/src/nempy/historical_inputs/xml_cache.py:428-431, 516-518. *)
Definition price_bands : list string :=
  ["PRICEBAND1"; "PRICEBAND2"; "PRICEBAND3"; "PRICEBAND4"; "PRICEBAND5"; "PRICEBAND6"; "PRICEBAND7"; "PRICEBAND8";
   "PRICEBAND9"; "PRICEBAND10"].

(** A row of [get_unit_volume_bids] as a row of [self.volume_bids].
    /repo/src/nempy/historical_inputs/loaders.py:76-79, /repo/src/nempy/historical_inputs/units.py:77. *)
Definition volume_in (r : XmlModel.bid_row) : xres volume_row :=
  do mx <- cell_number (bi_cells r) "MAXAVAIL";
  do emin <- cell_number (bi_cells r) "ENABLEMENTMIN";
  do emax <- cell_number (bi_cells r) "ENABLEMENTMAX";
  do low <- cell_number (bi_cells r) "LOWBREAKPOINT";
  do high <- cell_number (bi_cells r) "HIGHBREAKPOINT";
  do bands <- XmlModel.each (cell_number (bi_cells r)) volume_bands;
  do dn <- cell_number (bi_cells r) "RAMPDOWNRATE";
  do up <- cell_number (bi_cells r) "RAMPUPRATE";
  Got (Volume (bi_duid r) (bi_dir r) (bi_type r) mx emin low high emax bands (Some dn) (Some up)).

(** A row of [get_unit_price_bids] as a row of [self.price_bids]; it always has a
    direction.
    /repo/src/nempy/historical_inputs/loaders.py:81-86, /repo/src/nempy/historical_inputs/units.py:76. *)
Definition price_in (r : XmlModel.bid_row) : xres price_offer :=
  match bi_dir r with
  | None => Raise KeyE
  | Some d => do bands <- XmlModel.each (cell_number (bi_cells r)) price_bands;
              Got (PriceOffer (bi_duid r) d (bi_type r) bands)
  end.

(** [UnitData.__init__]: the bids, initial conditions and forecasts are those of the
    case file; unit details and AGC limits come from the database.  The fast start
    profiles, read in between, are in XmlModel.
    /repo/src/nempy/historical_inputs/units.py:76-84, 674, /repo/src/nempy/historical_inputs/loaders.py:71-101. *)
Definition load (rd : reader) (v : xml) (details : list detail) (agc : list agc_row) (old : bool) : xres inputs :=
  do pr <- price_bids rd v;
  do ps <- XmlModel.each price_in pr;
  do vr <- volume_bids rd v;
  do vs <- XmlModel.each volume_in vr;
  do is <- initial_conditions rd v;
  do us <- uigf_values rd v;
  Got (Inputs ps vs is us details agc old).

(** The bid ramp rates and the SCADA ramp rates as passed to the market.  A missing
    bid rate or initial output is NaN, which the market refuses.
    /repo/src/nempy/historical_inputs/units.py:244-251, 300-313, /repo/src/nempy/markets.py:890-905. *)
Definition bid_ramp_table (rs : list bid_ramp) : xres ramp_table :=
  do rows <- XmlModel.each (fun r => match bm_initial r, bm_up r, bm_down r with
                                     | Some q, Some up, Some dn => Got (RampIn (Ramp (bm_unit r) (bm_dt r) q up dn) None None)
                                     | _, _, _ => Raise ValueE
                                     end) rs;
  Got (RampTable false false rows).
(** As above.  /repo/src/nempy/historical_inputs/units.py:244-251, 300-313, /repo/src/nempy/markets.py:890-905. *)
Definition scada_table_of (rs : list scada_rate) : scada_table :=
  ScadaTable true true (map (fun r => Scada (sr_unit r) (sr_up r) (sr_down r)) rs).
