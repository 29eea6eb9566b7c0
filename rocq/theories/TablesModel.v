(** Row types of the tables that nempy passes around.  Definitions only.

    Column values that the code requires to be real numbers are rationals;
    columns that may hold nulls are [option Q]; an infinite bound is [None]. *)

From Coq Require Import QArith String List Bool.
Import ListNotations.
From Verif Require Import PandasModel.

(** A row of [unit_info].  /repo/src/nempy/markets.py:124-148. *)
Record unit_info_row := UnitInfo {
  ui_unit : string; ui_region : string; ui_dt : string; ui_lf : Q }.

(** A row of a volume or price bid table: one column per bid band, read through
    the function from band name to value.
    /repo/src/nempy/markets.py:269-281 and 406-418. *)
Record bid_row := BidRow {
  br_unit : string; br_service : string; br_dt : string; br_val : string -> Q }.

(** A bid table: its band columns (the same for all rows) and its rows.
    /repo/src/nempy/spot_market_backend/variable_ids.py:135-141. *)
Record bid_table := BidTable { bt_bands : list string; bt_rows : list bid_row }.

(** A bid decision variable.
    /repo/src/nempy/spot_market_backend/variable_ids.py:173-175. *)
Record bidvar := BidVar {
  bv_unit : string; bv_band : string; bv_service : string; bv_dt : string;
  bv_id : nat; bv_lb : Q; bv_ub : Q }.

(** Variable to unit level constraint map.
    /repo/src/nempy/spot_market_backend/variable_ids.py:164-171. *)
Record uvrow := UV {
  uv_id : nat; uv_unit : string; uv_service : string; uv_dt : string; uv_coef : Q }.

(** Variable to regional constraint map.
    /repo/src/nempy/spot_market_backend/variable_ids.py:160-162,
    /repo/src/nempy/spot_market_backend/interconnectors.py:80-81, 399. *)
Record rvrow := RV {
  rv_id : nat; rv_region : string; rv_service : string; rv_coef : Q }.

(** Unit level constraint to variable map.
    /repo/src/nempy/spot_market_backend/unit_constraints.py:515-516. *)
Record ucrow := UC {
  uc_con : nat; uc_unit : string; uc_service : string; uc_dt : string; uc_coef : Q }.

(** Regional constraint to variable map.
    /repo/src/nempy/spot_market_backend/market_constraints.py:91-93, 187. *)
Record rcrow := RC {
  rc_con : nat; rc_region : string; rc_service : string; rc_coef : Q }.

(** Descriptive columns of a row of a right-hand-side table; which ones exist
    depends on the group.
    /repo/src/nempy/spot_market_backend/market_constraints.py:88, 181,
    /repo/src/nempy/spot_market_backend/unit_constraints.py:512, /repo/src/nempy/spot_market_backend/fcas_constraints.py:11, interconnectors.py:261,
    /repo/src/nempy/markets.py:2359. *)
Inductive ckey : Type :=
| KRegion (r : string)
| KSet (s : string)
| KUnit (u s d : string)
| KUnitOnly (u : string)
| KLink (i l : string)
| KNone.

(** A row of a right-hand-side and type table.
    /repo/src/nempy/markets.py:527-528, /repo/src/nempy/spot_market_backend/unit_constraints.py:512, /repo/src/nempy/spot_market_backend/market_constraints.py:88, 181. *)
Record crow := CRow { cr_id : nat; cr_type : string; cr_rhs : Q; cr_key : ckey }.

(** A row of a right-hand-side table whose rhs is a variable.
    /repo/src/nempy/spot_market_backend/interconnectors.py:155, 210. *)
Record dynrow := Dyn {
  dy_inter : string; dy_link : string; dy_id : nat; dy_type : string; dy_var : nat }.

(** A row of a fully defined left-hand side.
    /repo/src/nempy/spot_market_backend/solver_interface.py:553. *)
Record lrow := LRow { l_con : nat; l_var : nat; l_coef : Q }.

(** A row of the bids objective component.  /repo/src/nempy/markets.py:402-404. *)
Record objrow := Obj {
  ob_var : nat; ob_unit : string; ob_service : string; ob_dt : string;
  ob_band : string; ob_cost : Q }.

(** A deficit variable and its cost.
    /repo/src/nempy/spot_market_backend/elastic_constraints.py:71-74. *)
Record defvar := Def { df_id : nat; df_lb : Q; df_ub : option Q }.
(** As above.  /repo/src/nempy/spot_market_backend/elastic_constraints.py:71-74. *)
Record costrow := Cost { co_var : nat; co_cost : Q }.

(** A row of the unit limits table.  /repo/src/nempy/markets.py:534-540. *)
Record limit_row := Limit { li_unit : string; li_dt : string; li_cap : Q }.

(** A row of the forecast table.  /repo/src/nempy/markets.py:645-649. *)
Record uigf_row := Uigf { ug_unit : string; ug_cap : Q }.

(** A row of the bid ramp rate table.  /repo/src/nempy/markets.py:884-896. *)
Record ramp_row := Ramp {
  rr_unit : string; rr_dt : string; rr_init : Q; rr_up : Q; rr_down : Q }.

(** The bid ramp rate table as passed in: the schema also lets it have its own
    SCADA rate columns (flags), whose values may be null.
    /repo/src/nempy/markets.py:890-893. *)
Record ramp_in := RampIn {
  ri_row : ramp_row; ri_own_up : option Q; ri_own_down : option Q }.
(** As above.  /repo/src/nempy/markets.py:890-893. *)
Record ramp_table := RampTable {
  rt_has_up : bool; rt_has_down : bool; rt_rows : list ramp_in }.

(** A row of the SCADA ramp rate table, values may be null; the table may lack
    either rate column.  /repo/src/nempy/markets.py:898-905. *)
Record scada_row := Scada { sc_unit : string; sc_up : option Q; sc_down : option Q }.
(** As above.  /repo/src/nempy/markets.py:898-905. *)
Record scada_table := ScadaTable {
  st_has_up : bool; st_has_down : bool; st_rows : list scada_row }.

(** A row of the SCADA ramp rate table for joint ramping.  Nulls, which the
    validation lets through, are left out of the model.
    /repo/src/nempy/markets.py:1603-1609. *)
Record reg_ramp_row := RegRamp {
  rg_unit : string; rg_init : Q; rg_up : Q; rg_down : Q }.

(** A row of the fast start profiles used with ramp rates.
    /repo/src/nempy/markets.py:907-921. *)
Record fs_ramp_row := FsRamp {
  fr_unit : string; fr_current_mode : Z; fr_end_mode : Z; fr_min_loading : Q;
  fr_since_mode_two : option Q }.

(** A row of the fast start profiles used for dispatch constraints.
    /repo/src/nempy/markets.py:1049-1062. *)
Record fs_row := Fs {
  fs_unit : string; fs_end_mode : Z; fs_time_in_end_mode : Q; fs_mode_two_length : Q;
  fs_mode_four_length : Q; fs_min_loading : Q }.

(** A row of the demand table.  /repo/src/nempy/markets.py:1147-1151. *)
Record demand_row := Demand { de_region : string; de_demand : Q }.

(** A row of the FCAS requirements.  /repo/src/nempy/markets.py:1252-1260. *)
Record fcas_req_row := FcasReq {
  fq_set : string; fq_region : string; fq_service : string; fq_volume : Q;
  fq_type : string }.

(** A row of the FCAS max availability table.  /repo/src/nempy/markets.py:1351-1359. *)
Record max_avail_row := MaxAvail {
  ma_unit : string; ma_service : string; ma_dt : string; ma_max : Q }.

(** A row of a trapezium table.  /repo/src/nempy/markets.py:1732-1745, 1871-1884. *)
Record trap_row := Trap {
  tz_unit : string; tz_service : string; tz_dt : string; tz_max : Q; tz_emin : Q;
  tz_lbp : Q; tz_hbp : Q; tz_emax : Q }.

(** A row of the interconnector definitions.  /repo/src/nempy/markets.py:2003-2017. *)
Record inter_row := Inter {
  in_inter : string; in_link : string; in_to : string; in_from : string;
  in_max : Q; in_min : Q; in_gcf : Z; in_from_lf : Q; in_to_lf : Q }.

(** A row of the interconnectors' regional map, which keeps the link.
    /repo/src/nempy/spot_market_backend/interconnectors.py:80-81. *)
Record irow := IRow { ir_inter : string; ir_link : string; ir_rv : rvrow }.

(** An interconnector flow variable.
    /repo/src/nempy/spot_market_backend/interconnectors.py:69-72. *)
Record intervar := InterVar {
  iv_inter : string; iv_link : string; iv_id : nat; iv_lb : Q; iv_ub : Q; iv_gcf : Z }.

(** A row of the loss functions table.  /repo/src/nempy/markets.py:2266-2274. *)
Record lossfn_row := LossFn {
  lf_inter : string; lf_link : string; lf_share : Q; lf_fun : Q -> Q }.

(** A row of the break points table.  /repo/src/nempy/markets.py:2276-2284. *)
Record bp_row := Bp { bp_inter : string; bp_link : string; bp_seg : Z; bp_point : Q }.

(** Loss and interpolation weight variables.
    /repo/src/nempy/spot_market_backend/interconnectors.py:321-326, 397-398. *)
Record lossvar := LossVar {
  lv_inter : string; lv_link : string; lv_id : nat; lv_lb : Q; lv_ub : Q }.
(** As above.  /repo/src/nempy/spot_market_backend/interconnectors.py:321-326, 397-398. *)
Record weightvar := WeightVar {
  wv_inter : string; wv_link : string; wv_seg : Z; wv_point : Q; wv_id : nat;
  wv_lb : Q; wv_ub : Q }.

(** Generic constraints and their links.  /repo/src/nempy/markets.py:2365-2371,
    2446-2452, 2532-2538, 2609-2614. *)
Record generic_row := Generic { ge_set : string; ge_type : string; ge_rhs : Q }.
(** As above.  /repo/src/nempy/markets.py:2365-2371, 2446-2452, 2532-2538, 2609-2614. *)
Record gunit_row := GUnit {
  gu_set : string; gu_unit : string; gu_service : string; gu_coef : Q }.
(** As above.  /repo/src/nempy/markets.py:2365-2371, 2446-2452, 2532-2538, 2609-2614. *)
Record gregion_row := GRegion {
  gr_set : string; gr_region : string; gr_service : string; gr_coef : Q }.
(** As above.  /repo/src/nempy/markets.py:2365-2371, 2446-2452, 2532-2538, 2609-2614. *)
Record ginter_row := GInter { gi_set : string; gi_inter : string; gi_coef : Q }.
