(** Model of spot_market_backend/unit_constraints.py.  Definitions only. *)

From Coq Require Import QArith String Ascii List Bool ZArith.
Import ListNotations.
From Verif Require Import PandasModel TablesModel.
Open Scope string_scope.
Open Scope list_scope.

(** Rows given to [create_constraints]: unit, service, dispatch type, rhs column.
    /repo/src/nempy/spot_market_backend/unit_constraints.py:499-512. *)
Record ulimit := ULimit { ul_unit : string; ul_service : string; ul_dt : string; ul_rhs : Q }.

(** [create_constraints].
    /repo/src/nempy/spot_market_backend/unit_constraints.py:499-518. *)
Definition create_constraints_rhs (l : list ulimit) (next : nat) (direction : string) : list crow :=
  map (fun p => let '(i, u) := p in
         CRow i direction (ul_rhs u) (KUnit (ul_unit u) (ul_service u) (ul_dt u)))
      (save_index next l).

(** As above.  /repo/src/nempy/spot_market_backend/unit_constraints.py:499-518. *)
Definition create_constraints_map (l : list ulimit) (next : nat) : list ucrow :=
  map (fun p => let '(i, u) := p in UC i (ul_unit u) (ul_service u) (ul_dt u) 1)
      (save_index next l).

(** [capacity].  The map coefficient is -1 for the load side of bidirectional
    units.  /repo/src/nempy/spot_market_backend/unit_constraints.py:7-98. *)
Definition capacity_limits (l : list limit_row) : list ulimit :=
  map (fun r => ULimit (li_unit r) "energy" (li_dt r) (li_cap r)) l.
(** As above.  /repo/src/nempy/spot_market_backend/unit_constraints.py:7-98. *)
Definition capacity_rhs (l : list limit_row) (next : nat) : list crow :=
  create_constraints_rhs (capacity_limits l) next "<=".
(** As above.  /repo/src/nempy/spot_market_backend/unit_constraints.py:7-98. *)
Definition capacity_map (l : list limit_row) (next : nat) (bdu : list string) : list ucrow :=
  map (fun m => UC (uc_con m) (uc_unit m) (uc_service m) (uc_dt m)
                   (if String.eqb (uc_dt m) "load" && mem_str (uc_unit m) bdu
                    then -(1) else 1))
      (create_constraints_map (capacity_limits l) next).

(** [uigf]: dispatch type defaults to generator (the schema allows no dispatch
    type column).  /repo/src/nempy/spot_market_backend/unit_constraints.py:101-182. *)
Definition uigf_limits (l : list uigf_row) : list ulimit :=
  map (fun r => ULimit (ug_unit r) "energy" "generator" (ug_cap r)) l.
(** As above.  /repo/src/nempy/spot_market_backend/unit_constraints.py:101-182. *)
Definition uigf_rhs (l : list uigf_row) (next : nat) : list crow :=
  create_constraints_rhs (uigf_limits l) next "<=".
(** As above.  /repo/src/nempy/spot_market_backend/unit_constraints.py:101-182. *)
Definition uigf_map (l : list uigf_row) (next : nat) : list ucrow :=
  create_constraints_map (uigf_limits l) next.

(** [ramp_up] and [ramp_down].  [interval] is the dispatch interval in minutes.
    /repo/src/nempy/spot_market_backend/unit_constraints.py:268-270, 355-357. *)
Definition ramp_up_limits (l : list ramp_row) (interval : Q) : list ulimit :=
  map (fun r => ULimit (rr_unit r) "energy" (rr_dt r) (rr_init r + rr_up r * (interval / 60))) l.
(** As above.  /repo/src/nempy/spot_market_backend/unit_constraints.py:268-270, 355-357. *)
Definition ramp_down_limits (l : list ramp_row) (interval : Q) : list ulimit :=
  map (fun r => ULimit (rr_unit r) "energy" (rr_dt r) (rr_init r - rr_down r * (interval / 60))) l.
(** As above.  /repo/src/nempy/spot_market_backend/unit_constraints.py:268-270, 355-357. *)
Definition ramp_up_rhs (l : list ramp_row) (next : nat) (interval : Q) : list crow :=
  create_constraints_rhs (ramp_up_limits l interval) next "<=".
(** As above.  /repo/src/nempy/spot_market_backend/unit_constraints.py:268-270, 355-357. *)
Definition ramp_up_map (l : list ramp_row) (next : nat) (interval : Q) : list ucrow :=
  create_constraints_map (ramp_up_limits l interval) next.
(** As above.  /repo/src/nempy/spot_market_backend/unit_constraints.py:268-270, 355-357. *)
Definition ramp_down_rhs (l : list ramp_row) (next : nat) (interval : Q) : list crow :=
  create_constraints_rhs (ramp_down_limits l interval) next ">=".
(** As above.  /repo/src/nempy/spot_market_backend/unit_constraints.py:268-270, 355-357. *)
Definition ramp_down_map (l : list ramp_row) (next : nat) (interval : Q) : list ucrow :=
  create_constraints_map (ramp_down_limits l interval) next.

(** [fcas_max_availability].
    /repo/src/nempy/spot_market_backend/unit_constraints.py:436-437. *)
Definition max_avail_limits (l : list max_avail_row) : list ulimit :=
  map (fun r => ULimit (ma_unit r) (ma_service r) (ma_dt r) (ma_max r)) l.
(** As above.  /repo/src/nempy/spot_market_backend/unit_constraints.py:436-437. *)
Definition max_avail_rhs (l : list max_avail_row) (next : nat) : list crow :=
  create_constraints_rhs (max_avail_limits l) next "<=".
(** As above.  /repo/src/nempy/spot_market_backend/unit_constraints.py:436-437. *)
Definition max_avail_map (l : list max_avail_row) (next : nat) : list ucrow :=
  create_constraints_map (max_avail_limits l) next.

(** Fast start profile rows after the merge with unit_info, which adds the
    dispatch types of the unit.  /repo/src/nempy/markets.py:1025-1029. *)
Definition fs_with_dt (ui : list unit_info_row) (l : list fs_row) : list (string * fs_row) :=
  map (fun p => (ui_dt (fst p), snd p))
      (merge (fun u f => String.eqb (ui_unit u) (fs_unit f)) ui l).

(** Mode 0 and 1: max 0.  /repo/src/nempy/spot_market_backend/unit_constraints.py:521-526. *)
Definition fs_mode_one (l : list (string * fs_row)) : list ulimit :=
  map (fun p => ULimit (fs_unit (snd p)) "energy" (fst p) 0)
      (filter (fun p => Z.eqb (fs_end_mode (snd p)) 0 || Z.eqb (fs_end_mode (snd p)) 1) l).

(** Mode 2: target (time_in_end_mode / mode_two_length) * min_loading.  A zero
    mode length makes python's value null or infinite; theorems carry the guard.
    /repo/src/nempy/spot_market_backend/unit_constraints.py:529-537. *)
Definition fs_mode_two (l : list (string * fs_row)) : list ulimit :=
  map (fun p => ULimit (fs_unit (snd p)) "energy" (fst p)
         ((fs_time_in_end_mode (snd p) / fs_mode_two_length (snd p)) * fs_min_loading (snd p)))
      (filter (fun p => Z.eqb (fs_end_mode (snd p)) 2) l).

(** Mode 3: min loading.  /repo/src/nempy/spot_market_backend/unit_constraints.py:540-544. *)
Definition fs_mode_three (l : list (string * fs_row)) : list ulimit :=
  map (fun p => ULimit (fs_unit (snd p)) "energy" (fst p) (fs_min_loading (snd p)))
      (filter (fun p => Z.eqb (fs_end_mode (snd p)) 3) l).

(** Mode 4: min_loading - (time_in_end_mode / mode_four_length) * min_loading.
    /repo/src/nempy/spot_market_backend/unit_constraints.py:547-556. *)
Definition fs_mode_four (l : list (string * fs_row)) : list ulimit :=
  map (fun p => ULimit (fs_unit (snd p)) "energy" (fst p)
         (fs_min_loading (snd p)
          - (fs_time_in_end_mode (snd p) / fs_mode_four_length (snd p)) * fs_min_loading (snd p)))
      (filter (fun p => Z.eqb (fs_end_mode (snd p)) 4) l).

(** [create_fast_start_profile_constraints]: mode 1 max, mode 2 min, mode 2 max,
    mode 3 min, mode 4 min, with consecutive ids.  Each block advances the next
    id by its number of rows ([max + 1] of a non-empty block), an empty block
    leaves it.  /repo/src/nempy/spot_market_backend/unit_constraints.py:440-496. *)
Definition fast_start_blocks (l : list (string * fs_row)) : list (list ulimit * string) :=
  [ (fs_mode_one l, "<="); (fs_mode_two l, ">="); (fs_mode_two l, "<=");
    (fs_mode_three l, ">="); (fs_mode_four l, ">=") ].

(** As above.  /repo/src/nempy/spot_market_backend/unit_constraints.py:440-496. *)
Fixpoint blocks_rhs (bs : list (list ulimit * string)) (next : nat) : list crow :=
  match bs with
  | [] => []
  | (l, d) :: t => create_constraints_rhs l next d ++ blocks_rhs t (next + length l)
  end.
(** As above.  /repo/src/nempy/spot_market_backend/unit_constraints.py:440-496. *)
Fixpoint blocks_map (bs : list (list ulimit * string)) (next : nat) : list ucrow :=
  match bs with
  | [] => []
  | (l, _) :: t => create_constraints_map l next ++ blocks_map t (next + length l)
  end.

(** As above.  /repo/src/nempy/spot_market_backend/unit_constraints.py:440-496. *)
Definition fast_start_rhs (l : list (string * fs_row)) (next : nat) : list crow :=
  blocks_rhs (fast_start_blocks l) next.
(** As above.  /repo/src/nempy/spot_market_backend/unit_constraints.py:440-496. *)
Definition fast_start_map (l : list (string * fs_row)) (next : nat) : list ucrow :=
  blocks_map (fast_start_blocks l) next.

(** Tie break constraints.  A candidate row: an energy price bid with its upper
    bound and its unit's region.  /repo/src/nempy/spot_market_backend/unit_constraints.py:560-564. *)
Record tie_row := Tie {
  ti_var : nat; ti_unit : string; ti_dt : string; ti_band : string; ti_cost : Q;
  ti_ub : Q; ti_region : string }.

(** As above.  /repo/src/nempy/spot_market_backend/unit_constraints.py:560-564. *)
Definition tie_rows (prices : list objrow) (vs : list bidvar) (ui : list unit_info_row)
  : list tie_row :=
  map (fun p => let '((o, v), u) := p in
         Tie (ob_var o) (ob_unit o) (ob_dt o) (ob_band o) (ob_cost o) (bv_ub v) (ui_region u))
      (merge (fun (p : objrow * bidvar) u => String.eqb (ob_unit (fst p)) (ui_unit u))
         (merge (fun o v => Nat.eqb (ob_var o) (bv_id v))
            (filter (fun o => String.eqb (ob_service o) "energy") prices) vs)
         ui).

(** [make_id]: the two unit names and two band names, sorted as strings and
    joined.  /repo/src/nempy/spot_market_backend/unit_constraints.py:569-572. *)
Definition tie_name (a b : tie_row) : string :=
  String.concat "" (sort_rows String.leb [ti_unit a; ti_band a; ti_unit b; ti_band b]).

(** Self join on cost, region and dispatch type, different units, one row per
    name.  /repo/src/nempy/spot_market_backend/unit_constraints.py:566-578. *)
Definition tie_pairs (rows : list tie_row) : list (tie_row * tie_row) :=
  drop_duplicates (fun p q => String.eqb (tie_name (fst p) (snd p)) (tie_name (fst q) (snd q)))
    (filter (fun p => negb (String.eqb (ti_unit (fst p)) (ti_unit (snd p))))
       (merge (fun a b => Qeq_bool (ti_cost a) (ti_cost b)
                          && String.eqb (ti_region a) (ti_region b)
                          && String.eqb (ti_dt a) (ti_dt b)) rows rows)).

(** lhs 1/upper_bound_x and -1/upper_bound_y, rhs 0.  /repo/src/nempy/spot_market_backend/unit_constraints.py:580-598. *)
Definition tie_lhs (pairs : list (tie_row * tie_row)) (next : nat) : list lrow :=
  map (fun p => let '(i, (a, _)) := p in LRow i (ti_var a) (1 / ti_ub a)) (save_index next pairs)
  ++ map (fun p => let '(i, (_, b)) := p in LRow i (ti_var b) (-(1) / ti_ub b)) (save_index next pairs).
(** As above.  /repo/src/nempy/spot_market_backend/unit_constraints.py:580-598. *)
Definition tie_rhs (pairs : list (tie_row * tie_row)) (next : nat) : list crow :=
  map (fun p => CRow (fst p) "=" 0 KNone) (save_index next pairs).
