(** Model of nempy/historical_inputs/units.py: the modes of fast start units over
    a dispatch interval.  Definitions only. *)

From Coq Require Import QArith String List Bool ZArith.
Import ListNotations.
From Verif Require Import PandasModel TablesModel MarketModel ReportsModel.
Open Scope string_scope.
Open Scope list_scope.

(** A fast start profile: unit, min_loading, current_mode, time_in_current_mode and
    the four mode lengths.  The loader makes all numbers integers; here times and
    lengths are any rationals.
    /repo/src/nempy/historical_inputs/xml_cache.py:336-356, /repo/src/nempy/historical_inputs/units.py:437-439. *)
Record profile := Profile {
  pf_unit : string; pf_min_loading : Q; pf_mode : Z; pf_time : Q;
  pf_len1 : Q; pf_len2 : Q; pf_len3 : Q; pf_len4 : Q }.

(** A row while the modes are worked out: the profile, the dispatch merged with it,
    temp_current_mode, temp_time_in_current_mode, time_left_in_interval and
    time_since_end_of_mode_two ([None] is NaN).
    /repo/src/nempy/historical_inputs/units.py:447-453, 478. *)
Record working := Working {
  wk_profile : profile; wk_dispatch : Q; wk_mode : Z; wk_time : Q; wk_left : Q; wk_since : option Q }.

(** The rows of energy dispatch of the profile units.
    /repo/src/nempy/historical_inputs/units.py:446-447. *)
Definition with_dispatch (ps : list profile) (rep : list (ukey * Q)) : list (profile * (ukey * Q)) :=
  merge (fun p (r : ukey * Q) => String.eqb (pf_unit p) (fst (fst (fst r))))
    ps (filter (fun r : ukey * Q => String.eqb (snd (fst r)) "energy") rep).

(** The start of the interval; a unit in mode 0 that is dispatched is committed.
    /repo/src/nempy/historical_inputs/units.py:450-458. *)
Definition start_row (p : profile * (ukey * Q)) : working :=
  let f := fst p in let d := snd (snd p) in
  Working f d (if Z.eqb (pf_mode f) 0 && negb (Qle_bool d 0) then 1%Z else pf_mode f) (pf_time f) 5 None.

(** One of the three blocks that move units on: the rows that leave [from] before
    the interval ends first, the other rows after them.
    /repo/src/nempy/historical_inputs/units.py:460-489. *)
Definition leaves_mode (from : Z) (len : profile -> Q) (w : working) : bool :=
  Z.eqb (wk_mode w) from && negb (Qle_bool (wk_left w) (len (wk_profile w) - wk_time w)).
(** As above.  /repo/src/nempy/historical_inputs/units.py:460-489. *)
Definition moved (to : Z) (len : profile -> Q) (since : bool) (w : working) : working :=
  let left := wk_left w - (len (wk_profile w) - wk_time w) in
  Working (wk_profile w) (wk_dispatch w) to 0 left (if since then Some left else wk_since w).
(** As above.  /repo/src/nempy/historical_inputs/units.py:460-489. *)
Definition move (from to : Z) (len : profile -> Q) (since : bool) (l : list working) : list working :=
  map (moved to len since) (filter (leaves_mode from len) l)
  ++ filter (fun w => negb (leaves_mode from len w)) l.

(** The result: end_mode, time_in_end_mode (zero in mode 0, at most the length of
    mode 4 in mode 4) and time_since_end_of_mode_two.
    /repo/src/nempy/historical_inputs/units.py:491-506. *)
Record mode_row := ModeRow {
  mo_profile : profile; mo_end_mode : Z; mo_time : Q; mo_since : option Q }.
(** As above.  /repo/src/nempy/historical_inputs/units.py:491-506. *)
Definition end_time (w : working) : Q :=
  let t := wk_time w + wk_left w in
  let t := if Z.eqb (wk_mode w) 0 then 0 else t in
  if Z.eqb (wk_mode w) 4 && negb (Qle_bool t (pf_len4 (wk_profile w))) then pf_len4 (wk_profile w) else t.
(** As above.  /repo/src/nempy/historical_inputs/units.py:491-506. *)
Definition mode_row_of (w : working) : mode_row := ModeRow (wk_profile w) (wk_mode w) (end_time w) (wk_since w).

(** [UnitData._update_modes].  /repo/src/nempy/historical_inputs/units.py:444-506. *)
Definition update_modes (ps : list profile) (rep : list (ukey * Q)) : list mode_row :=
  map mode_row_of
    (move 3 4 pf_len3 false
      (move 2 3 pf_len2 true
        (move 1 2 pf_len1 false
          (map start_row (with_dispatch ps rep))))).

(** [get_fast_start_profiles_for_dispatch] after a first run: the columns that
    set_fast_start_constraints reads, and those read with the ramp rates.
    /repo/src/nempy/historical_inputs/units.py:425-435. *)
Definition fs_table (l : list mode_row) : list fs_row :=
  map (fun r => Fs (pf_unit (mo_profile r)) (mo_end_mode r) (mo_time r) (pf_len2 (mo_profile r))
                   (pf_len4 (mo_profile r)) (pf_min_loading (mo_profile r))) l.
(** As above.  /repo/src/nempy/historical_inputs/units.py:425-435. *)
Definition fs_ramp_table (l : list mode_row) : list fs_ramp_row :=
  map (fun r => FsRamp (pf_unit (mo_profile r)) (pf_mode (mo_profile r)) (mo_end_mode r)
                       (pf_min_loading (mo_profile r)) (mo_since r)) l.
