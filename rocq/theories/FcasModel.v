(** Model of spot_market_backend/fcas_constraints.py.  Definitions only. *)

From Coq Require Import QArith String List Bool.
Import ListNotations.
From Verif Require Import PandasModel TablesModel.
Open Scope string_scope.
Open Scope list_scope.

(** A row of the table given to the joint ramping functions: a unit and dispatch
    type bidding a regulation service, with the ramp rate and initial output.
    /repo/src/nempy/markets.py:1535-1537, 1568-1570. *)
Record reg_limit := RegLimit {
  rl_unit : string; rl_dt : string; rl_service : string; rl_rate : Q; rl_init : Q }.

(** Settings of one side: constraint type, coefficient of the regulation service
    and direction of the ramp.
    /repo/src/nempy/spot_market_backend/fcas_constraints.py:48-56, 65-73. *)
Record reg_settings := RegSettings {
  rs_type : string; rs_coef : Q; rs_dir : Q; rs_service : string }.

(** As above.  /repo/src/nempy/spot_market_backend/fcas_constraints.py:48-56, 65-73. *)
Definition raise_gen : reg_settings := RegSettings "<=" 1 1 "raise_reg".
(** As above.  /repo/src/nempy/spot_market_backend/fcas_constraints.py:48-56, 65-73. *)
Definition raise_load : reg_settings := RegSettings ">=" (-(1)) (-(1)) "raise_reg".
(** As above.  /repo/src/nempy/spot_market_backend/fcas_constraints.py:48-56, 65-73. *)
Definition lower_gen : reg_settings := RegSettings ">=" (-(1)) (-(1)) "lower_reg".
(** As above.  /repo/src/nempy/spot_market_backend/fcas_constraints.py:48-56, 65-73. *)
Definition lower_load : reg_settings := RegSettings "<=" 1 1 "lower_reg".

(** [joint_ramping_constraints_generic_constructor].
    /repo/src/nempy/spot_market_backend/fcas_constraints.py:97-108. *)
Definition reg_rhs (s : reg_settings) (interval : Q) (l : list (nat * reg_limit)) : list crow :=
  map (fun p => let '(i, r) := p in
         CRow i (rs_type s) (rl_init r + rs_dir s * (rl_rate r * interval / 60))
              (KUnitOnly (rl_unit r))) l.
(** As above.  /repo/src/nempy/spot_market_backend/fcas_constraints.py:97-108. *)
Definition reg_map (s : reg_settings) (l : list (nat * reg_limit)) : list ucrow :=
  map (fun p => let '(i, r) := p in UC i (rl_unit r) (rs_service s) (rl_dt r) (rs_coef s)) l
  ++ map (fun p => let '(i, r) := p in UC i (rl_unit r) "energy" (rl_dt r) 1) l.

(** [joint_ramping_constraints_load_and_generator_constructor].
    /repo/src/nempy/spot_market_backend/fcas_constraints.py:80-94. *)
Definition side (d : string) (l : list (nat * reg_limit)) : list (nat * reg_limit) :=
  filter (fun p => String.eqb (rl_dt (snd p)) d) l.
(** As above.  /repo/src/nempy/spot_market_backend/fcas_constraints.py:80-94. *)
Definition joint_ramping_rhs (sg sl : reg_settings) (l : list reg_limit) (interval : Q) (next : nat)
  : list crow :=
  reg_rhs sg interval (side "generator" (save_index next l))
  ++ reg_rhs sl interval (side "load" (save_index next l)).
(** As above.  /repo/src/nempy/spot_market_backend/fcas_constraints.py:80-94. *)
Definition joint_ramping_map (sg sl : reg_settings) (l : list reg_limit) (next : nat) : list ucrow :=
  reg_map sg (side "generator" (save_index next l))
  ++ reg_map sl (side "load" (save_index next l)).

(** [joint_ramping_constraints_raise_reg_bdu] ([dir] = 1, [coef] = 1, "<=") and
    [joint_ramping_constraints_lower_reg_bdu] ([dir] = -1, [coef] = -1, ">=").
    /repo/src/nempy/spot_market_backend/fcas_constraints.py:6-43. *)
Definition reg_bdu_ids (l : list reg_limit) (next : nat) : list (nat * reg_limit) :=
  save_index next (drop_duplicates (fun a b => String.eqb (rl_unit a) (rl_unit b)) l).
(** As above.  /repo/src/nempy/spot_market_backend/fcas_constraints.py:6-43. *)
Definition reg_bdu_rhs (raise_side : bool) (l : list reg_limit) (interval : Q) (next : nat) : list crow :=
  map (fun p => let '(i, r) := p in
         CRow i (if raise_side then "<=" else ">=")
              (if raise_side then rl_init r + (rl_rate r * interval / 60)
               else rl_init r - (rl_rate r * interval / 60))
              (KUnitOnly (rl_unit r)))
      (reg_bdu_ids l next).
(** As above.  /repo/src/nempy/spot_market_backend/fcas_constraints.py:6-43. *)
Definition reg_bdu_map (raise_side : bool) (l : list reg_limit) (next : nat) : list ucrow :=
  let m := merge (fun (p : nat * reg_limit) r => String.eqb (rl_unit (snd p)) (rl_unit r))
                 (reg_bdu_ids l next) l in
  map (fun p => UC (fst (fst p)) (rl_unit (snd (fst p))) (rl_service (snd p)) (rl_dt (snd p))
                   (if raise_side then 1 else -(1))) m
  ++ map (fun p => UC (fst (fst p)) (rl_unit (snd (fst p))) "energy" (rl_dt (snd p)) 1) m.

(** Slope coefficients of a trapezium.  Zero max availability makes the python
    value null or infinite; theorems carry the guard.
    /repo/src/nempy/spot_market_backend/fcas_constraints.py:216-221, 424-429. *)
Definition upper_slope (t : trap_row) : Q := (tz_emax t - tz_hbp t) / tz_max t.
(** As above.  /repo/src/nempy/spot_market_backend/fcas_constraints.py:216-221, 424-429. *)
Definition lower_slope (t : trap_row) : Q := (tz_lbp t - tz_emin t) / tz_max t.

(** Right-hand sides of the joint capacity and of the energy and regulation
    capacity constraints: all upper slope rows, then all lower slope rows.
    /repo/src/nempy/spot_market_backend/fcas_constraints.py:210-237, 303, 418-445, 461. *)
Definition trap_rhs (l : list trap_row) (next : nat) : list crow :=
  map (fun p => let '(i, t) := p in
         CRow i "<=" (tz_emax t) (KUnit (tz_unit t) (tz_service t) (tz_dt t)))
      (save_index next l)
  ++ map (fun p => let '(i, t) := p in
         CRow i ">=" (tz_emin t) (KUnit (tz_unit t) (tz_service t) (tz_dt t)))
      (save_index (next + length l) l).

(** Map of the upper slope of joint capacity.
    /repo/src/nempy/spot_market_backend/fcas_constraints.py:240-265, 304-308. *)
Definition jc_upper_map (l : list (nat * trap_row)) (bdu : list string) : list ucrow :=
  let both := filter (fun p => mem_str (tz_unit (snd p)) bdu) l in
  let reg (t : trap_row) := if String.eqb (tz_dt t) "generator" then "raise_reg" else "lower_reg" in
  map (fun p => let '(i, t) := p in UC i (tz_unit t) "energy" (tz_dt t) 1) l
  ++ map (fun p => let '(i, t) := p in UC i (tz_unit t) (tz_service t) (tz_dt t) (upper_slope t)) l
  ++ map (fun p => let '(i, t) := p in UC i (tz_unit t) "energy" "load" 1) both
  ++ map (fun p => let '(i, t) := p in UC i (tz_unit t) (reg t) "load" 1) both
  ++ map (fun p => let '(i, t) := p in UC i (tz_unit t) (reg t) (tz_dt t) 1) l.

(** Map of the lower slope of joint capacity.  The load side of bidirectional
    units has coefficient +1 on the regulation service (line 301).
    /repo/src/nempy/spot_market_backend/fcas_constraints.py:268-301, 308-311. *)
Definition jc_lower_map (l : list (nat * trap_row)) (bdu : list string) : list ucrow :=
  let both := filter (fun p => mem_str (tz_unit (snd p)) bdu) l in
  let reg (t : trap_row) := if String.eqb (tz_dt t) "generator" then "lower_reg" else "raise_reg" in
  map (fun p => let '(i, t) := p in UC i (tz_unit t) "energy" (tz_dt t) 1) l
  ++ map (fun p => let '(i, t) := p in UC i (tz_unit t) "energy" "load" 1) both
  ++ map (fun p => let '(i, t) := p in
            UC i (tz_unit t) (tz_service t) (tz_dt t) (-(1) * lower_slope t)) l
  ++ map (fun p => let '(i, t) := p in UC i (tz_unit t) (reg t) (tz_dt t) (-(1))) l
  ++ map (fun p => let '(i, t) := p in UC i (tz_unit t) (reg t) "load" 1) both.

(** As above.  /repo/src/nempy/spot_market_backend/fcas_constraints.py:268-301, 308-311. *)
Definition joint_capacity_map (l : list trap_row) (bdu : list string) (next : nat) : list ucrow :=
  jc_upper_map (save_index next l) bdu ++ jc_lower_map (save_index (next + length l) l) bdu.

(** [energy_and_regulation_capacity_constraints].
    /repo/src/nempy/spot_market_backend/fcas_constraints.py:415-464. *)
Definition energy_reg_map (l : list trap_row) (next : nat) : list ucrow :=
  let up := save_index next l in
  let lo := save_index (next + length l) l in
  map (fun p => let '(i, t) := p in UC i (tz_unit t) "energy" (tz_dt t) 1) up
  ++ map (fun p => let '(i, t) := p in UC i (tz_unit t) (tz_service t) (tz_dt t) (upper_slope t)) up
  ++ map (fun p => let '(i, t) := p in UC i (tz_unit t) "energy" (tz_dt t) 1) lo
  ++ map (fun p => let '(i, t) := p in
            UC i (tz_unit t) (tz_service t) (tz_dt t) (-(1) * lower_slope t)) lo.
