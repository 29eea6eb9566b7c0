(** The fast start profile, and which units it frees from ramp limits. *)

From Coq Require Import QArith String List Bool ZArith.
Import ListNotations.
From Verif Require Import PandasModel TablesModel MarketModel SpecDispatch SpecRamp.
Open Scope string_scope.
Open Scope list_scope.

(** The level of the profile after [t] minutes in a mode: nothing while
    synchronising, a straight line up to min loading, min loading, a straight line
    down. *)
Definition start_level (mode : Z) (len2 len4 min t : Q) : Q :=
  if Z.eqb mode 2 then min * t / len2
  else if Z.eqb mode 3 then min
  else if Z.eqb mode 4 then min * (1 - t / len4)
  else 0.

(** The energy a unit may have in a mode. *)
Definition follows_profile (f : fs_row) (e : Q) : Prop :=
  let level := start_level (fs_end_mode f) (fs_mode_two_length f) (fs_mode_four_length f)
                 (fs_min_loading f) (fs_time_in_end_mode f) in
  ((fs_end_mode f = 0 \/ fs_end_mode f = 1 \/ fs_end_mode f = 2)%Z -> e == level)
  /\ ((fs_end_mode f = 3 \/ fs_end_mode f = 4)%Z -> level <= e).

(** The unit is listed in mode 0, 1 or 2 at the start, or at the end, of the interval. *)
Definition starts_low (p : list fs_ramp_row) (u : string) : Prop :=
  exists f, In f p /\ fr_unit f = u /\ (fr_current_mode f = 0 \/ fr_current_mode f = 1 \/ fr_current_mode f = 2)%Z.
Definition ends_low (p : list fs_ramp_row) (u : string) : Prop :=
  exists f, In f p /\ fr_unit f = u /\ (fr_end_mode f = 0 \/ fr_end_mode f = 1 \/ fr_end_mode f = 2)%Z.

(** The unit left mode two [t] minutes before the end of the interval. *)
Definition left_two (p : list fs_ramp_row) (u : string) (min t : Q) : Prop :=
  exists f, In f p /\ fr_unit f = u /\ fr_min_loading f = min /\ fr_since_mode_two f = Some t.

(** No constraint of the group is about the unit. *)
Definition not_about (m : market) (k u : string) : Prop :=
  forall cs c, dget k (m_c2v_unit m) = Some cs -> In c cs -> uc_unit c <> u.

(** The ramp limits of an ordinary unit. *)
Definition usual_limits (c : config) (m : market) (x : nat -> Q) (s : option scada_table) (r : ramp_row) : Prop :=
  exists up down,
      smaller_rate (rr_up r) (scada_up s (rr_unit r)) up
      /\ smaller_rate (rr_down r) (scada_down s (rr_unit r)) down
      /\ rr_init r - down * c_interval c / 60 <= dispatch m x (rr_unit r) "energy" (rr_dt r)
      /\ dispatch m x (rr_unit r) "energy" (rr_dt r) <= rr_init r + up * c_interval c / 60.

