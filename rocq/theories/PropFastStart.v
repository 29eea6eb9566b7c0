(** C27, C29: fast start units. *)

From Coq Require Import QArith String List Bool ZArith.
Import ListNotations.
From Verif Require Import PandasModel TablesModel MarketModel SpecLp SpecHistory SpecDispatch SpecRamp
  SpecFastStart Fixtures CheckFacts LimitFacts FastStartFacts PropLimits.
Open Scope string_scope.
Open Scope list_scope.

(** A zero length of the mode the unit ends in would divide by zero; the load side
    of a bidirectional unit has the opposite sign in unit constraints. *)
Theorem C27_profile_limits :
  forall c l m x, in_force c (OpFastStart l None) m -> solution m x ->
    forall f d, In f l -> registered c (fs_unit f) d -> (two_sided c (fs_unit f) -> d = "generator") ->
      offers m (fs_unit f) "energy" d ->
      (fs_end_mode f = 2%Z -> 0 < fs_mode_two_length f) -> (fs_end_mode f = 4%Z -> 0 < fs_mode_four_length f) ->
      follows_profile f (dispatch m x (fs_unit f) "energy" d).
Proof. exact fast_start_respected. Qed.
Print Assumptions C27_profile_limits.

(** The right-hand sides stay between zero and min loading. *)
Theorem C27_targets_in_range :
  forall c l m, in_force c (OpFastStart l None) m ->
    forall rows, dget "fast_start" (m_rhs m) = Some rows ->
    forall f d, In f l -> registered c (fs_unit f) d ->
      (fs_end_mode f = 2%Z -> 0 < fs_mode_two_length f /\ fs_time_in_end_mode f <= fs_mode_two_length f) ->
      (fs_end_mode f = 4%Z -> 0 < fs_mode_four_length f /\ fs_time_in_end_mode f <= fs_mode_four_length f) ->
      (0 <= fs_end_mode f <= 4)%Z ->
      forall r, In r rows -> cr_key r = KUnit (fs_unit f) "energy" d ->
        0 <= cr_rhs r /\ cr_rhs r <= fs_min_loading f.
Proof. exact fast_start_range. Qed.
Print Assumptions C27_targets_in_range.

(** The profile has no jump where one mode ends and the next begins. *)
Theorem C27_profile_continuous :
  forall len2 len4 min, 0 < len2 -> 0 < len4 ->
    (forall t, start_level 1 len2 len4 min t == start_level 2 len2 len4 min 0)
    /\ (forall t, start_level 2 len2 len4 min len2 == start_level 3 len2 len4 min t)
    /\ (forall t, start_level 3 len2 len4 min t == start_level 4 len2 len4 min 0)
    /\ start_level 4 len2 len4 min len4 == 0.
Proof. exact start_level_joins. Qed.
Print Assumptions C27_profile_continuous.

Example C27_case :
  in_force gx_config (OpFastStart gx_profile None) gx_market /\ solution gx_market gx_x
  /\ In (Fs "F" 2 3 6 10 10) gx_profile /\ registered gx_config "F" "generator"
  /\ ~ two_sided gx_config "F" /\ offers gx_market "F" "energy" "generator"
  /\ dispatch gx_market gx_x "F" "energy" "generator" == 5
  /\ (exists rows r, dget "fast_start" (m_rhs gx_market) = Some rows /\ In r rows
      /\ cr_key r = KUnit "F" "energy" "generator" /\ cr_rhs r == 5).
Proof.
  split; [in_force_at 5%nat|]. split; [exact gx_solution|]. repeat match goal with |- _ /\ _ => split | |- ex _ => fail 1 | _ => decided end.
  eexists. eexists. split; [vm_compute; reflexivity|]. split; [left; reflexivity|]. split; decided.
Qed.

Theorem C29_first_run :
  forall c t s p m x,
    in_force c (OpRamp t s (Some p) "fast_start_first_run" None) m -> solution m x ->
    rt_has_up t = false -> rt_has_down t = false ->
    (forall u, starts_low p u -> not_about m "ramp_up" u /\ not_about m "ramp_down" u)
    /\ (forall r, In r (map ri_row (rt_rows t)) -> ~ starts_low p (rr_unit r) ->
        registered c (rr_unit r) (rr_dt r) -> ~ two_sided c (rr_unit r) ->
        offers m (rr_unit r) "energy" (rr_dt r) ->
        usual_limits c m x s r).
Proof. exact fast_start_first_run. Qed.
Print Assumptions C29_first_run.

Theorem C29_second_run :
  forall c t s p m x,
    in_force c (OpRamp t s (Some p) "fast_start_second_run" None) m -> solution m x ->
    rt_has_up t = false -> rt_has_down t = false ->
    (forall u, ends_low p u -> not_about m "ramp_up" u /\ not_about m "ramp_down" u)
    /\ (forall r, In r (map ri_row (rt_rows t)) -> ~ ends_low p (rr_unit r) ->
        registered c (rr_unit r) (rr_dt r) -> ~ two_sided c (rr_unit r) ->
        offers m (rr_unit r) "energy" (rr_dt r) ->
        ((forall min since, ~ left_two p (rr_unit r) min since) -> usual_limits c m x s r)
        /\ (forall min since, left_two p (rr_unit r) min since -> ~ c_interval c == 0 ->
            exists up down,
              smaller_rate (rr_up r) (scada_up s (rr_unit r)) up
              /\ smaller_rate (rr_down r) (scada_down s (rr_unit r)) down
              /\ rr_init r - down * c_interval c / 60 <= dispatch m x (rr_unit r) "energy" (rr_dt r)
              /\ dispatch m x (rr_unit r) "energy" (rr_dt r) <= min + up * since / 60
              /\ exists rows k, dget "ramp_up" (m_rhs m) = Some rows /\ In k rows
                   /\ cr_key k = KUnit (rr_unit r) "energy" (rr_dt r) /\ cr_type k = "<="
                   /\ cr_rhs k == min + up * since / 60)).
Proof. exact fast_start_second_run. Qed.
Print Assumptions C29_second_run.

(** A starts in mode 1 and ends in mode 2; F leaves mode 2 two minutes before the
    end; B is no fast start unit. *)
Definition start_ramp : ramp_table :=
  RampTable false false (map (fun r => RampIn r None None)
    [Ramp "A" "generator" 0 240 240; Ramp "F" "generator" 0 60 60; Ramp "B" "generator" 10 120 120]).
Definition start_profiles : list fs_ramp_row := [FsRamp "A" 1 2 20 None; FsRamp "F" 2 3 10 (Some 2)].
Definition start_ops (run_type : string) : list op :=
  [OpVolumeBids gx_volumes; OpRamp start_ramp None (Some start_profiles) run_type None].
Definition start_x : assignment := values [100; 0; 0; 0; 0; 15; 0; 10; 2].

Example C29_case :
  in_force gx_config (OpRamp start_ramp None (Some start_profiles) "fast_start_first_run" None)
    (final gx_config (start_ops "fast_start_first_run"))
  /\ solution (final gx_config (start_ops "fast_start_first_run")) start_x
  /\ in_force gx_config (OpRamp start_ramp None (Some start_profiles) "fast_start_second_run" None)
    (final gx_config (start_ops "fast_start_second_run"))
  /\ solution (final gx_config (start_ops "fast_start_second_run")) start_x
  /\ starts_low start_profiles "A" /\ starts_low start_profiles "F" /\ ~ starts_low start_profiles "B"
  /\ ends_low start_profiles "A" /\ ~ ends_low start_profiles "F" /\ left_two start_profiles "F" 10 2
  /\ ~ c_interval gx_config == 0 /\ registered gx_config "F" "generator" /\ ~ two_sided gx_config "F"
  /\ offers (final gx_config (start_ops "fast_start_second_run")) "F" "energy" "generator"
  /\ dispatch (final gx_config (start_ops "fast_start_second_run")) start_x "F" "energy" "generator" == 12.
Proof.
  split; [in_force_at 1%nat|]. split; [solves|]. split; [in_force_at 1%nat|]. split; [solves|].
  repeat match goal with |- _ /\ _ => split end;
    try match goal with |- starts_low _ _ => fail 1 | |- ends_low _ _ => fail 1
          | |- ~ starts_low _ _ => fail 1 | |- ~ ends_low _ _ => fail 1
          | |- left_two _ _ _ _ => fail 1 | _ => decided end.
  - exists (FsRamp "A" 1 2 20 None). cbn; auto 10.
  - exists (FsRamp "F" 2 3 10 (Some 2)). cbn; auto 10.
  - intros [f [[<-|[<-|[]]] [E _]]]; discriminate.
  - exists (FsRamp "A" 1 2 20 None). cbn; auto 10.
  - intros [f [[<-|[<-|[]]] [E M]]]; cbn in E, M; [discriminate|]. destruct M as [M|[M|M]]; discriminate.
  - exists (FsRamp "F" 2 3 10 (Some 2)). cbn; auto 10.
Qed.
