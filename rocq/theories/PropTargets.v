(** C96: the fast start profiles made for dispatch have targets that are numbers. *)

From Coq Require Import QArith Lqa String List Bool ZArith Lia.
Import ListNotations.
From Verif Require Import PandasModel TablesModel UnitConstraintsModel MarketModel ReportsModel FrameModel CallModel ModesModel TargetsModel
  SpecModes TargetsFacts PropCalls PropTables.
Open Scope string_scope.
Open Scope list_scope.

(** Every row made for dispatch has a target from zero to the minimum loading, unless
    it is in mode 4 and mode 4 has no length.  Missing for the full claim: those rows,
    for which it is false. *)
Theorem C96_defined_partial :
  forall ps rep f, (forall p, In p ps -> in_modes p) -> In f (fs_table (update_modes ps rep)) -> (forall p, In p ps -> 0 <= pf_min_loading p) ->
  (fs_end_mode f = 4%Z -> 0 < fs_mode_four_length f) ->
  exists q, fs_target f = Some q /\ 0 <= q <= fs_min_loading f.
Proof. exact target_defined. Qed.
Print Assumptions C96_defined_partial.

(** The rows without a target are exactly those, and in them zero is divided by zero. *)
Theorem C96_missing :
  forall ps rep f, (forall p, In p ps -> in_modes p) -> In f (fs_table (update_modes ps rep)) -> (forall p, In p ps -> 0 <= pf_min_loading p) ->
  (fs_target f = None <-> fs_end_mode f = 4%Z /\ fs_mode_four_length f == 0)
  /\ (fs_target f = None -> fs_time_in_end_mode f == 0).
Proof. exact target_missing. Qed.
Print Assumptions C96_missing.

(** The right hand sides the market sets are the targets, where they are numbers. *)
Theorem C96_limits :
  forall l lim, In lim (fs_mode_one l ++ fs_mode_two l ++ fs_mode_three l ++ fs_mode_four l) ->
  exists f, In (ul_dt lim, f) l /\ fs_unit f = ul_unit lim /\ ul_service lim = "energy" /\ forall q, fs_target f = Some q -> ul_rhs lim == q.
Proof. exact limits_are_targets. Qed.
Print Assumptions C96_limits.

(** A ends in mode 4 after one of 10 minutes, with a target of 18; B ends in mode 4,
    which has no length for it. *)
Definition tg_profiles : list profile := [Profile "A" 20 3 1 5 5 5 10; Profile "B" 30 3 4 5 5 5 0].
Definition tg_report : list (ukey * Q) := [(("A", "generator", "energy"), 20); (("B", "generator", "energy"), 30)].
Definition tg_rows : list fs_row := Eval vm_compute in fs_table (update_modes tg_profiles tg_report).
Lemma tg_sound : forall p, In p tg_profiles -> sound p /\ in_modes p /\ 0 <= pf_min_loading p.
Proof.
  intros p [<-|[<-|[]]]; unfold sound, in_modes; cbn; repeat split; try (vm_compute; congruence); try lra; try lia.
Qed.
Example C96_case :
  (forall p, In p tg_profiles -> in_modes p) /\ (forall p, In p tg_profiles -> 0 <= pf_min_loading p)
  /\ exists a b, fs_table (update_modes tg_profiles tg_report) = [a; b] /\ fs_unit a = "A" /\ fs_end_mode a = 4%Z /\ 0 < fs_mode_four_length a
     /\ (exists q, fs_target a = Some q /\ q == 18)
     /\ fs_unit b = "B" /\ fs_end_mode b = 4%Z /\ fs_mode_four_length b == 0 /\ fs_target b = None
     /\ (exists lim, In lim (fs_mode_four [("generator", a)]) /\ ul_rhs lim == 18).
Proof.
  split; [intros p H; apply (tg_sound p H)|]. split; [intros p H; apply (tg_sound p H)|].
  exists (nth 0 tg_rows (Fs "" 0 0 0 0 0)), (nth 1 tg_rows (Fs "" 0 0 0 0 0)). split; [vm_compute; reflexivity|].
  split; [reflexivity|]. split; [reflexivity|]. split; [reflexivity|]. split; [eexists; split; [vm_compute; reflexivity|reflexivity]|].
  split; [reflexivity|]. split; [reflexivity|]. split; [reflexivity|]. split; [reflexivity|].
  eexists. split; [left; reflexivity|vm_compute; reflexivity].
Qed.

(** Sound data give a row without a target, and the market accepts it. *)
Definition tg_frame : frame :=
  Frame 1 [cx_text "unit" ["B"]; cx_ints "end_mode" [4%Z]; cx_nums "time_in_end_mode" [0]; cx_nums "mode_two_length" [5];
           cx_nums "mode_four_length" [0]; cx_nums "min_loading" [30]].
Theorem C96_refuted :
  exists ps rep f fr m m2 seen, (forall p, In p ps -> sound p /\ 0 <= pf_min_loading p)
    /\ In f (fs_table (update_modes ps rep)) /\ fs_target f = None
    /\ read_fs fr = Some [f] /\ call false (FFastStart fr None) m = Some (m2, None, seen).
Proof.
  exists tg_profiles, tg_report, (Fs "B" 4 0 5 0 30), tg_frame, cx_market. do 2 eexists.
  split; [intros p H; split; apply (tg_sound p H)|]. split; [vm_compute; auto|]. split; [reflexivity|].
  split; [vm_compute; reflexivity|vm_compute; reflexivity].
Qed.
Print Assumptions C96_refuted.
