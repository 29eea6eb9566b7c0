(** Properties of fast start modes and of consecutive intervals: C28, C47. *)

From Coq Require Import QArith Lqa String List Bool ZArith Lia.
Import ListNotations.
From Verif Require Import PandasModel TablesModel MarketModel ReportsModel ModesModel SequenceModel.
From Verif Require Import SpecLp SpecHistory SpecDispatch SpecModes SpecSequence Fixtures.
From Verif Require Import ModesFacts SequenceFacts CheckFacts PropLimits PropReplace.
Open Scope string_scope.
Open Scope list_scope.

(** ** C28 *)

(** Three units: off but dispatched, off, and in mode 2. *)
Definition md_profiles : list profile :=
  [Profile "A" 20 0 0 2 1 10 4; Profile "B" 20 0 0 5 3 15 0; Profile "F" 30 2 1 4 3 0 2].
Definition md_report : list (ukey * Q) :=
  [(("A", "generator", "energy"), 20); (("B", "generator", "energy"), 0);
   (("F", "generator", "raise_reg"), 3); (("F", "generator", "energy"), 10)].

(** The rows follow the process in time, which has one outcome. *)
Theorem C28_process :
  forall ps rep r, In r (update_modes ps rep) -> sound (mo_profile r) ->
  exists d, In (mo_profile r) ps /\ dispatched rep (pf_unit (mo_profile r)) d
    /\ advance (mo_profile r) (start_mode (mo_profile r) d) (pf_time (mo_profile r)) 5
         (mo_end_mode r) (mo_time r) (mo_since r).
Proof. exact row_advances. Qed.
Print Assumptions C28_process.

Theorem C28_one_outcome :
  forall p k t d k1 t1 s1, advance p k t d k1 t1 s1 -> forall t0 d0 k2 t2 s2, advance p k t0 d0 k2 t2 s2 ->
  t == t0 -> d == d0 ->
  k1 = k2 /\ t1 == t2 /\ match s1, s2 with Some a, Some b => a == b | None, None => True | _, _ => False end.
Proof. exact advance_one. Qed.
Print Assumptions C28_one_outcome.

Example C28_process_case :
  exists r1 r2 r3, update_modes md_profiles md_report = [r3; r1; r2]
    /\ (forall p, In p md_profiles -> sound p)
    /\ mo_profile r1 = nth 0 md_profiles (mo_profile r3) /\ mo_end_mode r1 = 3%Z /\ mo_time r1 == 2
    /\ (exists q, mo_since r1 = Some q /\ q == 2)
    /\ mo_end_mode r2 = 0%Z /\ mo_time r2 == 0 /\ mo_since r2 = None
    /\ mo_end_mode r3 = 4%Z /\ mo_time r3 == 2 /\ (exists q, mo_since r3 = Some q /\ q == 3).
Proof.
  do 3 eexists. split; [vm_compute; reflexivity|]. split.
  - intros p [<-|[<-|[<-|[]]]]; repeat split; try (vm_compute; congruence); try (intros [? ?]; vm_compute in *; congruence); cbn; lra.
  - cbn. repeat split; try (vm_compute; congruence); eexists; split; reflexivity.
Qed.

(** Every profile has one row for every row of energy dispatch of its unit. *)
Theorem C28_rows :
  forall ps rep u,
  length (filter (fun r => String.eqb (pf_unit (mo_profile r)) u) (update_modes ps rep))
  = (length (filter (fun p => String.eqb (pf_unit p) u) ps)
     * length (filter (fun r : ukey * Q => String.eqb (fst (fst (fst r))) u && String.eqb (snd (fst r)) "energy") rep))%nat.
Proof. exact rows_of_unit. Qed.
Print Assumptions C28_rows.

(** Modes never go back; time is kept; the time in the end mode fits the mode; the
    time since the end of mode 2 is given exactly if mode 2 ended. *)
Theorem C28_modes :
  forall ps rep r, In r (update_modes ps rep) -> in_modes (mo_profile r) ->
  exists d, let p := mo_profile r in let k := start_mode p d in
    In p ps /\ dispatched rep (pf_unit p) d
    /\ (k <= mo_end_mode r <= 4)%Z
    /\ (k = 0%Z -> mo_end_mode r = 0%Z /\ mo_time r = 0)
    /\ ((1 <= mo_end_mode r <= 3)%Z -> passed p k (mo_end_mode r) + mo_time r == pf_time p + 5)
    /\ (mo_end_mode r = 4%Z ->
         (passed p k 4 + mo_time r == pf_time p + 5 /\ mo_time r <= pf_len4 p)
         \/ (mo_time r == pf_len4 p /\ passed p k 4 + mo_time r < pf_time p + 5))
    /\ ((1 <= mo_end_mode r <= 4)%Z -> mo_time r <= mode_length p (mo_end_mode r))
    /\ ((1 <= mo_end_mode r <= 4)%Z -> 0 < pf_len4 p -> 0 < mo_time r)
    /\ ((1 <= mo_end_mode r <= 3)%Z -> 0 < mo_time r)
    /\ ((exists q, mo_since r = Some q) <-> (1 <= k <= 2 /\ 3 <= mo_end_mode r)%Z)
    /\ (forall q, mo_since r = Some q -> passed p k 3 + q == pf_time p + 5).
Proof. exact row_facts. Qed.
Print Assumptions C28_modes.

(** Targets in mode 2 are between zero and the minimum loading, over a mode of
    positive length. *)
Theorem C28_mode_two_target :
  forall ps rep f, (forall p, In p ps -> in_modes p) -> (forall p, In p ps -> 0 <= pf_min_loading p) ->
  In f (fs_table (update_modes ps rep)) -> fs_end_mode f = 2%Z ->
  0 < fs_mode_two_length f
  /\ 0 < fs_time_in_end_mode f / fs_mode_two_length f /\ fs_time_in_end_mode f / fs_mode_two_length f <= 1
  /\ 0 <= fs_time_in_end_mode f / fs_mode_two_length f * fs_min_loading f <= fs_min_loading f.
Proof. exact mode_two_target. Qed.
Print Assumptions C28_mode_two_target.

Example C28_modes_case :
  (forall p, In p (Profile "C" 20 1 3 4 9 10 4 :: md_profiles) -> in_modes p /\ 0 <= pf_min_loading p)
  /\ In (Fs "C" 2 (5 - (4 - 3)) 9 4 20)
       (map (fun f => Fs (fs_unit f) (fs_end_mode f) (Qred (fs_time_in_end_mode f)) (fs_mode_two_length f) (fs_mode_four_length f) (fs_min_loading f))
         (fs_table (update_modes (Profile "C" 20 1 3 4 9 10 4 :: md_profiles) ((("C", "generator", "energy"), 0) :: md_report))))
  /\ start_mode (Profile "A" 20 0 0 2 1 10 4) 20 = 1%Z.
Proof.
  split; [|split].
  - intros p [<-|[<-|[<-|[<-|[]]]]]; unfold in_modes; cbn; repeat split; try (vm_compute; congruence); lra.
  - vm_compute. auto 10.
  - reflexivity.
Qed.

(** Without the bound on the time spent in the current mode the time since the end
    of mode 2 can be longer than the interval. *)
Theorem C28_overrun_refuted :
  exists ps rep r q, In r (update_modes ps rep) /\ in_modes (mo_profile r) /\ mo_since r = Some q /\ 5 < q.
Proof.
  exists [Profile "A" 20 2 9 2 4 30 4], md_report. do 2 eexists. split; [vm_compute; left; reflexivity|].
  split; [unfold in_modes; cbn; repeat split; try (vm_compute; congruence); lra|]. split; [reflexivity|reflexivity].
Qed.
Print Assumptions C28_overrun_refuted.

(** ** C47 *)

Definition sq_rates : list rate_row := [Rate "A" (Some 600) (Some 300); Rate "Z" (Some 60) (Some 30); Rate "L" (Some 120) (Some 60)].

(** Every row of rates has one row of parameters, in the same order, with the same
    rates and the unit's dispatch in the report.  Missing for the full claim: units
    with two rows of energy dispatch and missing rates, for which it is false. *)
Theorem C47_rows_partial :
  forall rep rates, rated rates ->
  (forall r, In r rates -> (length (filter (fun row : ukey * Q =>
      String.eqb (fst (fst (fst row))) (ra_unit r) && String.eqb (snd (fst row)) "energy") rep) <= 1)%nat) ->
  Forall2 (fun r p => exists q, was_dispatched rep (ra_unit r) q /\ starts_at r q p) rates (ramp_parameters rep rates).
Proof. exact parameters_rows. Qed.
Print Assumptions C47_rows_partial.

(** The report of a market: the parameters start at the dispatch. *)
Theorem C47_market_partial :
  forall m x rep rates (side : string -> string), unit_dispatch m x = Ok rep -> rated rates ->
  (forall r, In r rates -> one_sided m (ra_unit r) (side (ra_unit r))) ->
  Forall2 (fun r p => starts_at r (dispatch m x (ra_unit r) "energy" (side (ra_unit r))) p) rates (ramp_parameters rep rates).
Proof. exact parameters_of_market. Qed.
Print Assumptions C47_market_partial.

Example C47_market_case :
  exists rep, unit_dispatch gx_market gx_x = Ok rep /\ rated sq_rates
  /\ (forall r, In r sq_rates -> one_sided gx_market (ra_unit r) (if String.eqb (ra_unit r) "L" then "load" else "generator"))
  /\ map pr_unit (ramp_parameters rep sq_rates) = ["A"; "Z"; "L"]
  /\ Forall2 Qeq (map pr_init (ramp_parameters rep sq_rates)) [1285#16; 0; 20].
Proof.
  eexists. split; [vm_compute; reflexivity|]. split; [intros r [<-|[<-|[<-|[]]]]; split; discriminate|]. split.
  - intros r H d' [v [Hv [E1 [E2 E3]]]]. vm_compute in Hv.
    repeat (destruct Hv as [<-|Hv]; [destruct H as [<-|[<-|[<-|[]]]]; cbn in *; congruence|]). destruct Hv.
  - split; [vm_compute; reflexivity|]. vm_compute. repeat constructor.
Qed.

(** The seed parameters: the rows of both tables that agree on the unit, one for
    every unit. *)
Theorem C47_seed :
  forall hist rates, (forall u q r, In (u, q, r) (seed_parameters hist rates) <-> In (u, q) hist /\ In r rates /\ ra_unit r = u)
  /\ (NoDup (map fst hist) -> NoDup (map ra_unit rates) -> NoDup (map (fun p => fst (fst p)) (seed_parameters hist rates))).
Proof. intros hist rates. split; [exact (seed_rows hist rates)|exact (seed_units hist rates)]. Qed.
Print Assumptions C47_seed.

Example C47_seed_case :
  In ("A", 80, Rate "A" (Some 600) (Some 300)) (seed_parameters [("B", 5); ("A", 80)] sq_rates)
  /\ NoDup (map fst [("B", 5); ("A", 80)]) /\ NoDup (map ra_unit sq_rates).
Proof. split; [cbn; auto|]. split; repeat (constructor; [cbn; intuition discriminate|]); constructor. Qed.

(** A bidirectional unit gets two rows, neither starting at its net dispatch. *)
Theorem C47_bidirectional_refuted :
  exists c m x rep r, reached c m /\ unit_dispatch m x = Ok rep /\ two_sided c (ra_unit r)
    /\ length (ramp_parameters rep [r]) = 2%nat
    /\ forall p, In p (ramp_parameters rep [r]) -> ~ pr_init p == net_energy m x (ra_unit r).
Proof.
  exists gx_config, gx_market, (fun i => if Nat.eqb i 11 then 10 else if Nat.eqb i 12 then 4 else 0), 
    (match unit_dispatch gx_market (fun i => if Nat.eqb i 11 then 10 else if Nat.eqb i 12 then 4 else 0) with Ok r => r | Err _ => [] end),
    (Rate "S" (Some 600) (Some 600)).
  split; [is_reached|]. split; [vm_compute; reflexivity|]. split.
  - split; apply registeredb_ok; vm_compute; reflexivity.
  - split; [vm_compute; reflexivity|]. intros p H. vm_compute in H. destruct H as [<-|[<-|[]]]; vm_compute; discriminate.
Qed.
Print Assumptions C47_bidirectional_refuted.

(** A missing rate becomes a rate of zero, so that the rates are not kept. *)
Theorem C47_missing_rate_refuted :
  exists rep r p, ra_up r = None /\ ramp_parameters rep [r] = [p] /\ pr_up p == 0.
Proof. exists [], (Rate "A" None (Some 1)), (Param "A" 0 0 1). repeat split; reflexivity. Qed.
Print Assumptions C47_missing_rate_refuted.
