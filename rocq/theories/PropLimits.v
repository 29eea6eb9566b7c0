(** C07, C08, C09, C11: limits on single units. *)

From Coq Require Import QArith String List Bool.
Import ListNotations.
From Verif Require Import PandasModel TablesModel MarketModel RampModel SpecLp SpecHistory SpecDispatch SpecRamp
  Fixtures CheckFacts LimitFacts CompositeFacts RampFacts.
Open Scope string_scope.
Open Scope list_scope.

(** The market and the dispatch used in the examples below. *)
Definition gx_market : market := final gx_config gx_ops.
Definition gx_x : assignment := values gx_dispatch.

Lemma gx_solution : solution gx_market gx_x.
Proof. solves. Qed.

(** A unit without an energy bid band has no variable in the constraint, its
    dispatch is zero; then the claim needs a non-negative capacity. *)
Theorem C07_capacity_limits :
  forall c l m x, in_force c (OpCapacity l None) m -> solution m x ->
    forall r, In r l -> registered c (li_unit r) (li_dt r) ->
      offers m (li_unit r) "energy" (li_dt r) \/ 0 <= li_cap r ->
      dispatch m x (li_unit r) "energy" (li_dt r) <= li_cap r.
Proof. exact capacity_respected. Qed.
Print Assumptions C07_capacity_limits.

Example C07_case :
  in_force gx_config (OpCapacity gx_limits None) gx_market /\ solution gx_market gx_x
  /\ In (Limit "S" "load" 15) gx_limits /\ registered gx_config "S" "load"
  /\ offers gx_market "S" "energy" "load" /\ two_sided gx_config "S"
  /\ dispatch gx_market gx_x "S" "energy" "load" == 2.
Proof. split; [in_force_at 2%nat|]. split; [exact gx_solution|]. all_decided. Qed.

Theorem C07_forecast_limits :
  forall c l m x, in_force c (OpUigf l None) m -> solution m x ->
    forall r, In r l -> registered c (ug_unit r) "generator" ->
      offers m (ug_unit r) "energy" "generator" \/ 0 <= ug_cap r ->
      dispatch m x (ug_unit r) "energy" "generator" <= ug_cap r.
Proof. exact uigf_respected. Qed.
Print Assumptions C07_forecast_limits.

Example C07_forecast_case :
  in_force gx_config (OpUigf gx_forecast None) gx_market /\ solution gx_market gx_x
  /\ In (Uigf "W" 25) gx_forecast /\ registered gx_config "W" "generator"
  /\ offers gx_market "W" "energy" "generator"
  /\ dispatch gx_market gx_x "W" "energy" "generator" == 25.
Proof. split; [in_force_at 3%nat|]. split; [exact gx_solution|]. all_decided. Qed.

(** Bids of a dispatch type that unit_info does not list for the unit are accepted
    but escape every unit constraint: the capacity of A is 10, its load side is
    dispatched at 50. *)
Definition unlisted_ops : list op :=
  [OpVolumeBids (BidTable ["1"] [BidRow "A" "energy" "generator" (fun _ => 50); BidRow "A" "energy" "load" (fun _ => 50)]);
   OpCapacity [Limit "A" "load" 10; Limit "A" "generator" 10] None].
Theorem C07_unlisted_side_is_not_limited :
  exists c l m x r, in_force c (OpCapacity l None) m /\ solution m x /\ In r l
    /\ offers m (li_unit r) "energy" (li_dt r)
    /\ ~ registered c (li_unit r) (li_dt r)
    /\ li_cap r < dispatch m x (li_unit r) "energy" (li_dt r).
Proof.
  exists gx_config, [Limit "A" "load" 10; Limit "A" "generator" 10], (final gx_config unlisted_ops),
    (values [0; 50]), (Limit "A" "load" 10).
  split; [in_force_at 1%nat|]. split; [solves|]. all_decided.
Qed.
Print Assumptions C07_unlisted_side_is_not_limited.

(** The ramp table is the documented one, without SCADA columns of its own; see
    [C08_own_scada_columns_refuted] for the other case. *)
Theorem C08_ramp_limits :
  forall c t s p m x,
    in_force c (OpRamp t s p "no_fast_start_units" None) m -> solution m x ->
    rt_has_up t = false -> rt_has_down t = false ->
    forall r, In r (map ri_row (rt_rows t)) ->
      registered c (rr_unit r) (rr_dt r) -> ~ two_sided c (rr_unit r) ->
      offers m (rr_unit r) "energy" (rr_dt r) ->
      exists up down,
        smaller_rate (rr_up r) (scada_up s (rr_unit r)) up
        /\ smaller_rate (rr_down r) (scada_down s (rr_unit r)) down
        /\ rr_init r - down * c_interval c / 60 <= dispatch m x (rr_unit r) "energy" (rr_dt r)
        /\ dispatch m x (rr_unit r) "energy" (rr_dt r) <= rr_init r + up * c_interval c / 60.
Proof. exact ramp_respected. Qed.
Print Assumptions C08_ramp_limits.

Example C08_case :
  in_force gx_config (OpRamp gx_ramp (Some gx_scada) None "no_fast_start_units" None) gx_market
  /\ solution gx_market gx_x
  /\ In (Ramp "A" "generator" 80 240 240) (map ri_row (rt_rows gx_ramp))
  /\ registered gx_config "A" "generator" /\ ~ two_sided gx_config "A"
  /\ offers gx_market "A" "energy" "generator"
  /\ smaller_rate 240 (scada_up (Some gx_scada) "A") 180
  /\ smaller_rate 240 (scada_down (Some gx_scada) "A") 240.
Proof.
  split; [in_force_at 4%nat|]. split; [exact gx_solution|]. all_decided.
  cbn. repeat split; try decided. right. reflexivity.
Qed.

(** A ramp table that also has a column for the SCADA rate makes the SCADA table
    ineffective: the SCADA rate of A allows 80 + 60/12 MW, A is dispatched at 100. *)
Definition own_columns : ramp_table :=
  RampTable true false [RampIn (Ramp "A" "generator" 80 240 240) None None].
Definition own_columns_ops : list op :=
  [OpVolumeBids gx_volumes; OpRamp own_columns (Some (ScadaTable true false [Scada "A" (Some 60) None])) None
     "no_fast_start_units" None].
Theorem C08_own_scada_columns_refuted :
  exists c t s p m x r,
    in_force c (OpRamp t s p "no_fast_start_units" None) m /\ solution m x
    /\ In r (map ri_row (rt_rows t)) /\ registered c (rr_unit r) (rr_dt r)
    /\ ~ two_sided c (rr_unit r) /\ offers m (rr_unit r) "energy" (rr_dt r)
    /\ forall up, smaller_rate (rr_up r) (scada_up s (rr_unit r)) up ->
         rr_init r + up * c_interval c / 60 < dispatch m x (rr_unit r) "energy" (rr_dt r).
Proof.
  exists gx_config, own_columns, (Some (ScadaTable true false [Scada "A" (Some 60) None])), None,
    (final gx_config own_columns_ops), (values [100]), (Ramp "A" "generator" 80 240 240).
  split; [in_force_at 1%nat|]. split; [solves|]. all_decided.
  intros up [_ [H _]]. cbn [rr_init rr_unit rr_dt].
  assert (E : dispatch (final gx_config own_columns_ops) (values [100]) "A" "energy" "generator" == 100) by (vm_compute; reflexivity).
  rewrite E. cbn [scada_up] in H. change (c_interval gx_config) with 5. unfold Qdiv.
  apply (Qle_lt_trans _ (80 + 60 * 5 * / 60)); [|vm_compute; reflexivity].
  apply Qplus_le_r. apply Qmult_le_compat_r; [|vm_compute; discriminate].
  apply Qmult_le_compat_r; [exact H|vm_compute; discriminate].
Qed.
Print Assumptions C08_own_scada_columns_refuted.

(** The code's composite rates lead to the outputs that the two-phase description
    gives, these outputs are unique, and the falling case mirrors the rising one. *)
Theorem C09_composite_up_rate :
  forall h init low high, 0 < h -> 0 <= low ->
    rises_to h init low high (init + composite_up h init high low * h).
Proof. exact composite_up_reaches. Qed.
Print Assumptions C09_composite_up_rate.

Theorem C09_composite_down_rate :
  forall h init low high, 0 < h -> 0 <= high ->
    falls_to h init low high (init - composite_down h init low high * h).
Proof. exact composite_down_reaches. Qed.
Print Assumptions C09_composite_down_rate.

Theorem C09_limit_unique :
  forall h init low high q q', 0 <= low -> 0 <= high ->
    rises_to h init low high q -> rises_to h init low high q' -> q == q'.
Proof. exact rises_to_unique. Qed.
Print Assumptions C09_limit_unique.

Theorem C09_mirror :
  forall h init low high,
    composite_down h init low high == composite_up h (- init) low high.
Proof. exact composite_down_mirror. Qed.
Print Assumptions C09_mirror.

Theorem C09_limit_monotone :
  forall h i i' low high q q', 0 <= low -> 0 <= high -> i <= i' ->
    rises_to h i low high q -> rises_to h i' low high q' -> q <= q'.
Proof. exact rises_to_monotone. Qed.
Print Assumptions C09_limit_monotone.

(** Continuity in the initial output: Lipschitz with constant 1 + high/low. *)
Theorem C09_limit_continuous :
  forall h i i' low high q q', 0 < low -> 0 <= high -> i <= i' ->
    rises_to h i low high q -> rises_to h i' low high q' ->
    low * (q' - q) <= (low + high) * (i' - i).
Proof. exact rises_to_lipschitz. Qed.
Print Assumptions C09_limit_continuous.

(** Starting at -3 and moving at 48 per hour below zero and 60 above, five minutes
    lead to 1.25. *)
Example C09_rate_case :
  rises_to (5#60) (-3) 48 60 (5#4) /\ -3 + composite_up (5#60) (-3) 60 48 * (5#60) == 5#4
  /\ falls_to (5#60) 3 60 48 (-(5#4)) /\ rises_to (5#60) (-10) 48 60 (-6).
Proof.
  split; [|split; [vm_compute; reflexivity|split]].
  - exists (1#16), 0. repeat split; vm_compute; congruence.
  - exists (1#16), 0. repeat split; vm_compute; congruence.
  - exists (5#60), (-6). repeat split; vm_compute; congruence.
Qed.

Theorem C09_bidirectional_ramp_limits :
  forall c t s p rt m x,
    in_force c (OpRamp t s p rt None) m -> solution m x -> 0 < c_interval c ->
    forall g ld, In g (map ri_row (rt_rows t)) -> In ld (map ri_row (rt_rows t)) ->
      rr_unit ld = rr_unit g -> rr_dt g = "generator" -> rr_dt ld = "load" ->
      two_sided c (rr_unit g) ->
      offers m (rr_unit g) "energy" "generator" \/ offers m (rr_unit g) "energy" "load" ->
      0 <= rr_down g -> 0 <= rr_down ld -> rr_init g == rr_init ld ->
      let h := c_interval c / 60 in
      exists top bottom up down,
        rises_to h (rr_init g) (rr_down ld) (rr_up g) top
        /\ falls_to h (rr_init g) (rr_up ld) (rr_down g) bottom
        /\ smaller_rate ((top - rr_init g) / h) (scada_up s (rr_unit g)) up
        /\ smaller_rate ((rr_init g - bottom) / h) (scada_down s (rr_unit g)) down
        /\ rr_init g - down * h <= net_energy m x (rr_unit g)
        /\ net_energy m x (rr_unit g) <= rr_init g + up * h.
Proof. exact bdu_ramp_respected. Qed.
Print Assumptions C09_bidirectional_ramp_limits.

Example C09_case :
  in_force gx_config (OpRamp gx_ramp (Some gx_scada) None "no_fast_start_units" None) gx_market
  /\ solution gx_market gx_x /\ 0 < c_interval gx_config
  /\ In (Ramp "S" "generator" (-3) 60 60) (map ri_row (rt_rows gx_ramp))
  /\ In (Ramp "S" "load" (-3) 120 48) (map ri_row (rt_rows gx_ramp))
  /\ two_sided gx_config "S" /\ offers gx_market "S" "energy" "generator"
  /\ net_energy gx_market gx_x "S" == -2.
Proof. split; [in_force_at 4%nat|]. split; [exact gx_solution|]. all_decided. Qed.

Theorem C11_max_availability :
  forall c l m x, in_force c (OpMaxAvail l None) m -> solution m x ->
    forall r, In r l -> registered c (ma_unit r) (ma_dt r) ->
      dispatch m x (ma_unit r) (ma_service r) (ma_dt r) <= ma_max r.
Proof. exact max_avail_respected. Qed.
Print Assumptions C11_max_availability.

Example C11_case :
  in_force gx_config (OpMaxAvail gx_avail None) gx_market /\ solution gx_market gx_x
  /\ In (MaxAvail "A" "raise_6s" "generator" 8) gx_avail /\ registered gx_config "A" "generator"
  /\ dispatch gx_market gx_x "A" "raise_6s" "generator" == 5.
Proof. split; [in_force_at 8%nat|]. split; [exact gx_solution|]. all_decided. Qed.
