(** C66: limits that were made elastic, where nothing is violated. *)

From Coq Require Import QArith Lqa String List Bool ZArith.
Import ListNotations.
From Verif Require Import PandasModel TablesModel MarketModel SolverModel SpecLp SpecHistory SpecDispatch SpecNetwork SpecRamp SpecTrap SpecFastStart SpecElastic.
From Verif Require Import Fixtures CheckFacts CheckNetworkFacts CheckElasticFacts LimitFacts RampFacts FastStartFacts TrapFacts JointRampFacts
  BalanceFacts GenericFacts PropLimits PropNetwork PropGeneric PropFastStart.
From Verif Require Import XmlModel ConstraintsModel CaseConstraintsModel SpecXml SpecConstraints SpecCaseConstraints CaseConstraintFacts PropXml PropCaseConstraints.
From Verif Require Import TablesModel MarketModel.
Open Scope string_scope.
Open Scope list_scope.

(** The market of the other examples with a violation cost on every constraint: some
    given with the call, some by make_constraints_elastic later on, some by both. *)
Definition uv_cost : option vcost := Some (VNum 1000).
Definition uv_ops : list op :=
  [OpVolumeBids gx_volumes; OpPriceBids gx_prices; OpInterconnectors gx_inter; OpLosses gx_loss gx_points; OpTieBreak (VNum 1);
   OpCapacity gx_limits uv_cost; OpUigf gx_forecast uv_cost;
   OpRamp gx_ramp (Some gx_scada) None "no_fast_start_units" uv_cost;
   OpFastStart gx_profile None; OpElastic "fast_start" (VNum 1200);
   OpDemand gx_demand uv_cost; OpFcasReq gx_fcas None; OpElastic "fcas" (VTable [("RREG", 700)]); OpMaxAvail gx_avail uv_cost;
   OpJointRamping gx_reg None "no_fast_start_units" uv_cost;
   OpJointCapacity gx_contingency uv_cost; OpEnergyReg gx_regulation uv_cost;
   OpGeneric gx_generic (Some (VTable [("G1", 500)]));
   OpLinkUnits gx_gu; OpLinkRegions gx_gr; OpLinkInters gx_gi;
   OpElastic "unit_bid_capacity" (VNum 800); OpElastic "demand" (VNum 900)].
Definition uv_market : market := final gx_config uv_ops.

Lemma uv_solution : solution uv_market gx_x.
Proof. solves. Qed.

Theorem C66_capacity :
  forall c l v m x, held c (OpCapacity l v) m -> unviolated (OpCapacity l v) m x -> solution m x ->
    forall r, In r l -> registered c (li_unit r) (li_dt r) ->
      offers m (li_unit r) "energy" (li_dt r) \/ 0 <= li_cap r ->
      dispatch m x (li_unit r) "energy" (li_dt r) <= li_cap r.
Proof. intros c l v m x H U. exact (capacity_upheld c l v m x (held_upheld _ _ _ _ H U)). Qed.
Print Assumptions C66_capacity.

Example C66_capacity_case :
  held gx_config (OpCapacity gx_limits uv_cost) uv_market /\ unviolated (OpCapacity gx_limits uv_cost) uv_market gx_x /\ solution uv_market gx_x
  /\ In (Limit "S" "load" 15) gx_limits /\ registered gx_config "S" "load" /\ offers uv_market "S" "energy" "load"
  /\ length (violation_vars uv_market "unit_bid_capacity") = 2%nat /\ dispatch uv_market gx_x "S" "energy" "load" == 2.
Proof. split; [held_by 5%nat|]. split; [clean|]. split; [exact uv_solution|]. all_decided. Qed.

(** With a violation the limit does not hold: unit S draws 20 MW, 5 more than its limit. *)
Definition uv_short : list op :=
  [OpVolumeBids gx_volumes; OpCapacity gx_limits uv_cost].
Definition uv_over : assignment := values [0; 0; 0; 0; 0; 0; 0; 0; 0; 0; 0; 0; 20; 0; 0; 0; 0; 0; 0; 5].
Theorem C66_violation_needed :
  exists c l v m x r, held c (OpCapacity l v) m /\ solution m x /\ In r l /\ registered c (li_unit r) (li_dt r)
    /\ offers m (li_unit r) "energy" (li_dt r) /\ li_cap r < dispatch m x (li_unit r) "energy" (li_dt r).
Proof.
  exists gx_config, gx_limits, uv_cost, (final gx_config uv_short), uv_over, (Limit "S" "load" 15).
  split; [held_by 1%nat|]. split; [solves|]. all_decided.
Qed.
Print Assumptions C66_violation_needed.

Theorem C66_forecast :
  forall c l v m x, held c (OpUigf l v) m -> unviolated (OpUigf l v) m x -> solution m x ->
    forall r, In r l -> registered c (ug_unit r) "generator" ->
      offers m (ug_unit r) "energy" "generator" \/ 0 <= ug_cap r ->
      dispatch m x (ug_unit r) "energy" "generator" <= ug_cap r.
Proof. intros c l v m x H U. exact (uigf_upheld c l v m x (held_upheld _ _ _ _ H U)). Qed.
Print Assumptions C66_forecast.

Example C66_forecast_case :
  held gx_config (OpUigf gx_forecast uv_cost) uv_market /\ unviolated (OpUigf gx_forecast uv_cost) uv_market gx_x /\ solution uv_market gx_x
  /\ In (Uigf "W" 25) gx_forecast /\ registered gx_config "W" "generator" /\ offers uv_market "W" "energy" "generator"
  /\ length (violation_vars uv_market "uigf_capacity") = 1%nat /\ dispatch uv_market gx_x "W" "energy" "generator" == 25.
Proof. split; [held_by 6%nat|]. split; [clean|]. split; [exact uv_solution|]. all_decided. Qed.

Theorem C66_ramp :
  forall c t s p v m x,
    held c (OpRamp t s p "no_fast_start_units" v) m
    -> unviolated (OpRamp t s p "no_fast_start_units" v) m x -> solution m x ->
    rt_has_up t = false -> rt_has_down t = false ->
    forall r, In r (map ri_row (rt_rows t)) ->
      registered c (rr_unit r) (rr_dt r) -> ~ two_sided c (rr_unit r) ->
      offers m (rr_unit r) "energy" (rr_dt r) ->
      exists up down,
        smaller_rate (rr_up r) (scada_up s (rr_unit r)) up
        /\ smaller_rate (rr_down r) (scada_down s (rr_unit r)) down
        /\ rr_init r - down * c_interval c / 60 <= dispatch m x (rr_unit r) "energy" (rr_dt r)
        /\ dispatch m x (rr_unit r) "energy" (rr_dt r) <= rr_init r + up * c_interval c / 60.
Proof. intros c t s p v m x H U. exact (ramp_upheld c t s p v m x (held_upheld _ _ _ _ H U)). Qed.
Print Assumptions C66_ramp.

Theorem C66_bidirectional_ramp :
  forall c t s p rt v m x,
    held c (OpRamp t s p rt v) m
    -> unviolated (OpRamp t s p rt v) m x -> solution m x -> 0 < c_interval c ->
    forall g ld, In g (map ri_row (rt_rows t)) -> In ld (map ri_row (rt_rows t)) ->
      rr_unit ld = rr_unit g -> rr_dt g = "generator" -> rr_dt ld = "load" ->
      two_sided c (rr_unit g) ->
      offers m (rr_unit g) "energy" "generator" \/ offers m (rr_unit g) "energy" "load" ->
      0 <= rr_down g -> 0 <= rr_down ld -> rr_init g == rr_init ld ->
      let h := c_interval c / 60 in
      exists top bottom up down,
        rises_to h (rr_init g) (rr_down ld) (rr_up g) top
        /\ falls_to h (rr_init g) (rr_up ld) (rr_down g) bottom
        /\ smaller_rate ((top - rr_init g) / h) (scada_up s (rr_unit g)) up
        /\ smaller_rate ((rr_init g - bottom) / h) (scada_down s (rr_unit g)) down
        /\ rr_init g - down * h <= net_energy m x (rr_unit g)
        /\ net_energy m x (rr_unit g) <= rr_init g + up * h.
Proof. intros c t s p rt v m x H U. exact (bdu_ramp_upheld c t s p rt v m x (held_upheld _ _ _ _ H U)). Qed.
Print Assumptions C66_bidirectional_ramp.

Definition uv_ramp : op := OpRamp gx_ramp (Some gx_scada) None "no_fast_start_units" uv_cost.
Example C66_ramp_case :
  held gx_config uv_ramp uv_market /\ unviolated uv_ramp uv_market gx_x /\ solution uv_market gx_x
  /\ In (Ramp "A" "generator" 80 240 240) (map ri_row (rt_rows gx_ramp))
  /\ registered gx_config "A" "generator" /\ ~ two_sided gx_config "A" /\ offers uv_market "A" "energy" "generator"
  /\ length (violation_vars uv_market "ramp_up") = 2%nat.
Proof. split; [held_by 7%nat|]. split; [clean|]. split; [exact uv_solution|]. all_decided. Qed.
Example C66_bidirectional_ramp_case :
  held gx_config uv_ramp uv_market /\ unviolated uv_ramp uv_market gx_x /\ solution uv_market gx_x /\ 0 < c_interval gx_config
  /\ In (Ramp "S" "generator" (-3) 60 60) (map ri_row (rt_rows gx_ramp))
  /\ In (Ramp "S" "load" (-3) 120 48) (map ri_row (rt_rows gx_ramp))
  /\ two_sided gx_config "S" /\ offers uv_market "S" "energy" "generator" /\ net_energy uv_market gx_x "S" == -2
  /\ length (violation_vars uv_market "bidirectional_ramp_up") = 1%nat.
Proof. split; [held_by 7%nat|]. split; [clean|]. split; [exact uv_solution|]. all_decided. Qed.

Theorem C66_max_availability :
  forall c l v m x, held c (OpMaxAvail l v) m -> unviolated (OpMaxAvail l v) m x -> solution m x ->
    forall r, In r l -> registered c (ma_unit r) (ma_dt r) ->
      dispatch m x (ma_unit r) (ma_service r) (ma_dt r) <= ma_max r.
Proof. intros c l v m x H U. exact (max_avail_upheld c l v m x (held_upheld _ _ _ _ H U)). Qed.
Print Assumptions C66_max_availability.

Example C66_max_availability_case :
  held gx_config (OpMaxAvail gx_avail uv_cost) uv_market /\ unviolated (OpMaxAvail gx_avail uv_cost) uv_market gx_x /\ solution uv_market gx_x
  /\ In (MaxAvail "A" "raise_6s" "generator" 8) gx_avail /\ registered gx_config "A" "generator"
  /\ length (violation_vars uv_market "fcas_max_availability") = 2%nat /\ dispatch uv_market gx_x "A" "raise_6s" "generator" == 5.
Proof. split; [held_by 13%nat|]. split; [clean|]. split; [exact uv_solution|]. all_decided. Qed.

Theorem C66_joint_ramping :
  forall c l p v m' m x,
    held_at c (OpJointRamping l p "no_fast_start_units" v) m' m
    -> unviolated (OpJointRamping l p "no_fast_start_units" v) m x -> solution m x ->
    forall r, In r l ->
    let u := rg_unit r in let h := c_interval c in
    (forall d, ~ two_sided c u -> registered c u d ->
       let e := dispatch m x u "energy" d in
       (offers m' u "raise_reg" d -> offers m u "raise_reg" d \/ offers m u "energy" d ->
        let rr := dispatch m x u "raise_reg" d in
        if String.eqb d "generator" then e + rr <= rg_init r + rg_up r * h / 60
        else rg_init r - rg_up r * h / 60 <= e - rr)
       /\ (offers m' u "lower_reg" d -> offers m u "lower_reg" d \/ offers m u "energy" d ->
        let lr := dispatch m x u "lower_reg" d in
        if String.eqb d "generator" then rg_init r - rg_down r * h / 60 <= e - lr
        else e + lr <= rg_init r + rg_down r * h / 60))
    /\ (two_sided c u ->
       let e := net_energy m x u in
       let total s := dispatch m x u s "generator" + dispatch m x u s "load" in
       (offers m' u "raise_reg" "generator" -> offers m' u "raise_reg" "load" ->
        (exists s d, (s = "raise_reg" \/ s = "energy") /\ (d = "generator" \/ d = "load") /\ offers m u s d) ->
        e + total "raise_reg" <= rg_init r + rg_up r * h / 60)
       /\ (offers m' u "lower_reg" "generator" -> offers m' u "lower_reg" "load" ->
        (exists s d, (s = "lower_reg" \/ s = "energy") /\ (d = "generator" \/ d = "load") /\ offers m u s d) ->
        rg_init r - rg_down r * h / 60 <= e - total "lower_reg")).
Proof. intros c l p v m' m x H U. exact (joint_ramping_upheld c l p v m' m x (or_intror (conj H U))). Qed.
Print Assumptions C66_joint_ramping.

Example C66_joint_ramping_case :
  let m' := final gx_config (firstn 14 uv_ops) in let o := OpJointRamping gx_reg None "no_fast_start_units" uv_cost in
  held_at gx_config o m' uv_market /\ unviolated o uv_market gx_x /\ solution uv_market gx_x
  /\ In (RegRamp "A" 80 240 240) gx_reg /\ In (RegRamp "S" (-3) 60 60) gx_reg
  /\ registered gx_config "A" "generator" /\ ~ two_sided gx_config "A" /\ offers m' "A" "raise_reg" "generator"
  /\ offers uv_market "A" "raise_reg" "generator" /\ two_sided gx_config "S" /\ offers m' "S" "raise_reg" "generator"
  /\ offers m' "S" "raise_reg" "load" /\ offers uv_market "S" "energy" "load"
  /\ length (violation_vars uv_market "joint_ramping_raise_reg") = 2%nat.
Proof. cbv zeta. split; [held_met 14%nat|]. split; [clean|]. split; [exact uv_solution|]. all_decided. Qed.

Theorem C66_joint_capacity :
  forall c l v m x, held c (OpJointCapacity l v) m -> unviolated (OpJointCapacity l v) m x -> solution m x ->
    forall t, In t l -> registered c (tz_unit t) (tz_dt t) -> ~ two_sided c (tz_unit t) ->
      offers m (tz_unit t) (tz_service t) (tz_dt t) ->
      let e := dispatch m x (tz_unit t) "energy" (tz_dt t) in
      let q := dispatch m x (tz_unit t) (tz_service t) (tz_dt t) in
      let rr := dispatch m x (tz_unit t) "raise_reg" (tz_dt t) in
      let lr := dispatch m x (tz_unit t) "lower_reg" (tz_dt t) in
      e + (tz_emax t - tz_hbp t) / tz_max t * q + (if String.eqb (tz_dt t) "generator" then rr else lr) <= tz_emax t
      /\ tz_emin t <= e - (tz_lbp t - tz_emin t) / tz_max t * q - (if String.eqb (tz_dt t) "generator" then lr else rr).
Proof. intros c l v m x H U. exact (joint_capacity_ordinary_upheld c l v m x (held_upheld _ _ _ _ H U)). Qed.
Print Assumptions C66_joint_capacity.

Theorem C66_inside_trapezium :
  forall c l v w a m x, held c (OpJointCapacity l v) m -> unviolated (OpJointCapacity l v) m x
    -> held c (OpMaxAvail a w) m -> unviolated (OpMaxAvail a w) m x -> solution m x ->
    forall t r, In t l -> In r a -> ma_unit r = tz_unit t -> ma_service r = tz_service t -> ma_dt r = tz_dt t ->
      ma_max r <= tz_max t -> 0 < tz_max t ->
      registered c (tz_unit t) (tz_dt t) -> ~ two_sided c (tz_unit t) ->
      offers m (tz_unit t) (tz_service t) (tz_dt t) ->
      in_trapezium t (dispatch m x (tz_unit t) "energy" (tz_dt t))
                     (dispatch m x (tz_unit t) (tz_service t) (tz_dt t)).
Proof. intros c l v w a m x H U J W. exact (joint_capacity_inside_upheld c l v a w m x (held_upheld _ _ _ _ H U) (held_upheld _ _ _ _ J W)). Qed.
Print Assumptions C66_inside_trapezium.

Example C66_joint_capacity_case :
  held gx_config (OpJointCapacity gx_contingency uv_cost) uv_market /\ unviolated (OpJointCapacity gx_contingency uv_cost) uv_market gx_x
  /\ held gx_config (OpMaxAvail gx_avail uv_cost) uv_market /\ unviolated (OpMaxAvail gx_avail uv_cost) uv_market gx_x /\ solution uv_market gx_x
  /\ In (Trap "A" "raise_6s" "generator" 8 20 40 90 110) gx_contingency /\ In (MaxAvail "A" "raise_6s" "generator" 8) gx_avail
  /\ registered gx_config "A" "generator" /\ ~ two_sided gx_config "A" /\ offers uv_market "A" "raise_6s" "generator"
  /\ length (violation_vars uv_market "joint_capacity") = 2%nat.
Proof. split; [held_by 15%nat|]. split; [clean|]. split; [held_by 13%nat|]. split; [clean|]. split; [exact uv_solution|]. all_decided. Qed.

Theorem C66_energy_and_regulation :
  forall c l v m x, held c (OpEnergyReg l v) m -> unviolated (OpEnergyReg l v) m x -> solution m x ->
    forall t, In t l -> registered c (tz_unit t) (tz_dt t) ->
      (two_sided c (tz_unit t) -> tz_dt t = "generator") ->
      offers m (tz_unit t) "energy" (tz_dt t) \/ offers m (tz_unit t) (tz_service t) (tz_dt t) ->
      let e := dispatch m x (tz_unit t) "energy" (tz_dt t) in
      let q := dispatch m x (tz_unit t) (tz_service t) (tz_dt t) in
      e + (tz_emax t - tz_hbp t) / tz_max t * q <= tz_emax t
      /\ tz_emin t <= e - (tz_lbp t - tz_emin t) / tz_max t * q.
Proof. intros c l v m x H U. exact (energy_reg_upheld c l v m x (held_upheld _ _ _ _ H U)). Qed.
Print Assumptions C66_energy_and_regulation.

Theorem C66_inside_regulation_trapezium :
  forall c l v w a m x, held c (OpEnergyReg l v) m -> unviolated (OpEnergyReg l v) m x
    -> held c (OpMaxAvail a w) m -> unviolated (OpMaxAvail a w) m x -> solution m x ->
    forall t r, In t l -> In r a -> ma_unit r = tz_unit t -> ma_service r = tz_service t -> ma_dt r = tz_dt t ->
      ma_max r <= tz_max t -> 0 < tz_max t ->
      registered c (tz_unit t) (tz_dt t) -> (two_sided c (tz_unit t) -> tz_dt t = "generator") ->
      offers m (tz_unit t) "energy" (tz_dt t) \/ offers m (tz_unit t) (tz_service t) (tz_dt t) ->
      in_trapezium t (dispatch m x (tz_unit t) "energy" (tz_dt t))
                     (dispatch m x (tz_unit t) (tz_service t) (tz_dt t)).
Proof. intros c l v w a m x H U J W. exact (energy_reg_inside_upheld c l v a w m x (held_upheld _ _ _ _ H U) (held_upheld _ _ _ _ J W)). Qed.
Print Assumptions C66_inside_regulation_trapezium.

Example C66_energy_and_regulation_case :
  held gx_config (OpEnergyReg gx_regulation uv_cost) uv_market /\ unviolated (OpEnergyReg gx_regulation uv_cost) uv_market gx_x
  /\ held gx_config (OpMaxAvail gx_avail uv_cost) uv_market /\ unviolated (OpMaxAvail gx_avail uv_cost) uv_market gx_x /\ solution uv_market gx_x
  /\ In (Trap "A" "raise_reg" "generator" 10 20 30 90 100) gx_regulation /\ In (MaxAvail "A" "raise_reg" "generator" 10) gx_avail
  /\ registered gx_config "A" "generator" /\ ~ two_sided gx_config "A" /\ offers uv_market "A" "raise_reg" "generator"
  /\ length (violation_vars uv_market "energy_and_regulation_capacity") = 2%nat.
Proof. split; [held_by 16%nat|]. split; [clean|]. split; [held_by 13%nat|]. split; [clean|]. split; [exact uv_solution|]. all_decided. Qed.

Theorem C66_fast_start :
  forall c l v m x, held c (OpFastStart l v) m -> unviolated (OpFastStart l v) m x -> solution m x ->
    forall f d, In f l -> registered c (fs_unit f) d -> (two_sided c (fs_unit f) -> d = "generator") ->
      offers m (fs_unit f) "energy" d ->
      (fs_end_mode f = 2%Z -> 0 < fs_mode_two_length f) -> (fs_end_mode f = 4%Z -> 0 < fs_mode_four_length f) ->
      follows_profile f (dispatch m x (fs_unit f) "energy" d).
Proof. intros c l v m x H U. exact (fast_start_upheld c l v m x (held_upheld _ _ _ _ H U)). Qed.
Print Assumptions C66_fast_start.

(** Made elastic by a later call. *)
Example C66_fast_start_case :
  held gx_config (OpFastStart gx_profile None) uv_market /\ unviolated (OpFastStart gx_profile None) uv_market gx_x /\ solution uv_market gx_x
  /\ In (Fs "F" 2 3 6 10 10) gx_profile /\ registered gx_config "F" "generator" /\ ~ two_sided gx_config "F"
  /\ offers uv_market "F" "energy" "generator" /\ length (violation_vars uv_market "fast_start") = 2%nat
  /\ dispatch uv_market gx_x "F" "energy" "generator" == 5.
Proof. split; [held_by 8%nat|]. split; [clean|]. split; [exact uv_solution|]. all_decided. Qed.

Theorem C66_fast_start_first_run :
  forall c t s p v m x,
    held c (OpRamp t s (Some p) "fast_start_first_run" v) m
    -> unviolated (OpRamp t s (Some p) "fast_start_first_run" v) m x -> solution m x ->
    rt_has_up t = false -> rt_has_down t = false ->
    (forall u, starts_low p u -> not_about m "ramp_up" u /\ not_about m "ramp_down" u)
    /\ (forall r, In r (map ri_row (rt_rows t)) -> ~ starts_low p (rr_unit r) ->
        registered c (rr_unit r) (rr_dt r) -> ~ two_sided c (rr_unit r) ->
        offers m (rr_unit r) "energy" (rr_dt r) ->
        usual_limits c m x s r).
Proof. intros c t s p v m x H U. exact (first_run_upheld c t s p v m x (held_upheld _ _ _ _ H U)). Qed.
Print Assumptions C66_fast_start_first_run.

Theorem C66_fast_start_second_run :
  forall c t s p v m x,
    held c (OpRamp t s (Some p) "fast_start_second_run" v) m
    -> unviolated (OpRamp t s (Some p) "fast_start_second_run" v) m x -> solution m x ->
    rt_has_up t = false -> rt_has_down t = false ->
    (forall u, ends_low p u -> not_about m "ramp_up" u /\ not_about m "ramp_down" u)
    /\ (forall r, In r (map ri_row (rt_rows t)) -> ~ ends_low p (rr_unit r) ->
        registered c (rr_unit r) (rr_dt r) -> ~ two_sided c (rr_unit r) ->
        offers m (rr_unit r) "energy" (rr_dt r) ->
        ((forall min since, ~ left_two p (rr_unit r) min since) -> usual_limits c m x s r)
        /\ (forall min since, left_two p (rr_unit r) min since -> ~ c_interval c == 0 ->
            exists up down,
              smaller_rate (rr_up r) (scada_up s (rr_unit r)) up
              /\ smaller_rate (rr_down r) (scada_down s (rr_unit r)) down
              /\ rr_init r - down * c_interval c / 60 <= dispatch m x (rr_unit r) "energy" (rr_dt r)
              /\ dispatch m x (rr_unit r) "energy" (rr_dt r) <= min + up * since / 60
              /\ exists rows k, dget "ramp_up" (m_rhs m) = Some rows /\ In k rows
                   /\ cr_key k = KUnit (rr_unit r) "energy" (rr_dt r) /\ cr_type k = "<="
                   /\ cr_rhs k == min + up * since / 60)).
Proof. intros c t s p v m x H U. exact (second_run_upheld c t s p v m x (held_upheld _ _ _ _ H U)). Qed.
Print Assumptions C66_fast_start_second_run.

Definition uv_start (run_type : string) : op := OpRamp start_ramp None (Some start_profiles) run_type uv_cost.
Definition uv_start_market (run_type : string) : market := final gx_config [OpVolumeBids gx_volumes; uv_start run_type].
Example C66_fast_start_runs_case :
  held gx_config (uv_start "fast_start_first_run") (uv_start_market "fast_start_first_run")
  /\ unviolated (uv_start "fast_start_first_run") (uv_start_market "fast_start_first_run") start_x
  /\ solution (uv_start_market "fast_start_first_run") start_x
  /\ held gx_config (uv_start "fast_start_second_run") (uv_start_market "fast_start_second_run")
  /\ unviolated (uv_start "fast_start_second_run") (uv_start_market "fast_start_second_run") start_x
  /\ solution (uv_start_market "fast_start_second_run") start_x
  /\ length (violation_vars (uv_start_market "fast_start_second_run") "ramp_up") = 2%nat
  /\ length (violation_vars (uv_start_market "fast_start_first_run") "ramp_up") = 1%nat.
Proof.
  split; [held_by 1%nat|]. split; [clean|]. split; [solves|]. split; [held_by 1%nat|]. split; [clean|]. split; [solves|].
  split; vm_compute; reflexivity.
Qed.

Theorem C66_energy_balance :
  forall c l v dirs lf bps m x, held c (OpDemand l v) m -> unviolated (OpDemand l v) m x -> network c dirs lf bps m ->
    (forall d, In d dirs -> in_from d <> in_to d) -> solution m x ->
    forall d, In d l -> supplied m dirs (de_region d) ->
    region_supply m x (de_region d) "energy" + inflow m x dirs (de_region d) - losses m x dirs lf (de_region d)
    == de_demand d.
Proof. intros c l v dirs lf bps m x H U. exact (balance_upheld c l v dirs lf bps m x (held_upheld _ _ _ _ H U)). Qed.
Print Assumptions C66_energy_balance.

Example C66_energy_balance_case :
  held gx_config (OpDemand gx_demand uv_cost) uv_market /\ unviolated (OpDemand gx_demand uv_cost) uv_market gx_x
  /\ network gx_config gx_inter gx_loss gx_points uv_market /\ (forall d, In d gx_inter -> in_from d <> in_to d) /\ solution uv_market gx_x
  /\ In (Demand "VIC" 70) gx_demand /\ supplied uv_market gx_inter "VIC" /\ length (violation_vars uv_market "demand") = 4%nat.
Proof.
  split; [held_by 10%nat|]. split; [clean|]. split; [network_at 2%nat 3%nat|]. split; [exact gx_ends|]. split; [exact uv_solution|].
  split; [cbn; auto|]. split; [|vm_compute; reflexivity].
  right. exists (Inter "VNI" "VNI" "NSW" "VIC" 50 (-50) 1 1 1). split; [now left|]. right. reflexivity.
Qed.

Lemma uv_links : links gx_config gx_gu gx_gr gx_gi uv_market.
Proof. apply (linksb_ok _ _ 18%nat 19%nat 20%nat); vm_compute; reflexivity. Qed.

Theorem C66_requirement :
  forall c l v gu gr gi m x, held c (OpFcasReq l v) m -> unviolated (OpFcasReq l v) m x -> links c gu gr gi m -> solution m x ->
    (forall r, In r l -> fq_service r <> "energy") ->
    forall pre b post, l = pre ++ b :: post -> (forall r, In r pre -> fq_set r <> fq_set b) ->
    (exists r, In r l /\ fq_set r = fq_set b /\ region_offers m (fq_region r) (fq_service r))
    \/ some_linked m gu gr gi (fq_set b) ->
    relation (fq_type b) (set_supply m x l (fq_set b) + linked m x gu gr gi (fq_set b)) (fq_volume b).
Proof. intros c l v gu gr gi m x H U. exact (fcas_upheld c l v gu gr gi m x (held_upheld _ _ _ _ H U)). Qed.
Print Assumptions C66_requirement.

Example C66_requirement_case :
  held gx_config (OpFcasReq gx_fcas None) uv_market /\ unviolated (OpFcasReq gx_fcas None) uv_market gx_x
  /\ links gx_config gx_gu gx_gr gx_gi uv_market /\ solution uv_market gx_x /\ (forall r, In r gx_fcas -> fq_service r <> "energy")
  /\ (exists b post, gx_fcas = [] ++ b :: post /\ post <> [] /\ region_offers uv_market (fq_region b) (fq_service b))
  /\ set_supply uv_market gx_x gx_fcas "RREG" == 9 /\ length (violation_vars uv_market "fcas") = 1%nat.
Proof.
  split; [held_by 11%nat|]. split; [clean|]. split; [exact uv_links|]. split; [exact uv_solution|].
  split; [intros r [<-|[<-|[]]]; discriminate|]. split; [|split; vm_compute; reflexivity].
  eexists. eexists. split; [reflexivity|]. split; [discriminate|]. apply region_offersb_ok. vm_compute. reflexivity.
Qed.

Theorem C66_generic :
  forall c l v gu gr gi m x, held c (OpGeneric l v) m -> unviolated (OpGeneric l v) m x -> links c gu gr gi m -> solution m x ->
    forall g, In g l -> some_linked m gu gr gi (ge_set g) ->
    relation (ge_type g) (linked m x gu gr gi (ge_set g)) (ge_rhs g).
Proof. intros c l v gu gr gi m x H U. exact (generic_upheld c l v gu gr gi m x (held_upheld _ _ _ _ H U)). Qed.
Print Assumptions C66_generic.

Example C66_generic_case :
  held gx_config (OpGeneric gx_generic (Some (VTable [("G1", 500)]))) uv_market
  /\ unviolated (OpGeneric gx_generic (Some (VTable [("G1", 500)]))) uv_market gx_x
  /\ links gx_config gx_gu gx_gr gx_gi uv_market /\ solution uv_market gx_x /\ In (Generic "G1" "<=" 250) gx_generic
  /\ some_linked uv_market gx_gu gx_gr gx_gi "G1" /\ length (violation_vars uv_market "generic") = 1%nat.
Proof.
  split; [held_by 17%nat|]. split; [clean|]. split; [exact uv_links|]. split; [exact uv_solution|]. split; [now left|].
  split; [|vm_compute; reflexivity].
  right; left. exists (GRegion "G1" "VIC" "energy" (1#2)). split; [now left|]. split; [reflexivity|].
  apply region_offersb_ok. vm_compute. reflexivity.
Qed.

(** The constraints of a case file, with any violation costs. *)
Theorem C66_case_generic :
  forall rd root x d c v m y, states rd root x -> load_constraints rd (document root) = Got (Ok d) -> unique_ids x ->
  held c (OpGeneric (generic_of d) v) m -> unviolated (OpGeneric (generic_of d) v) m y ->
  links c (units_of d) [] (inters_of d) m -> solution m y ->
  forall k q ty, invoked x k q -> regions_of k = [] -> type_symbol (cc_type k) ty -> has_term m k ->
  relation ty (terms_value m y k) q.
Proof. intros rd root x d c v m y S L U H N. exact (case_generic_upheld x d (load_inv rd root x d S L) U c v m y (held_upheld _ _ _ _ H N)). Qed.
Print Assumptions C66_case_generic.

Theorem C66_case_regional :
  forall rd root x d c v m y, states rd root x -> load_constraints rd (document root) = Got (Ok d) -> unique_ids x ->
  held c (OpFcasReq (requirements_of d) v) m -> unviolated (OpFcasReq (requirements_of d) v) m y ->
  links c (units_of d) [] (inters_of d) m -> solution m y ->
  (forall k f, In k (cf_constraints x) -> In f (regions_of k) -> service_for (fa_trade f) <> "energy") ->
  forall k q ty, invoked x k q -> type_symbol (cc_type k) ty -> regions_of k <> [] -> has_regional_term m k \/ has_term m k ->
  relation ty (regions_supply m y k + terms_value m y k) q.
Proof. intros rd root x d c v m y S L U H N. exact (case_fcas_upheld x d (load_inv rd root x d S L) U c v m y (held_upheld _ _ _ _ H N)). Qed.
Print Assumptions C66_case_regional.

(** With the violation prices that the case file itself gives. *)
Definition uv_prices : option vcost := Some (VTable [("F1", 15000); ("G1", 15000); ("N1", 15000)]).
Definition uv_case_ops : list op :=
  firstn 2 cc_ops ++ [OpGeneric (generic_of cc_data) uv_prices; OpFcasReq (requirements_of cc_data) uv_prices;
   OpLinkUnits (units_of cc_data); OpLinkInters (inters_of cc_data)].
Definition uv_case_market : market := final cc_config uv_case_ops.
Lemma uv_case_links : links cc_config (units_of cc_data) [] (inters_of cc_data) uv_case_market.
Proof. apply (linksb_both _ _ 4%nat 5%nat); [reflexivity|reflexivity|vm_compute; reflexivity]. Qed.
Example C66_case_file_case :
  held cc_config (OpGeneric (generic_of cc_data) uv_prices) uv_case_market
  /\ unviolated (OpGeneric (generic_of cc_data) uv_prices) uv_case_market cc_x
  /\ held cc_config (OpFcasReq (requirements_of cc_data) uv_prices) uv_case_market
  /\ unviolated (OpFcasReq (requirements_of cc_data) uv_prices) uv_case_market cc_x
  /\ links cc_config (units_of cc_data) [] (inters_of cc_data) uv_case_market /\ solution uv_case_market cc_x
  /\ has_term uv_case_market cc_generic /\ has_regional_term uv_case_market cc_regional
  /\ violation_vars uv_case_market "generic" <> [] /\ violation_vars uv_case_market "fcas" <> [].
Proof.
  split; [held_by 2%nat|]. split; [clean|]. split; [held_by 3%nat|]. split; [clean|]. split; [exact uv_case_links|]. split; [solves|].
  split; [left; exists (Factor "A" "ENOF" 1), "generator"; split; [now left|]; split; decided|].
  split; [exists (Factor "VIC1" "R5RE" 1); split; [right; now left|]; apply region_offersb_ok; vm_compute; reflexivity|].
  split; vm_compute; discriminate.
Qed.
