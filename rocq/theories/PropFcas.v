(** C12, C13, C14: energy and FCAS of a unit together. *)

From Coq Require Import QArith Lqa String List Bool.
Import ListNotations.
From Verif Require Import PandasModel TablesModel MarketModel SpecLp SpecHistory SpecDispatch SpecTrap
  Fixtures CheckFacts LimitFacts TrapFacts JointRampFacts PropLimits.
Open Scope string_scope.
Open Scope list_scope.

(** [m'] is the market that the call met: the regulation bids present then decide
    which units get a constraint. *)
Theorem C12_joint_ramping :
  forall c l p m' m x,
    in_force_at c (OpJointRamping l p "no_fast_start_units" None) m' m -> solution m x ->
    forall r, In r l ->
    let u := rg_unit r in let h := c_interval c in
    (forall d, ~ two_sided c u -> registered c u d ->
       let e := dispatch m x u "energy" d in
       (offers m' u "raise_reg" d -> offers m u "raise_reg" d \/ offers m u "energy" d ->
        let rr := dispatch m x u "raise_reg" d in
        if String.eqb d "generator" then e + rr <= rg_init r + rg_up r * h / 60
        else rg_init r - rg_up r * h / 60 <= e - rr)
       /\ (offers m' u "lower_reg" d -> offers m u "lower_reg" d \/ offers m u "energy" d ->
        let lr := dispatch m x u "lower_reg" d in
        if String.eqb d "generator" then rg_init r - rg_down r * h / 60 <= e - lr
        else e + lr <= rg_init r + rg_down r * h / 60))
    /\ (two_sided c u ->
       let e := net_energy m x u in
       let total s := dispatch m x u s "generator" + dispatch m x u s "load" in
       (offers m' u "raise_reg" "generator" -> offers m' u "raise_reg" "load" ->
        (exists s d, (s = "raise_reg" \/ s = "energy") /\ (d = "generator" \/ d = "load") /\ offers m u s d) ->
        e + total "raise_reg" <= rg_init r + rg_up r * h / 60)
       /\ (offers m' u "lower_reg" "generator" -> offers m' u "lower_reg" "load" ->
        (exists s d, (s = "lower_reg" \/ s = "energy") /\ (d = "generator" \/ d = "load") /\ offers m u s d) ->
        rg_init r - rg_down r * h / 60 <= e - total "lower_reg")).
Proof. exact joint_ramping_respected. Qed.
Print Assumptions C12_joint_ramping.

Example C12_case :
  let m' := final gx_config (firstn 9 gx_ops) in
  in_force_at gx_config (OpJointRamping gx_reg None "no_fast_start_units" None) m' gx_market
  /\ solution gx_market gx_x
  /\ In (RegRamp "A" 80 240 240) gx_reg /\ In (RegRamp "L" 20 120 120) gx_reg /\ In (RegRamp "S" (-3) 60 60) gx_reg
  /\ registered gx_config "A" "generator" /\ ~ two_sided gx_config "A" /\ offers m' "A" "raise_reg" "generator"
  /\ offers m' "A" "lower_reg" "generator" /\ offers gx_market "A" "raise_reg" "generator"
  /\ registered gx_config "L" "load" /\ offers m' "L" "raise_reg" "load" /\ offers gx_market "L" "raise_reg" "load"
  /\ two_sided gx_config "S" /\ offers m' "S" "raise_reg" "generator" /\ offers m' "S" "raise_reg" "load"
  /\ offers m' "S" "lower_reg" "generator" /\ offers m' "S" "lower_reg" "load"
  /\ offers gx_market "S" "energy" "load"
  /\ net_energy gx_market gx_x "S" + (dispatch gx_market gx_x "S" "raise_reg" "generator"
       + dispatch gx_market gx_x "S" "raise_reg" "load") == 1.
Proof. cbv zeta. split; [in_force_met 9%nat|]. split; [exact gx_solution|]. all_decided. Qed.

(** A bidirectional unit that bids the regulation on one side only: the energy of
    the other side is left out of the constraint. *)
Definition one_sided_ops : list op :=
  [OpVolumeBids (BidTable ["1"] [BidRow "S" "energy" "generator" (fun _ => 20);
     BidRow "S" "energy" "load" (fun _ => 20); BidRow "S" "raise_reg" "load" (fun _ => 5)]);
   OpJointRamping gx_reg None "no_fast_start_units" None].
Theorem C12_one_sided_bids_refuted :
  exists c l m' m x r, in_force_at c (OpJointRamping l None "no_fast_start_units" None) m' m /\ solution m x
    /\ In r l /\ two_sided c (rg_unit r)
    /\ offers m' (rg_unit r) "raise_reg" "load" /\ offers m (rg_unit r) "energy" "generator"
    /\ rg_init r + rg_up r * c_interval c / 60
       < net_energy m x (rg_unit r) + (dispatch m x (rg_unit r) "raise_reg" "generator"
           + dispatch m x (rg_unit r) "raise_reg" "load").
Proof.
  exists gx_config, gx_reg, (final gx_config (firstn 1 one_sided_ops)), (final gx_config one_sided_ops),
    (values [20]), (RegRamp "S" (-3) 60 60).
  split; [in_force_met 1%nat|]. split; [solves|]. all_decided.
Qed.
Print Assumptions C12_one_sided_bids_refuted.

Theorem C13_joint_capacity :
  forall c l m x, in_force c (OpJointCapacity l None) m -> solution m x ->
    forall t, In t l -> registered c (tz_unit t) (tz_dt t) -> ~ two_sided c (tz_unit t) ->
      offers m (tz_unit t) (tz_service t) (tz_dt t) ->
      let e := dispatch m x (tz_unit t) "energy" (tz_dt t) in
      let q := dispatch m x (tz_unit t) (tz_service t) (tz_dt t) in
      let rr := dispatch m x (tz_unit t) "raise_reg" (tz_dt t) in
      let lr := dispatch m x (tz_unit t) "lower_reg" (tz_dt t) in
      e + (tz_emax t - tz_hbp t) / tz_max t * q + (if String.eqb (tz_dt t) "generator" then rr else lr) <= tz_emax t
      /\ tz_emin t <= e - (tz_lbp t - tz_emin t) / tz_max t * q - (if String.eqb (tz_dt t) "generator" then lr else rr).
Proof. exact joint_capacity_ordinary. Qed.
Print Assumptions C13_joint_capacity.

(** With the max availability in force the point is in the trapezium, whatever the
    regulation. *)
Theorem C13_inside_trapezium :
  forall c l a m x, in_force c (OpJointCapacity l None) m -> in_force c (OpMaxAvail a None) m -> solution m x ->
    forall t r, In t l -> In r a -> ma_unit r = tz_unit t -> ma_service r = tz_service t -> ma_dt r = tz_dt t ->
      ma_max r <= tz_max t -> 0 < tz_max t ->
      registered c (tz_unit t) (tz_dt t) -> ~ two_sided c (tz_unit t) ->
      offers m (tz_unit t) (tz_service t) (tz_dt t) ->
      in_trapezium t (dispatch m x (tz_unit t) "energy" (tz_dt t))
                     (dispatch m x (tz_unit t) (tz_service t) (tz_dt t)).
Proof. exact joint_capacity_inside. Qed.
Print Assumptions C13_inside_trapezium.

Example C13_case :
  in_force gx_config (OpJointCapacity gx_contingency None) gx_market
  /\ in_force gx_config (OpMaxAvail gx_avail None) gx_market /\ solution gx_market gx_x
  /\ In (Trap "A" "raise_6s" "generator" 8 20 40 90 110) gx_contingency
  /\ In (MaxAvail "A" "raise_6s" "generator" 8) gx_avail
  /\ registered gx_config "A" "generator" /\ ~ two_sided gx_config "A"
  /\ offers gx_market "A" "raise_6s" "generator"
  /\ dispatch gx_market gx_x "A" "raise_6s" "generator" == 5
  /\ dispatch gx_market gx_x "A" "raise_reg" "generator" == 4.
Proof. split; [in_force_at 10%nat|]. split; [in_force_at 8%nat|]. split; [exact gx_solution|]. all_decided. Qed.

(** Bidirectional units, trapezium of the generator side: the upper slope is as
    claimed; on the lower slope the lower regulation of the load side has the
    wrong sign.  Missing: the lower slope with the sum of both sides, which is
    refuted below. *)
Theorem C13_bidirectional_partial :
  forall c l m x, in_force c (OpJointCapacity l None) m -> solution m x ->
    forall t, In t l -> two_sided c (tz_unit t) -> tz_dt t = "generator" ->
      offers m (tz_unit t) (tz_service t) "generator" ->
      let e := net_energy m x (tz_unit t) in
      let q := dispatch m x (tz_unit t) (tz_service t) "generator" in
      let rg s d := dispatch m x (tz_unit t) s d in
      e + (tz_emax t - tz_hbp t) / tz_max t * q + (rg "raise_reg" "generator" + rg "raise_reg" "load") <= tz_emax t
      /\ tz_emin t <= e - (tz_lbp t - tz_emin t) / tz_max t * q - (rg "lower_reg" "generator" - rg "lower_reg" "load").
Proof. exact joint_capacity_bdu. Qed.
Print Assumptions C13_bidirectional_partial.

Definition storage_volumes : bid_table :=
  BidTable ["1"] [BidRow "S" "energy" "generator" (fun _ => 20); BidRow "S" "raise_reg" "load" (fun _ => 5);
    BidRow "S" "lower_reg" "load" (fun _ => 5); BidRow "S" "raise_6s" "generator" (fun _ => 5);
    BidRow "S" "raise_6s" "load" (fun _ => 5); BidRow "S" "energy" "load" (fun _ => 20)].
Definition storage_traps : list trap_row :=
  [Trap "S" "raise_6s" "generator" 5 0 5 15 20; Trap "S" "raise_6s" "load" 5 (-20) 5 10 15].
Definition storage_ops : list op := [OpVolumeBids storage_volumes; OpJointCapacity storage_traps None].

Example C13_bidirectional_case :
  in_force gx_config (OpJointCapacity storage_traps None) (final gx_config storage_ops)
  /\ solution (final gx_config storage_ops) (values [5; 0; 2; 1])
  /\ In (Trap "S" "raise_6s" "generator" 5 0 5 15 20) storage_traps
  /\ two_sided gx_config "S" /\ offers (final gx_config storage_ops) "S" "raise_6s" "generator"
  /\ dispatch (final gx_config storage_ops) (values [5; 0; 2; 1]) "S" "lower_reg" "load" == 2.
Proof. split; [in_force_at 1%nat|]. split; [solves|]. all_decided. Qed.

Theorem C13_bidirectional_lower_refuted :
  exists c l m x t, in_force c (OpJointCapacity l None) m /\ solution m x
    /\ In t l /\ two_sided c (tz_unit t) /\ tz_dt t = "generator" /\ 0 < tz_max t
    /\ offers m (tz_unit t) (tz_service t) "generator"
    /\ net_energy m x (tz_unit t)
       - (tz_lbp t - tz_emin t) / tz_max t * dispatch m x (tz_unit t) (tz_service t) "generator"
       - (dispatch m x (tz_unit t) "lower_reg" "generator" + dispatch m x (tz_unit t) "lower_reg" "load")
       < tz_emin t.
Proof.
  exists gx_config, storage_traps, (final gx_config storage_ops), (values [0; 0; 5]),
    (Trap "S" "raise_6s" "generator" 5 0 5 15 20).
  split; [in_force_at 1%nat|]. split; [solves|]. all_decided.
Qed.
Print Assumptions C13_bidirectional_lower_refuted.

(** The trapezium of the load side of a bidirectional unit counts its load energy
    twice and its generation not at all. *)
Theorem C13_bidirectional_load_refuted :
  exists c l m x t, in_force c (OpJointCapacity l None) m /\ solution m x
    /\ In t l /\ two_sided c (tz_unit t) /\ tz_dt t = "load" /\ 0 < tz_max t
    /\ offers m (tz_unit t) (tz_service t) "load"
    /\ tz_emax t < net_energy m x (tz_unit t)
       + (tz_emax t - tz_hbp t) / tz_max t * dispatch m x (tz_unit t) (tz_service t) "load".
Proof.
  exists gx_config, storage_traps, (final gx_config storage_ops), (values [20]),
    (Trap "S" "raise_6s" "load" 5 (-20) 5 10 15).
  split; [in_force_at 1%nat|]. split; [solves|]. all_decided.
Qed.
Print Assumptions C13_bidirectional_load_refuted.

Theorem C14_energy_and_regulation :
  forall c l m x, in_force c (OpEnergyReg l None) m -> solution m x ->
    forall t, In t l -> registered c (tz_unit t) (tz_dt t) ->
      (two_sided c (tz_unit t) -> tz_dt t = "generator") ->
      offers m (tz_unit t) "energy" (tz_dt t) \/ offers m (tz_unit t) (tz_service t) (tz_dt t) ->
      let e := dispatch m x (tz_unit t) "energy" (tz_dt t) in
      let q := dispatch m x (tz_unit t) (tz_service t) (tz_dt t) in
      e + (tz_emax t - tz_hbp t) / tz_max t * q <= tz_emax t
      /\ tz_emin t <= e - (tz_lbp t - tz_emin t) / tz_max t * q.
Proof. exact energy_reg_in_force. Qed.
Print Assumptions C14_energy_and_regulation.

Theorem C14_inside_trapezium :
  forall c l a m x, in_force c (OpEnergyReg l None) m -> in_force c (OpMaxAvail a None) m -> solution m x ->
    forall t r, In t l -> In r a -> ma_unit r = tz_unit t -> ma_service r = tz_service t -> ma_dt r = tz_dt t ->
      ma_max r <= tz_max t -> 0 < tz_max t ->
      registered c (tz_unit t) (tz_dt t) -> (two_sided c (tz_unit t) -> tz_dt t = "generator") ->
      offers m (tz_unit t) "energy" (tz_dt t) \/ offers m (tz_unit t) (tz_service t) (tz_dt t) ->
      in_trapezium t (dispatch m x (tz_unit t) "energy" (tz_dt t))
                     (dispatch m x (tz_unit t) (tz_service t) (tz_dt t)).
Proof. exact energy_reg_inside. Qed.
Print Assumptions C14_inside_trapezium.

(** Nothing inside the trapeziums is ruled out: the constraints hold there. *)
Theorem C14_nothing_else_excluded :
  forall c l m, in_force c (OpEnergyReg l None) m -> forall x,
    (forall t, In t l -> registered c (tz_unit t) (tz_dt t) /\ (two_sided c (tz_unit t) -> tz_dt t = "generator")
      /\ proper_trapezium t
      /\ in_trapezium t (dispatch m x (tz_unit t) "energy" (tz_dt t))
                        (dispatch m x (tz_unit t) (tz_service t) (tz_dt t))) ->
    meets m x "energy_and_regulation_capacity".
Proof. exact energy_reg_complete. Qed.
Print Assumptions C14_nothing_else_excluded.

Example C14_case :
  in_force gx_config (OpEnergyReg gx_regulation None) gx_market
  /\ in_force gx_config (OpMaxAvail gx_avail None) gx_market /\ solution gx_market gx_x
  /\ In (Trap "A" "raise_reg" "generator" 10 20 30 90 100) gx_regulation
  /\ In (MaxAvail "A" "raise_reg" "generator" 10) gx_avail
  /\ registered gx_config "A" "generator" /\ ~ two_sided gx_config "A"
  /\ offers gx_market "A" "raise_reg" "generator"
  /\ proper_trapezium (Trap "A" "raise_reg" "generator" 10 20 30 90 100)
  /\ dispatch gx_market gx_x "A" "energy" "generator" == 1285#16
  /\ dispatch gx_market gx_x "A" "raise_reg" "generator" == 4
  /\ in_trapezium (Trap "A" "raise_reg" "generator" 10 20 30 90 100) (1285#16) 4.
Proof.
  split; [in_force_at 11%nat|]. split; [in_force_at 8%nat|]. split; [exact gx_solution|]. all_decided.
  - cbn. repeat split; decided.
  - apply trapezium_inside; cbn; try lra; vm_compute; discriminate.
Qed.
