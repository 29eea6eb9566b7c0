(** C97: slopes of trapeziums and costs at the reference node are numbers. *)

From Coq Require Import QArith Lqa String List Bool.
Import ListNotations.
From Verif Require Import PandasModel TablesModel VariableIdsModel FcasModel MarketModel FrameModel CallModel OffersModel UnitsModel UnitDataModel TargetsModel DivisionModel
  SpecOffers SpecUnitData SpecDivision CheckUnitFacts DivisionFacts PropUnitData PropCalls.
Open Scope string_scope.
Open Scope list_scope.

(** The trapeziums made from a case file have slopes. *)
Theorem C97_file_slopes :
  forall i v p cs rs ks r, inputs_ok i -> rates_ok (in_initials i) -> processed_offers i = Ok (v, p) ->
  regulation_traps (after_calls i cs) = Gives rs -> contingency_traps (after_calls i cs) = Gives ks -> In r (rs ++ ks) ->
  exists a b, slopes_of r = Some (a, b).
Proof. exact file_slopes. Qed.
Print Assumptions C97_file_slopes.

Example C97_file_case :
  inputs_ok ud_inputs /\ rates_ok (in_initials ud_inputs) /\ (exists v p, processed_offers ud_inputs = Ok (v, p))
  /\ (exists rs, regulation_traps (after_calls ud_inputs ud_calls) = Gives rs /\ length rs = 3%nat)
  /\ (exists ks, contingency_traps (after_calls ud_inputs ud_calls) = Gives ks /\ length ks = 1%nat).
Proof.
  destruct C60_case as [A [B [C _]]]. split; [exact A|]. split; [exact B|]. split; [exact C|].
  split; (eexists; split; [vm_compute; reflexivity|reflexivity]).
Qed.

(** A table without zero in max_availability makes only coefficients that are numbers.
    Missing for the full claim: rows with zero, which the checks accept. *)
Theorem C97_joint_capacity_partial :
  forall l, (forall t, In t l -> ~ tz_max t == 0) -> forall bdu n w, In w (joint_capacity_map l bdu n) -> a_number l w.
Proof. exact joint_numbers. Qed.
Print Assumptions C97_joint_capacity_partial.

Theorem C97_regulation_partial :
  forall l, (forall t, In t l -> ~ tz_max t == 0) -> forall n w, In w (energy_reg_map l n) -> a_number l w.
Proof. exact reg_numbers. Qed.
Print Assumptions C97_regulation_partial.

(** The rows without slopes are exactly those with zero. *)
Theorem C97_slopes_missing : forall t, slopes_of t = None <-> tz_max t == 0.
Proof. exact slopes_missing. Qed.
Print Assumptions C97_slopes_missing.

(** Costs are the quotients, where these are numbers; they are missing exactly for
    energy with a zero loss factor. *)
Theorem C97_costs :
  forall obj ui w, In w (scale_by_loss_factors obj ui) ->
  exists o u, In o obj /\ In u ui /\ ob_unit o = ui_unit u /\ ob_dt o = ui_dt u /\ ob_var w = ob_var o
    /\ forall q, cost_over o u = Some q -> ob_cost w == q.
Proof. exact costs_are. Qed.
Print Assumptions C97_costs.

Theorem C97_costs_missing : forall o u, cost_over o u = None <-> ob_service o = "energy" /\ ui_lf u == 0.
Proof. exact costs_missing. Qed.
Print Assumptions C97_costs_missing.

Definition dv_good : trap_row := Trap "A" "raise_6s" "generator" 10 20 30 50 80.
Definition dv_bid : objrow := Obj 0 "A" "energy" "generator" "1" 45.
Example C97_case :
  (forall t, In t [dv_good] -> ~ tz_max t == 0)
  /\ (exists w, In w (joint_capacity_map [dv_good] ["A"] 4) /\ uc_coef w == 3)
  /\ (exists w, In w (energy_reg_map [dv_good] 4) /\ uc_coef w == -(1) /\ uc_service w = "raise_6s")
  /\ (exists w, In w (scale_by_loss_factors [dv_bid] [UnitInfo "A" "NSW" "generator" (9#10)]) /\ ob_cost w == 50)
  /\ (exists q, cost_over dv_bid (UnitInfo "A" "NSW" "generator" (9#10)) = Some q /\ q == 50).
Proof.
  split; [intros t [<-|[]] Z; vm_compute in Z; discriminate|].
  split; [eexists; split; [right; left; reflexivity|vm_compute; reflexivity]|].
  split; [eexists; split; [do 3 right; left; reflexivity|split; vm_compute; reflexivity]|].
  split; [eexists; split; [left; reflexivity|vm_compute; reflexivity]|].
  eexists. split; [vm_compute; reflexivity|reflexivity].
Qed.

(** The market accepts tables that make them divisions by zero: a trapezium without
    availability, and a zero loss factor. *)
Definition dv_frame (service : string) : frame :=
  Frame 1 [cx_text "unit" ["A"]; cx_text "service" [service]; cx_nums "max_availability" [0]; cx_nums "enablement_min" [20];
           cx_nums "low_break_point" [30]; cx_nums "high_break_point" [50]; cx_nums "enablement_max" [80]].
Theorem C97_slopes_refuted :
  (exists f v m m2 seen t, call false (FJointCapacity f v) m = Some (m2, None, seen) /\ read_traps (fill_dt f) = Some [t] /\ slopes_of t = None)
  /\ (exists f v m m2 seen t, call false (FEnergyReg f v) m = Some (m2, None, seen) /\ read_traps (fill_dt f) = Some [t] /\ slopes_of t = None).
Proof.
  split; [exists (dv_frame "raise_6s")|exists (dv_frame "raise_reg")]; exists None, cx_market; do 3 eexists;
    (split; [vm_compute; reflexivity|]; split; [vm_compute; reflexivity|reflexivity]).
Qed.
Print Assumptions C97_slopes_refuted.

Definition dv_info : frame :=
  Frame 2 [cx_text "unit" ["A"; "B"]; cx_text "region" ["NSW"; "NSW"]; cx_nums "loss_factor" [0; 1]].
Definition dv_market : market :=
  match construct ["NSW"] 5 dv_info with Some (Ok (_, m, _)) => m | _ => empty_market (Config [] [] 5) end.
Theorem C97_costs_refuted :
  exists rs i f req m seen m2 m3 seen2 seen3 o u w, construct rs i f = Some (Ok (req, m, seen))
    /\ call false (FVolumeBids cx_volumes) m = Some (m2, None, seen2) /\ call false (FPriceBids cx_prices) m2 = Some (m3, None, seen3)
    /\ In u (c_ui (m_cfg m3)) /\ m_obj_bids m3 = Some w /\ In o w /\ ob_unit o = ui_unit u /\ ob_dt o = ui_dt u
    /\ ob_service o = "energy" /\ forall cost, column_over cost (ui_lf u) = None.
Proof.
  exists ["NSW"], 5, dv_info. eexists _, dv_market, _, (cx_after (FVolumeBids cx_volumes) dv_market),
    (cx_after (FPriceBids cx_prices) (cx_after (FVolumeBids cx_volumes) dv_market)). do 5 eexists.
  split; [vm_compute; reflexivity|]. split; [vm_compute; reflexivity|]. split; [vm_compute; reflexivity|].
  split; [left; reflexivity|]. split; [vm_compute; reflexivity|]. split; [left; reflexivity|]. split; [reflexivity|]. split; [reflexivity|]. split; [reflexivity|]. intros cost. reflexivity.
Qed.
Print Assumptions C97_costs_refuted.
