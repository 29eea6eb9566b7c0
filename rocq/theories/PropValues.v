(** C93: values that are documented to be refused are refused. *)

From Coq Require Import QArith ZArith Lqa String List Bool.
Import ListNotations.
From Verif Require Import PandasModel TablesModel MarketModel FrameModel CallModel SpecFrame SpecCalls SpecValues FrameFacts CheckFacts ValuesFacts PropCalls PropTables.
Open Scope string_scope.
Open Scope list_scope.

(** A call with a value that breaks a documented rule of its column is refused and leaves
    the market alone.  Missing: the rules that the code does not check ([unchecked]). *)
Theorem C93_bad_values_refused_partial : forall req c m m' r back n rl,
  args_tables c -> breaks_rule c n rl -> ~ In (n, rl) (unchecked c) -> call req c m = Some (m', r, back) ->
  m' = m /\ exists e, r = Some e.
Proof. exact broken_refused. Qed.
Print Assumptions C93_bad_values_refused_partial.

(** The loss factors of the unit information. *)
Theorem C93_unit_information : forall rs interval f i x r,
  is_table f -> holds f "loss_factor" i x -> breaks r x -> r <> AtMostOne ->
  ~ exists req m f', construct rs interval f = Some (Ok (req, m, f')).
Proof. exact broken_units. Qed.
Print Assumptions C93_unit_information.

(** A price that is not known, and a negative volume. *)
Definition va_prices : fcall := FPriceBids (Frame 2 [cx_text "unit" ["A"; "B"]; cx_nums "1" [40; 50]; Col "2" DFloat [CNum 60; CNaN]]).
Definition va_volumes : fcall := FVolumeBids (Frame 2 [cx_text "unit" ["A"; "B"]; cx_nums "1" [40; -(5)]]).
Ltac broken c i x :=
  do 2 eexists; exists i, x; split; [now left|]; split; [cbn; tauto|]; split;
    [exists c; split; [cbn; tauto|split; reflexivity]|].
Example C93_met :
  args_tables va_prices /\ breaks_rule va_prices "2" Real /\ ~ In ("2", Real) (unchecked va_prices)
  /\ call false va_prices cx_market = Some (cx_market, Some EColumnValues, None)
  /\ args_tables va_volumes /\ breaks_rule va_volumes "1" NotNegative /\ ~ In ("1", NotNegative) (unchecked va_volumes)
  /\ call false va_volumes cx_market = Some (cx_market, Some EColumnValues, None).
Proof.
  split; [split; [exact I|a_table]|]. split; [broken (Col "2" DFloat [CNum 60; CNaN]) 1%nat CNaN; right; right; reflexivity|].
  split; [intros []|]. split; [vm_compute; reflexivity|].
  split; [split; [exact I|a_table]|]. split; [broken (cx_nums "1" [40; -(5)]) 1%nat (CNum (-(5))); right; exists (-(5)); split; reflexivity|].
  split; [intros []|]. vm_compute. reflexivity.
Qed.
Definition va_units : frame := Frame 1 [cx_text "unit" ["A"]; cx_text "region" ["NSW"]; cx_nums "loss_factor" [-(1)]].
Example C93_units_met : is_table va_units /\ holds va_units "loss_factor" 0 (CNum (-(1))) /\ breaks NotNegative (CNum (-(1))).
Proof.
  split; [a_table|]. split; [exists (cx_nums "loss_factor" [-(1)]); split; [cbn; tauto|split; reflexivity]|].
  right. exists (-(1)). split; reflexivity.
Qed.

(** The full statement is false: negative limits, rates, demands, requirements and break
    points of trapeziums, and a share of losses above one, are taken. *)
Definition va_ramp : frame :=
  Frame 1 [cx_text "unit" ["A"]; cx_nums "initial_output" [20]; cx_nums "ramp_up_rate" [-(60)]; cx_nums "ramp_down_rate" [60]].
Definition va_joint : frame :=
  Frame 1 [cx_text "unit" ["A"]; cx_nums "initial_output" [20]; cx_nums "scada_ramp_up_rate" [-(60)]; cx_nums "scada_ramp_down_rate" [60]].
Definition va_requirement : frame :=
  Frame 1 [cx_text "set" ["s"]; cx_text "region" ["NSW"]; cx_text "service" ["raise_6s"]; cx_nums "volume" [-(10)]].
Definition va_trapezium (service : string) : frame :=
  Frame 1 [cx_text "unit" ["A"]; cx_text "service" [service]; cx_nums "max_availability" [10]; cx_nums "enablement_min" [-(20)];
           cx_nums "low_break_point" [0]; cx_nums "high_break_point" [30]; cx_nums "enablement_max" [50]].
Definition va_losses : fcall :=
  FLosses (Frame 1 [cx_text "interconnector" ["i"]; cx_nums "from_region_loss_share" [2]; Col "loss_function" DObject [CFun (fun q => q)]])
          (Frame 2 [cx_text "interconnector" ["i"; "i"]; cx_ints "loss_segment" [1%Z; 2%Z]; cx_nums "break_point" [-50; 100]]).
Definition va_market : market := cx_after tb_inter cx_market.
Definition accepted_though (c : fcall) (n : string) (rl : rule) : Prop :=
  args_tables c /\ breaks_rule c n rl /\ exists m' back, call false c va_market = Some (m', None, back).
Ltac taken c x :=
  split; [first [split; [exact I|a_table]|split; [exact I|split; [a_table|split; exact I]]|split; [exact I|split; [a_table|exact I]]|split; [exact I|split; a_table]]|];
  split; [broken c 0%nat (CNum x); right; exists x; split; reflexivity|do 2 eexists; vm_compute; reflexivity].
Theorem C93_refuted :
  accepted_though (FCapacity (Frame 1 [cx_text "unit" ["A"]; cx_nums "capacity" [-(45)]]) None) "capacity" NotNegative
  /\ accepted_though (FUigf (Frame 1 [cx_text "unit" ["A"]; cx_nums "capacity" [-(45)]]) None) "capacity" NotNegative
  /\ accepted_though (FRamp va_ramp None None "no_fast_start_units" None) "ramp_up_rate" NotNegative
  /\ accepted_though (FDemand (cx_demand (-(60))) None) "demand" NotNegative
  /\ accepted_though (FFcasReq va_requirement None) "volume" NotNegative
  /\ accepted_though (FJointRamping va_joint None "no_fast_start_units" None) "scada_ramp_up_rate" NotNegative
  /\ accepted_though (FJointCapacity (va_trapezium "raise_6s") None) "enablement_min" NotNegative
  /\ accepted_though (FEnergyReg (va_trapezium "raise_reg") None) "enablement_min" NotNegative
  /\ accepted_though va_losses "from_region_loss_share" AtMostOne.
Proof.
  split; [taken (cx_nums "capacity" [-(45)]) (-(45))|]. split; [taken (cx_nums "capacity" [-(45)]) (-(45))|].
  split; [taken (cx_nums "ramp_up_rate" [-(60)]) (-(60))|]. split; [taken (cx_nums "demand" [-(60)]) (-(60))|].
  split; [taken (cx_nums "volume" [-(10)]) (-(10))|]. split; [taken (cx_nums "scada_ramp_up_rate" [-(60)]) (-(60))|].
  split; [taken (cx_nums "enablement_min" [-(20)]) (-(20))|]. split; [taken (cx_nums "enablement_min" [-(20)]) (-(20))|].
  taken (cx_nums "from_region_loss_share" [2]) 2.
Qed.
Print Assumptions C93_refuted.

(** Capacities and rates that are not known pass the checks. *)
Definition va_null : column := Col "capacity" DFloat [CNaN].
Theorem C93_null_refuted :
  let c := FCapacity (Frame 1 [cx_text "unit" ["A"]; va_null]) None in
  let d := FUigf (Frame 1 [cx_text "unit" ["A"]; va_null]) None in
  args_tables c /\ breaks_rule c "capacity" Real /\ checks false va_market c = None
  /\ args_tables d /\ breaks_rule d "capacity" Real /\ checks false va_market d = None.
Proof.
  cbv zeta. split; [split; [exact I|a_table]|]. split; [broken va_null 0%nat CNaN; right; right; reflexivity|]. split; [vm_compute; reflexivity|].
  split; [split; [exact I|a_table]|]. split; [broken va_null 0%nat CNaN; right; right; reflexivity|]. vm_compute. reflexivity.
Qed.
Print Assumptions C93_null_refuted.

(** Losses without interconnectors: refused, but never with the documented ModelBuildError,
    in no market and for no tables. *)
Theorem C93_losses_first_refuted : forall req m m' lf bps r back,
  m_inter m = None -> call req (FLosses lf bps) m = Some (m', r, back) -> exists e, r = Some e /\ e <> EModelBuild.
Proof. exact losses_early. Qed.
Print Assumptions C93_losses_first_refuted.
Example C93_losses_first_met : m_inter cx_market = None /\ exists m' back, call false va_losses cx_market = Some (m', Some EAttribute, back).
Proof. split; [reflexivity|]. do 2 eexists. vm_compute. reflexivity. Qed.
