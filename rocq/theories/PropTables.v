(** C80: a call does what its tables say, cell by cell.
    C81: the columns and types a table is to have are the documented ones. *)

From Coq Require Import QArith ZArith String List Bool.
Import ListNotations.
From Verif Require SpecOrder.
From Verif Require Import PandasModel TablesModel MarketModel FrameModel CallModel SpecFrame SpecCalls SpecTables SpecDocs
  FrameFacts CallFacts RowFacts RejectFacts ReadFacts TotalFacts DocFacts PropCalls.
Open Scope string_scope.
Open Scope list_scope.

(** ** C80 *)

(** What a call does is fixed by the cells of its tables: it refuses them, leaving the
    market alone, or makes the typed call that has, row by row, the cells of the documented
    columns and the documented values where a column is left out. *)
Theorem C80_call_does_what_the_tables_say : forall req c m m' r back,
  args_tables c -> cost_fits (cost_of_call c) -> call req c m = Some (m', r, back) ->
  (exists o, says c o /\ step o m = (m', r)) \/ (m' = m /\ exists e, r = Some e).
Proof. exact call_does_what_tables_say. Qed.
Print Assumptions C80_call_does_what_the_tables_say.

Theorem C80_accepted_call_does_what_the_tables_say : forall req c m m' c',
  args_tables c -> cost_fits (cost_of_call c) -> call req c m = Some (m', None, Some c') ->
  exists o, says c o /\ step o m = (m', None).
Proof. exact accepted_does_what_tables_say. Qed.
Print Assumptions C80_accepted_call_does_what_the_tables_say.

(** Tables of real numbers always get an answer. *)
Theorem C80_every_call_answered : forall req c m,
  args_tables c -> finite_args c -> exists m' r back, call req c m = Some (m', r, back).
Proof. exact call_total. Qed.
Print Assumptions C80_every_call_answered.

(** A history of accepted calls on tables is the history of what the tables say, so the
    theorems about histories hold for histories of tables. *)
Theorem C80_history : forall req cs m m',
  Forall (fun c => args_tables c /\ cost_fits (cost_of_call c)) cs -> calls_accepted req cs m m' ->
  exists ops, Forall2 says cs ops /\ SpecOrder.accepted ops m /\ run ops m = m'.
Proof. exact history_says. Qed.
Print Assumptions C80_history.

(** The constructor: the units of the market are those of the table. *)
Theorem C80_constructor : forall rs interval f req m f',
  construct rs interval f = Some (Ok (req, m, f')) ->
  (req = true <-> In "dispatch_type" (names f))
  /\ exists l, units_say f l /\ new_market (Config rs l interval) = Ok m.
Proof. exact construct_says. Qed.
Print Assumptions C80_constructor.
Theorem C80_constructor_answers : forall rs interval f, is_table f -> finite f -> construct rs interval f <> None.
Proof. exact construct_total. Qed.
Print Assumptions C80_constructor_answers.

(** Requirements without a type and costs by set; an interconnector without link and loss
    factors; ramp rates with a rate that is not known. *)
Definition tb_link : frame :=
  Frame 1 [cx_text "interconnector" ["i"]; cx_text "to_region" ["NSW"]; cx_text "from_region" ["NSW"];
           cx_nums "max" [100]; cx_nums "min" [-50]; cx_nums "to_region_loss_factor" [9 # 10]].
Definition tb_ramp : frame :=
  Frame 2 [cx_text "unit" ["A"; "B"]; cx_nums "initial_output" [20; 30]; cx_nums "ramp_up_rate" [60; 120];
           cx_nums "ramp_down_rate" [60; 60]].
Definition tb_scada : frame := Frame 1 [cx_text "unit" ["A"]; Col "scada_ramp_up_rate" DFloat [CNaN]].
Definition tb_fcas : fcall := FFcasReq cx_fcas (Some (FTable cx_costs)).
Definition tb_inter : fcall := FInterconnectors tb_link.
Definition tb_rates : fcall := FRamp tb_ramp (Some tb_scada) None "no_fast_start_units" (Some (FNum 1000)).

Ltac is_finite :=
  let c := fresh in let x := fresh in let H := fresh in let J := fresh in
  intros c x H J; cbn in H; repeat (destruct H as [H|H]; [subst c; cbn in J; repeat (destruct J as [J|J]; [subst x;
    split; [discriminate | split; [discriminate | first [discriminate | intros _; cbn; tauto]]] |]); contradiction |]); contradiction.

Example C80_met :
  Forall (fun c => args_tables c /\ cost_fits (cost_of_call c) /\ finite_args c
                   /\ exists m' c', call false c cx_market = Some (m', None, Some c')) [tb_fcas; tb_inter; tb_rates].
Proof.
  repeat apply Forall_cons; [| | |apply Forall_nil].
  - split; [split; a_table|]. split; [apply C04_fitting|]. split; [is_finite|]. do 2 eexists. vm_compute. reflexivity.
  - split; [split; [exact I | a_table]|]. split; [exact I|]. split; [is_finite|]. do 2 eexists. vm_compute. reflexivity.
  - split; [split; [exact I | split; [a_table | split; [a_table | exact I]]]|]. split; [exact I|].
    split; [split; [is_finite | split; [is_finite | exact I]]|]. do 2 eexists. vm_compute. reflexivity.
Qed.
(** What they say: the type is assumed, the link is the interconnector, one loss factor is
    assumed, the rate is null. *)
Example C80_said :
  typed tb_fcas = Some (OpFcasReq [FcasReq "s" "NSW" "raise_6s" 10 "="; FcasReq "t" "NSW" "lower_6s" 5 "="]
                          (Some (VTable [("s", 1000%Q); ("t", 2000%Q)])))
  /\ (exists c1, before_check tb_inter = Some c1
                 /\ typed c1 = Some (OpInterconnectors [Inter "i" "i" "NSW" "NSW" 100 (-50) 1 1 (9 # 10)]))
  /\ typed tb_rates = Some (OpRamp (RampTable false false [RampIn (Ramp "A" "generator" 20 60 60) None None;
                                                           RampIn (Ramp "B" "generator" 30 120 60) None None])
                              (Some (ScadaTable true false [Scada "A" None None])) None "no_fast_start_units" (Some (VNum 1000))).
Proof.
  split; [vm_compute; reflexivity|]. split; [eexists; split; [reflexivity | vm_compute; reflexivity]|]. vm_compute. reflexivity.
Qed.
Definition tb_history : list fcall := [FVolumeBids cx_volumes; FPriceBids cx_prices; FDemand (cx_demand 60) None; tb_fcas; tb_inter; tb_rates].
Example C80_history_met :
  Forall (fun c => args_tables c /\ cost_fits (cost_of_call c)) tb_history
  /\ exists m', calls_accepted false tb_history cx_start m'.
Proof.
  split.
  - repeat apply Forall_cons; [..|apply Forall_nil];
      try (split; [split; [exact I | a_table] | exact I]);
      [split; [split; a_table | apply C04_fitting]
      |split; [split; [exact I | split; [a_table | split; [a_table | exact I]]] | exact I]].
  - eexists. repeat (eapply one_call; [vm_compute; reflexivity|]). apply no_call.
Qed.
Example C80_constructor_met : is_table cx_info /\ finite cx_info
  /\ exists req m f', construct ["NSW"] 5 cx_info = Some (Ok (req, m, f')).
Proof. split; [a_table|]. split; [is_finite|]. do 3 eexists. vm_compute. reflexivity. Qed.

(** ** C81 *)

(** A table with the documented columns of the documented types is not refused for its
    columns or their types.  Missing: five tables whose documentation is wrong, see below. *)
Theorem C81_documented_tables_partial : forall req c m m' e back,
  args_tables c -> cost_fits (cost_of_call c) -> well_documented c -> all_documented false req c ->
  call req c m = Some (m', Some e, back) -> ~ column_error e.
Proof. exact documented_call_literal. Qed.
Print Assumptions C81_documented_tables_partial.

(** With the documentation put right ([fixed]) this is so for every call and for the
    constructor. *)
Theorem C81_corrected_documentation : forall req c m m' e back,
  args_tables c -> cost_fits (cost_of_call c) -> all_documented true req c ->
  call req c m = Some (m', Some e, back) -> ~ column_error e.
Proof. exact documented_call. Qed.
Print Assumptions C81_corrected_documentation.
Theorem C81_corrected_unit_information : forall rs interval f e,
  is_table f -> as_documented (doc_units true) f -> construct rs interval f = Some (Err e) -> ~ column_error e.
Proof. exact documented_construct. Qed.
Print Assumptions C81_corrected_unit_information.

(** And tables that are accepted are as documented, but for three columns that are taken
    and not documented. *)
Theorem C81_accepted_as_documented : forall req c m m' c',
  args_tables c -> call req c m = Some (m', None, Some c') ->
  Forall (fun t : doc_table => as_documented (or_undocumented c (fst t)) (snd t)) (docs true req c).
Proof. exact accepted_documented. Qed.
Print Assumptions C81_accepted_as_documented.
Theorem C81_accepted_unit_information : forall rs interval f req m f',
  is_table f -> construct rs interval f = Some (Ok (req, m, f')) -> as_documented (doc_units true) f.
Proof. exact accepted_units. Qed.
Print Assumptions C81_accepted_unit_information.

Ltac documented :=
  split; [cbn; intuition (subst; tauto)
         | let c := fresh in let H := fresh in intros c H; cbn in H;
           repeat (destruct H as [H|H]; [subst c; cbn;
             first [exists KText; split; [tauto | intros ? H; cbn in H; intuition (subst; eauto)]
                   | exists KFloat; split; [tauto | reflexivity] | exists KInt; split; [tauto | reflexivity]
                   | exists KFunction; split; [tauto | intros ? H; cbn in H; intuition (subst; eauto)]] |]); contradiction].
Definition tb_twice : fcall := FDemand (Frame 2 [cx_text "region" ["NSW"; "NSW"]; cx_nums "demand" [60; 60]]) None.
Example C81_met :
  args_tables tb_twice /\ cost_fits (cost_of_call tb_twice) /\ well_documented tb_twice /\ all_documented false false tb_twice
  /\ call false tb_twice cx_market = Some (cx_market, Some ERepeatedRow, None).
Proof.
  split; [split; [exact I | a_table]|]. split; [exact I|]. split; [exact I|].
  split; [constructor; [documented | constructor]|]. vm_compute. reflexivity.
Qed.

(** The documented tables that are refused. *)
Definition cx_ints (n : string) (l : list Z) : column := Col n DInt (map CInt l).
Definition tb_fast : fcall :=
  FFastStart (Frame 1 [cx_text "unit" ["A"]; cx_ints "end_mode" [2%Z]; cx_ints "time_in_end_mode" [3%Z]; cx_ints "mode_two_length" [5%Z];
                       cx_ints "mode_four_length" [5%Z]; cx_nums "min_loading" [10]]) None.
Theorem C81_fast_start_refuted : exists req c m,
  args_tables c /\ cost_fits (cost_of_call c) /\ all_documented false req c
  /\ call req c m = Some (m, Some EDataType, None).
Proof.
  exists false, tb_fast, cx_market. split; [split; [exact I | a_table]|]. split; [exact I|].
  split; [constructor; [documented | constructor] | vm_compute; reflexivity].
Qed.
Print Assumptions C81_fast_start_refuted.

Definition tb_losses : fcall :=
  FLosses (Frame 1 [cx_text "interconnector" ["i"]; cx_nums "from_region_loss_share" [1 # 2]; Col "loss_function" DObject [CFun (fun q => q)]])
          (Frame 2 [cx_text "interconnector" ["i"; "i"]; cx_nums "loss_segment" [1; 2]; cx_nums "break_point" [-50; 100]]).
Theorem C81_loss_segment_refuted : exists req c m,
  args_tables c /\ cost_fits (cost_of_call c) /\ all_documented false req c
  /\ call req c m = Some (m, Some EDataType, None).
Proof.
  exists false, tb_losses, (cx_after tb_inter cx_market). split; [split; [exact I | split; a_table]|]. split; [exact I|].
  split; [constructor; [documented | constructor; [documented | constructor]] | vm_compute; reflexivity].
Qed.
Print Assumptions C81_loss_segment_refuted.

Definition tb_joint : fcall :=
  FJointRamping (Frame 1 [cx_text "unit" ["A"]; cx_nums "initial_output" [20]]) None "no_fast_start_units" None.
Theorem C81_optional_rates_refuted : exists req c m,
  args_tables c /\ cost_fits (cost_of_call c) /\ all_documented false req c
  /\ call req c m = Some (m, Some EMissingColumn, None).
Proof.
  exists false, tb_joint, cx_market. split; [split; [exact I | split; [a_table | exact I]]|]. split; [exact I|].
  split; [constructor; [documented | constructor] | vm_compute; reflexivity].
Qed.
Print Assumptions C81_optional_rates_refuted.

Definition tb_second : fcall :=
  FRamp tb_ramp None (Some (Frame 1 [cx_text "unit" ["A"]; cx_ints "end_mode" [3%Z]; cx_ints "time_since_end_of_mode_two" [2%Z];
                                     cx_nums "min_loading" [10]])) "fast_start_second_run" None.
Theorem C81_time_since_mode_two_refuted : exists req c m,
  args_tables c /\ cost_fits (cost_of_call c) /\ all_documented false req c
  /\ call req c m = Some (m, Some EDataType, None).
Proof.
  exists false, tb_second, cx_market. split; [split; [exact I | split; [a_table | split; [exact I | a_table]]]|]. split; [exact I|].
  split; [constructor; [documented | constructor; [documented | constructor]] | vm_compute; reflexivity].
Qed.
Print Assumptions C81_time_since_mode_two_refuted.

Definition tb_units : frame := Frame 1 [cx_text "unit" ["A"]; cx_text "region" ["NSW"]; cx_ints "loss_factor" [1%Z]].
Theorem C81_unit_information_refuted : exists rs interval f,
  is_table f /\ as_documented (doc_units false) f /\ construct rs interval f = Some (Err EDataType).
Proof.
  exists ["NSW"], 5%Q, tb_units. split; [a_table|]. split; [documented | vm_compute; reflexivity].
Qed.
Print Assumptions C81_unit_information_refuted.

Example C81_corrected_met :
  all_documented true false tb_rates /\ all_documented true false tb_inter /\ as_documented (doc_units true) cx_info.
Proof.
  split; [constructor; [documented | constructor; [documented | constructor]]|].
  split; [constructor; [documented | constructor] | documented].
Qed.
