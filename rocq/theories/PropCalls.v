(** C03, C04 and C48: what tables are accepted, what a rejected call leaves behind
    and whether tables can be passed in again. *)

From Coq Require Import QArith ZArith String List Bool.
Import ListNotations.
From Verif Require Import PandasModel TablesModel MarketModel SolverModel FrameModel CallModel SpecLp SpecFrame SpecCalls
  FrameFacts CallFacts RowFacts RejectFacts CheckFacts.
Open Scope string_scope.
Open Scope list_scope.

(** ** Tables used in the examples *)

Definition cx_text (n : string) (l : list string) : column := Col n DObject (map CStr l).
Definition cx_nums (n : string) (l : list Q) : column := Col n DFloat (map CNum l).

Definition cx_info : frame := Frame 2 [cx_text "unit" ["A"; "B"]; cx_text "region" ["NSW"; "NSW"]].
Definition cx_volumes : frame := Frame 2 [cx_text "unit" ["A"; "B"]; cx_nums "1" [20; 50]; cx_nums "2" [30; 10]].
Definition cx_prices : frame := Frame 2 [cx_text "unit" ["A"; "B"]; cx_nums "1" [40; 50]; cx_nums "2" [60; 90]].
Definition cx_limits : frame := Frame 1 [cx_text "unit" ["A"]; cx_nums "capacity" [45]].
Definition cx_demand (q : Q) : frame := Frame 1 [cx_text "region" ["NSW"]; cx_nums "demand" [q]].
Definition cx_elsewhere : frame := Frame 1 [cx_text "region" ["TAS"]; cx_nums "demand" [60]].
Definition cx_fcas : frame :=
  Frame 2 [cx_text "set" ["s"; "t"]; cx_text "region" ["NSW"; "NSW"]; cx_text "service" ["raise_6s"; "lower_6s"];
           cx_nums "volume" [10; 5]].
Definition cx_costs : frame := Frame 2 [cx_text "set" ["s"; "t"]; cx_nums "cost" [1000; 2000]].
Definition cx_no_costs : frame := Frame 1 [cx_text "set" ["s"]].

Definition cx_start : market :=
  match construct ["NSW"] 5 cx_info with Some (Ok (_, m, _)) => m | _ => empty_market (Config [] [] 5) end.
Definition cx_after (c : fcall) (m : market) : market :=
  match call false c m with Some (m', _, _) => m' | None => m end.
Definition cx_market : market :=
  cx_after (FDemand (cx_demand 60) None) (cx_after (FPriceBids cx_prices) (cx_after (FVolumeBids cx_volumes) cx_start)).

Ltac a_table := apply tableb_ok; vm_compute; reflexivity.

(** ** C04: the validator *)

(** A description in which every column occurs once, only columns of numbers are asked
    not to be negative and a key column is needed accepts exactly the tables that fit
    it, and every other table is answered with the error of its fault. *)
Theorem C04_accepts_exactly_well_formed : forall keys cols f,
  proper keys cols -> is_table f ->
  (validate (make_schema keys cols) f = None <-> fits keys cols f).
Proof. exact validate_accepts. Qed.
Print Assumptions C04_accepts_exactly_well_formed.

Theorem C04_error_of_the_fault : forall keys cols f e,
  proper keys cols -> is_table f ->
  (validate (make_schema keys cols) f = Some e <-> fault keys cols f e).
Proof. exact validate_error. Qed.
Print Assumptions C04_error_of_the_fault.

(** A table with a text column, a key over two rows and numbers; and one of each fault. *)
Example C04_fitting : proper ["set"; "cost"] vcost_cols /\ is_table cx_costs /\ fits ["set"; "cost"] vcost_cols cx_costs.
Proof.
  split; [exact vcost_proper|]. assert (T : is_table cx_costs) by a_table. split; [exact T|].
  apply (validate_accepts _ _ _ vcost_proper T). vm_compute. reflexivity.
Qed.
Example C04_faults :
  validate vcost_schema cx_no_costs = Some EMissingColumn
  /\ validate vcost_schema cx_fcas = Some EUnexpectedColumn
  /\ validate (demand_schema cx_start) cx_elsewhere = Some EColumnValues
  /\ validate vcost_schema (Frame 1 [cx_text "set" ["s"]; Col "cost" DInt [CInt 5]]) = Some EDataType
  /\ validate vcost_schema (Frame 2 [cx_text "set" ["s"; "s"]; cx_nums "cost" [5; 5]]) = Some ERepeatedRow.
Proof. vm_compute. repeat split. Qed.

(** Every table of every call has such a description. *)
Theorem C04_every_table_described_properly : forall req m c,
  Forall (fun t : table => let '(keys, cols, _) := t in proper keys cols) (tables req m c)
  /\ proper ["unit"; "dispatch_type"] (unit_info_cols (regions m))
  /\ proper ["set"; "cost"] vcost_cols.
Proof. exact described_properly. Qed.
Print Assumptions C04_every_table_described_properly.

(** A call on tables, all else being in order, ends in an error of validation exactly
    when one of its tables does not fit. *)
Theorem C04_call_rejects_exactly_faulty_tables : forall req c c1 m m' r back,
  args_tables c -> cost_fits (cost_of_call c) ->
  first_check c m = None -> before_check c = Some c1 -> both_sides m c1 ->
  call req c m = Some (m', r, back) ->
  ((exists e, r = Some e /\ validation_error e) <-> ~ Forall table_fits (tables req m c1)).
Proof. exact call_rejected. Qed.
Print Assumptions C04_call_rejects_exactly_faulty_tables.

Example C04_call_accepted :
  let c := FFcasReq cx_fcas (Some (FTable cx_costs)) in
  args_tables c /\ cost_fits (cost_of_call c) /\ first_check c cx_market = None /\ before_check c = Some c
  /\ both_sides cx_market c
  /\ exists m' back, call false c cx_market = Some (m', None, back).
Proof.
  cbv zeta. split; [split; [a_table | a_table]|]. split; [apply C04_fitting|]. split; [reflexivity|]. split; [reflexivity|].
  split; [exact I|]. do 2 eexists. vm_compute. reflexivity.
Qed.
Example C04_call_rejected :
  let c := FDemand cx_elsewhere None in
  args_tables c /\ cost_fits (cost_of_call c) /\ first_check c cx_market = None /\ before_check c = Some c
  /\ both_sides cx_market c
  /\ exists m' back, call false c cx_market = Some (m', Some EColumnValues, back).
Proof.
  cbv zeta. split; [split; [exact I | a_table]|]. split; [exact I|]. split; [reflexivity|]. split; [reflexivity|].
  split; [exact I|]. do 2 eexists. vm_compute. reflexivity.
Qed.

(** The constructor, with the columns it adds, gives a market exactly for unit
    information that fits. *)
Theorem C04_constructor : forall rs interval f,
  is_table f ->
  ((exists req m f', construct rs interval f = Some (Ok (req, m, f')))
   <-> fits ["unit"; "dispatch_type"] (unit_info_cols rs)
         (fill "dispatch_type" DObject (CStr "generator") (fill "loss_factor" DFloat (CNum 1) f)))
  /\ forall e, construct rs interval f = Some (Err e)
     <-> fault ["unit"; "dispatch_type"] (unit_info_cols rs)
           (fill "dispatch_type" DObject (CStr "generator") (fill "loss_factor" DFloat (CNum 1) f)) e.
Proof. exact constructor_exact. Qed.
Print Assumptions C04_constructor.
Example C04_constructor_met : is_table cx_info /\ exists req m f', construct ["NSW"] 5 cx_info = Some (Ok (req, m, f')).
Proof. split; [a_table|]. do 3 eexists. vm_compute. reflexivity. Qed.

(** ** C03 *)

(** Missing: rejected tables of violation costs, see below. *)
Theorem C03_rejected_table_changes_nothing_partial : forall req c m m' e back,
  args_tables c -> cost_fits (cost_of_call c) ->
  call req c m = Some (m', Some e, back) -> validation_error e ->
  m' = m /\ assemble m' = assemble m.
Proof. exact rejected_unchanged. Qed.
Print Assumptions C03_rejected_table_changes_nothing_partial.
Example C03_rejected :
  let c := FDemand cx_elsewhere (Some (FNum 1000)) in
  args_tables c /\ cost_fits (cost_of_call c)
  /\ exists m' back, call false c cx_market = Some (m', Some EColumnValues, back) /\ validation_error EColumnValues.
Proof.
  cbv zeta. split; [split; [exact I | a_table]|]. split; [exact I|]. do 2 eexists.
  split; [vm_compute; reflexivity | unfold validation_error; tauto].
Qed.

(** When the table of violation costs is at fault the call has, at worst, done what the
    same call without violation costs does. *)
Theorem C03_rejected_costs_leave_hard_constraints : forall req c m m' e back,
  args_tables c -> has_plain_form c ->
  call req c m = Some (m', Some e, back) -> validation_error e ->
  m' = m \/ ~ cost_fits (cost_of_call c) /\ does (call req (without_cost c) m) = Some (m', None).
Proof. exact rejected_costs. Qed.
Print Assumptions C03_rejected_costs_leave_hard_constraints.
Example C03_rejected_costs :
  let c := FFcasReq cx_fcas (Some (FTable cx_no_costs)) in
  args_tables c /\ has_plain_form c
  /\ exists m' back, call false c cx_market = Some (m', Some EMissingColumn, back) /\ validation_error EMissingColumn.
Proof.
  cbv zeta. split; [split; a_table|]. split; [exact I|]. do 2 eexists.
  split; [vm_compute; reflexivity | unfold validation_error; tauto].
Qed.

(** A rejected call that changes what can be dispatched: demand 80 with a table of costs
    that has no costs. *)
Definition cx_60 : assignment := values [20; 0; 40; 0].
Definition cx_changed : market := cx_after (FDemand (cx_demand 80) (Some (FTable cx_no_costs))) cx_market.
Theorem C03_refuted : exists req c m m' e back x,
  args_tables c /\ call req c m = Some (m', Some e, back) /\ validation_error e
  /\ solution m x /\ ~ solution m' x.
Proof.
  exists false, (FDemand (cx_demand 80) (Some (FTable cx_no_costs))), cx_market, cx_changed, EMissingColumn, None, cx_60.
  split; [split; a_table|]. split; [vm_compute; reflexivity|]. split; [unfold validation_error; tauto|].
  split.
  - eexists. split; [vm_compute; reflexivity|]. apply feasibleb_ok. vm_compute. reflexivity.
  - intros [p [E [_ [F _]]]].
    assert (C : exists c, In c (p_cons p) /\ con_bad cx_60 c = true).
    { vm_compute in E. inversion E; subst. eexists. split; [left; reflexivity|]. vm_compute. reflexivity. }
    destruct C as [c [Ic B]]. exact (con_bad_ok _ _ B (F c Ic)).
Qed.
Print Assumptions C03_refuted.

(** ** C48 *)

(** Missing: the tables of unit limits and of the forecast, and those of bids and ramp
    rates in a market that does not ask for dispatch types; see below. *)
Theorem C48_passed_again_partial : forall req c m m' c' m2,
  args_tables c -> reusable req c ->
  call req c m = Some (m', None, Some c') -> m_cfg m2 = m_cfg m ->
  args_tables c' /\ reusable req c' /\ does (call req c' m2) = does (call req c m2).
Proof. exact passed_again. Qed.
Print Assumptions C48_passed_again_partial.
Example C48_fcas_again :
  let c := FFcasReq cx_fcas None in
  args_tables c /\ reusable false c
  /\ exists m' c', call false c cx_market = Some (m', None, Some c') /\ c' <> c /\ m_cfg m' = m_cfg cx_market.
Proof.
  cbv zeta. split; [split; [exact I | a_table]|]. split; [exact I|]. do 2 eexists. split; [vm_compute; reflexivity|].
  split; [discriminate | vm_compute; reflexivity].
Qed.

(** The other tables are rejected the second time, whatever market of the same units
    they are given to. *)
Theorem C48_refused_again : forall req c m m' c' m2,
  args_tables c -> ~ reusable req c ->
  call req c m = Some (m', None, Some c') -> m_cfg m2 = m_cfg m ->
  (match c with FPriceBids _ | FCapacity _ _ | FUigf _ _ => m_bids m2 <> None | _ => True end) ->
  does (call req c' m2) = Some (m2, Some EUnexpectedColumn).
Proof. exact refused_again. Qed.
Print Assumptions C48_refused_again.
Example C48_capacity_again :
  let c := FCapacity cx_limits None in
  args_tables c /\ ~ reusable true c /\ ~ reusable false c
  /\ exists m' c', call false c cx_market = Some (m', None, Some c') /\ m_cfg m' = m_cfg cx_market /\ m_bids m' <> None.
Proof.
  cbv zeta. split; [split; [exact I | a_table]|]. split; [intros []|]. split; [intros []|].
  do 2 eexists. split; [vm_compute; reflexivity|]. split; [vm_compute; reflexivity | vm_compute; discriminate].
Qed.

Theorem C48_refuted : exists req c m m' c',
  args_tables c /\ call req c m = Some (m', None, Some c') /\ does (call req c' m) = Some (m, Some EUnexpectedColumn).
Proof.
  exists false, (FVolumeBids cx_volumes), cx_start. do 2 eexists. split; [split; [exact I | a_table]|].
  split; vm_compute; reflexivity.
Qed.
Print Assumptions C48_refuted.

(** Unit information passed in again gives the same market, but one that asks for
    dispatch types. *)
Theorem C48_unit_information_again : forall rs interval f req m f',
  is_table f -> construct rs interval f = Some (Ok (req, m, f')) ->
  is_table f' /\ construct rs interval f' = Some (Ok (true, m, f')).
Proof. exact construct_again. Qed.
Print Assumptions C48_unit_information_again.

(** So bids that the first market takes are rejected by the second. *)
Theorem C48_unit_information_refuted : exists rs interval f req1 req2 m f' c m',
  is_table f /\ args_tables c
  /\ construct rs interval f = Some (Ok (req1, m, f')) /\ construct rs interval f' = Some (Ok (req2, m, f'))
  /\ does (call req1 c m) = Some (m', None) /\ does (call req2 c m) = Some (m, Some EMissingColumn).
Proof.
  exists ["NSW"], 5%Q, cx_info. do 4 eexists. exists (FVolumeBids cx_volumes). eexists.
  split; [a_table|]. split; [split; [exact I | a_table]|].
  split; [vm_compute; reflexivity|]. split; [vm_compute; reflexivity|]. split; vm_compute; reflexivity.
Qed.
Print Assumptions C48_unit_information_refuted.
