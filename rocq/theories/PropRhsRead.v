(** The inputs and equations of the calculator of right hand sides are those of the case
    file. *)

From Coq Require Import QArith String Ascii List Bool ZArith Lia Lqa.
Import ListNotations.
From Verif Require Import PandasModel OffersModel XmlModel RhsModel RhsReadModel.
From Verif Require Import SpecXml SpecRhs SpecRhsRead RhsReadFacts PropXml PropXmlRead.
Open Scope string_scope.
Open Scope list_scope.

(** ** A case file *)

Definition rr_value (id v : string) : elem := Elem "ScadaValues" [("SpdID", id); ("Value", v)] [].
Definition rr_scada : list elem :=
  [Elem "ConstraintScadaData" [("SpdType", "A")]
     [Elem "ScadaValuesCollection" [] [rr_value "GEN" "10"; rr_value "LINE" "100"; rr_value "GEN" "20"];
      Elem "BadScadaValuesCollection" [] [rr_value "GEN" "5"]];
   Elem "ConstraintScadaData" [("SpdType", "S")] [Elem "ScadaValuesCollection" [] [rr_value "SWITCH" "1"]]].
Definition rr_term (ty id m : string) (more : list (string * string)) : elem :=
  Elem "RHSTerm" ([("SpdType", ty); ("SpdID", id); ("Multiplier", m)] ++ more) [].
Definition rr_generic : list elem :=
  [Elem "GenericEquation" [("EquationID", "X1")] [Elem "RHSTermCollection" [] [rr_term "S" "SWITCH" "5" [("Default", "0")]]];
   Elem "GenericEquation" [("EquationID", "X2")] []].
Definition rr_sum : list elem :=
  [rr_term "A" "GEN" "2" []; rr_term "T" "A" "1" [("Default", "0")]; rr_term "M" "T-V" "5" []; rr_term "E" "LIMIT" "-30" []; rr_term "C" "Constant" "50.5" [("Default", "1")]].
Definition rr_constraint (id : string) (terms : list elem) : elem :=
  Elem "GenericConstraint" [("ConstraintID", id)] [Elem "RHSTermCollection" [] terms].
Definition rr_constraints : list elem :=
  [rr_constraint "SUM" rr_sum; rr_constraint "VIA" [rr_term "X" "X1" "2" [("Operation", "PUSH"); ("GroupTerm", "1")]];
   Elem "GenericConstraint" [("ConstraintID", "NONE")] []].
Definition rr_entered : list elem :=
  [Elem "EnteredValuePeriod" [("SpdID", "LIMIT"); ("Value", "2")] []; Elem "EnteredValuePeriod" [("SpdID", "OTHER"); ("Value", "0")] []].
Definition rr_link (mnsp : string) (id : string) (offers : list elem) : elem :=
  Elem "InterconnectorPeriod" [("InterconnectorID", id); ("MNSP", mnsp); ("FromRegion", "TAS1"); ("ToRegion", "VIC1")] offers.
Definition rr_links : list elem :=
  [rr_link "0" "V-N" [];
   rr_link "1" "T-V" [Elem "MNSPOfferCollection" [] [Elem "MNSPOffer" [("RegionID", "VIC1"); ("MaxAvail", "100")] []; Elem "MNSPOffer" [("RegionID", "TAS1"); ("MaxAvail", "20")] []]]].
Definition rr_solutions : list elem := [xd_solved "SUM" "0" "50.5"; xd_solved "VIA" "0" "10"].
Definition rr_doc (scada entered : list elem) : elem :=
  Elem "NEMSPDCaseFile" []
    [Elem "NemSpdInputs" []
       [Elem "TraderCollection" [] xd_traders;
        Elem "ConstraintScadaDataCollection" [] scada;
        Elem "GenericEquationCollection" [] rr_generic;
        Elem "GenericConstraintCollection" [] rr_constraints;
        Elem "PeriodCollection" []
          [Elem "Period" [] [Elem "EnteredValuePeriodCollection" [] entered; Elem "InterconnectorPeriodCollection" [] rr_links]]];
     Elem "NemSpdOutputs" [] (Elem "PeriodSolution" [("Intervention", "0")] [] :: rr_solutions)].
Definition rr_root : elem := rr_doc rr_scada rr_entered.
Definition rr_parts : parts := Parts rr_scada rr_generic rr_constraints xd_traders rr_entered rr_links rr_solutions "InitialMW".

Ltac is_collection := split; [reflexivity|]; eexists; split; [cbn; repeat (eexists; split; [reflexivity|]); reflexivity|]; split; [reflexivity|cbn; lia].
Lemma rr_consists : consists_of rr_root rr_parts.
Proof.
  split; [is_collection|]. split; [is_collection|]. split; [is_collection|]. split; [is_collection|]. split; [is_collection|].
  split; [is_collection|]. split; [is_collection|]. left. split; [|reflexivity].
  eexists. split; [reflexivity|]. eexists. split; [cbn; eexists; split; reflexivity|reflexivity].
Qed.
Ltac all_distinct := cbn; repeat (constructor; [cbn; intuition discriminate|]); constructor.
Ltac each_one := repeat match goal with
  | H : In _ (_ :: _) |- _ => destruct H as [<-|H]
  | H : _ = _ \/ _ |- _ => destruct H as [<-|H]
  | H : In _ [] |- _ => destruct H
  | H : False |- _ => destruct H
  end.
Ltac nonempty := let Z := fresh in intros Z; vm_compute in Z; discriminate Z.
Ltac numeric := eexists; eexists; split; reflexivity.
Ltac a_term := split; [nonempty|]; split; [nonempty|]; split; [numeric|]; split; first [left; reflexivity|right; numeric].
Lemma rr_readable : inputs_readable xd_reader rr_parts.
Proof.
  split; [|split; [|split; [|split; [|split; [|split]]]]].
  - split; [all_distinct|]. intros s H. cbn in H. each_one; (split; [nonempty|]); eexists; split.
    + eexists. split; [reflexivity|]. split; [nonempty|]. right. eexists. split; [reflexivity|]. split; [nonempty|reflexivity].
    + intros e I. cbn in I. each_one; (split; [nonempty|numeric]).
    + eexists. split; [reflexivity|]. split; [nonempty|]. left. split; reflexivity.
    + intros e I. cbn in I. each_one; (split; [nonempty|numeric]).
  - split; [all_distinct|]. intros e H. cbn in H. each_one; (split; [nonempty|]); [right|left; reflexivity].
    eexists. split; [eexists; split; [reflexivity|]; split; [reflexivity|nonempty]|]. intros t I. cbn in I. each_one; a_term.
  - split; [all_distinct|]. intros e H. cbn in H. each_one; (split; [nonempty|]); [right|right|left; reflexivity].
    + exists rr_sum. split; [eexists; split; [reflexivity|]; split; [reflexivity|nonempty]|]. intros t I. unfold rr_sum in I. each_one; a_term.
    + eexists. split; [eexists; split; [reflexivity|]; split; [reflexivity|nonempty]|]. intros t I. cbn in I. each_one; a_term.
  - split; [all_distinct|]. intros t H. split; [apply xd_measured, H|]. cbn in H. each_one; do 2 eexists;
      (split; [eexists; split; [cbn; eexists; split; reflexivity|]; split; [reflexivity|]; split; [cbn; lia|]; intros x I; cbn in I; each_one; nonempty|]); right.
    + exists [xd_condition "AGCStatus" "1"], (xd_condition "InitialMW" "100"), [xd_condition "WhatIfInitialMW" "50.5"]. eexists.
      split; [reflexivity|]. split; [reflexivity|]. split; [eexists; split; reflexivity|]. split; [reflexivity|]. intros d I. each_one. discriminate.
    + eexists [], _, _, _. split; [reflexivity|]. split; [reflexivity|]. split; [eexists; split; reflexivity|]. split; [reflexivity|]. intros d [].
    + eexists [], _, _, _. split; [reflexivity|]. split; [reflexivity|]. split; [eexists; split; reflexivity|]. split; [reflexivity|]. intros d [].
  - split; [all_distinct|]. intros e H. cbn in H. each_one; (split; [nonempty|numeric]).
  - split; [all_distinct|]. intros i H. cbn in H. each_one; (split; [nonempty|]); intros M; [discriminate M|].
    split; [nonempty|]. eexists "TAS1", "VIC1", _. split; [reflexivity|]. split; [reflexivity|]. split; [nonempty|].
    split; [eexists; split; [cbn; eexists; split; reflexivity|]; split; [reflexivity|cbn; lia]|]. split; [all_distinct|].
    intros o I. cbn in I. each_one; (split; [first [left; reflexivity|right; reflexivity]|numeric]).
  - split; [all_distinct|]. intros e H. cbn in H. each_one; (split; [nonempty|]; split; [nonempty|numeric]).
Qed.

(** ** C63 *)

(** The calculator can be set up from a case file whose collections have at least two
    elements. *)
Theorem C63_set_up : forall rd root p, consists_of root p -> inputs_readable rd p ->
  exists st d, rhs_calc rd (document root) = Got (st, d).
Proof. intros rd root p C R. destruct (calc_read rd root p C R) as (st & d & E & _). exists st, d. exact E. Qed.
Print Assumptions C63_set_up.

Example C63_set_up_case : consists_of rr_root rr_parts /\ inputs_readable xd_reader rr_parts.
Proof. split; [exact rr_consists|exact rr_readable]. Qed.

(** The inputs have the values that the case file says, and no others. *)
Theorem C63_values : forall rd root p st d, consists_of root p -> inputs_readable rd p -> rhs_calc rd (document root) = Got (st, d) ->
  forall ty id q, has_value st ty id q <-> says rd p ty id q.
Proof. exact input_values. Qed.
Print Assumptions C63_values.

(** 10 + 20 and the bad value 5. *)
Lemma rr_gen : says xd_reader rr_parts "A" "GEN" 35.
Proof.
  left. split; [now left|]. exists (nth 0 rr_scada (Elem "" [] [])), [rr_value "GEN" "10"; rr_value "LINE" "100"; rr_value "GEN" "20"; rr_value "GEN" "5"], [10; 20; 5].
  split; [now left|]. split; [reflexivity|]. split; [|split; [nonempty|split; [|reflexivity]]].
  - eexists. split; [reflexivity|]. split; [nonempty|]. right. eexists. split; [reflexivity|]. split; [nonempty|reflexivity].
  - cbn. repeat constructor; (eexists; split; reflexivity).
Qed.
Lemma rr_unit : says xd_reader rr_parts "T" "A" 100.
Proof.
  right; left. split; [reflexivity|]. eexists _, _. split; [now left|]. split; [reflexivity|].
  split; [eexists; split; [cbn; eexists; split; reflexivity|]; split; [reflexivity|]; split; [cbn; lia|]; intros x I; cbn in I; each_one; nonempty|]. right.
  exists [xd_condition "AGCStatus" "1"], (xd_condition "InitialMW" "100"), [xd_condition "WhatIfInitialMW" "50.5"]. eexists.
  split; [reflexivity|]. split; [reflexivity|]. split; [eexists; split; reflexivity|]. split; [reflexivity|]. intros d I. each_one. discriminate.
Qed.
Lemma rr_from : says xd_reader rr_parts "M" "T-V" 20.
Proof.
  right; right; right; left. split; [reflexivity|]. eexists. split; [right; now left|]. split; [reflexivity|]. split; [reflexivity|].
  eexists _, _. split; [eexists; split; [cbn; eexists; split; reflexivity|]; split; [reflexivity|cbn; lia]|].
  split; [right; now left|]. split; [reflexivity|eexists; split; reflexivity].
Qed.
Lemma rr_limit : says xd_reader rr_parts "E" "LIMIT" 2.
Proof. right; right; left. split; [reflexivity|]. eexists. split; [now left|]. split; [reflexivity|eexists; split; reflexivity]. Qed.

Example C63_values_case :
  consists_of rr_root rr_parts /\ inputs_readable xd_reader rr_parts /\ (exists st d, rhs_calc xd_reader (document rr_root) = Got (st, d))
  /\ says xd_reader rr_parts "A" "GEN" 35 /\ says xd_reader rr_parts "T" "A" 100 /\ says xd_reader rr_parts "M" "T-V" 20 /\ says xd_reader rr_parts "E" "LIMIT" 2.
Proof.
  split; [exact rr_consists|]. split; [exact rr_readable|]. split; [apply (C63_set_up _ _ _ rr_consists rr_readable)|].
  split; [exact rr_gen|]. split; [exact rr_unit|]. split; [exact rr_from|exact rr_limit].
Qed.

(** The equations are those of the constraints, and of the generic equations, that have
    terms; their terms are in the order of the case file. *)
Theorem C63_equations : forall rd root p st d, consists_of root p -> inputs_readable rd p -> rhs_calc rd (document root) = Got (st, d) ->
  (forall id ts, dget id (s_rhs st) = Some ts <-> exists e, In e (pa_rhs p) /\ equation_of rd "ConstraintID" id e ts)
  /\ (forall id ts, dget id (s_generic st) = Some ts <-> exists e, In e (pa_generic p) /\ equation_of rd "EquationID" id e ts).
Proof.
  intros rd root p st d C R E. split; [exact (rhs_equations rd root p st d C R E)|exact (generic_equations rd root p st d C R E)].
Qed.
Print Assumptions C63_equations.

Definition rr_via : list term := [RTerm "X" "X1" (Some "PUSH") 2 None None (Some "1")].
Example C63_equations_case :
  consists_of rr_root rr_parts /\ inputs_readable xd_reader rr_parts /\ (exists st d, rhs_calc xd_reader (document rr_root) = Got (st, d))
  /\ exists e, In e (pa_rhs rr_parts) /\ equation_of xd_reader "ConstraintID" "VIA" e rr_via.
Proof.
  split; [exact rr_consists|]. split; [exact rr_readable|]. split; [apply (C63_set_up _ _ _ rr_consists rr_readable)|].
  exists (nth 1 rr_constraints (Elem "" [] [])). split; [right; now left|]. split; [reflexivity|]. eexists.
  split; [eexists; split; [reflexivity|]; split; [reflexivity|nonempty]|].
  constructor; [|constructor]. split; [reflexivity|]. split; [reflexivity|]. split; [reflexivity|]. split; [eexists; split; reflexivity|].
  split; [reflexivity|]. split; reflexivity.
Qed.

(** The right hand side of a constraint whose terms have no operations is the sum of the
    products of the multipliers and the values in the case file. *)
Theorem C63_sum : forall rd root p st d e id l, consists_of root p -> inputs_readable rd p -> rhs_calc rd (document root) = Got (st, d) ->
  In e (pa_rhs p) -> named "ConstraintID" id e -> equation_terms e l -> (forall t, In t l -> plain_term t) ->
  forall q sqrt n, adds_up rd p l q -> exists q', snd (compute_rhs sqrt n st id) = Done q' /\ q' == q.
Proof. exact document_sum. Qed.
Print Assumptions C63_sum.

(** 2 * 35 + 100 + 5 * 20 - 30 * 2 + 50.5. *)
Example C63_sum_case :
  consists_of rr_root rr_parts /\ inputs_readable xd_reader rr_parts /\ (exists st d, rhs_calc xd_reader (document rr_root) = Got (st, d))
  /\ (exists e, In e (pa_rhs rr_parts) /\ named "ConstraintID" "SUM" e /\ equation_terms e rr_sum)
  /\ (forall t, In t rr_sum -> plain_term t) /\ exists q, adds_up xd_reader rr_parts rr_sum q /\ q == 521 # 2.
Proof.
  split; [exact rr_consists|]. split; [exact rr_readable|]. split; [apply (C63_set_up _ _ _ rr_consists rr_readable)|]. split; [|split].
  - eexists. split; [now left|]. split; [reflexivity|]. eexists. split; [reflexivity|]. split; [reflexivity|nonempty].
  - intros t I. unfold rr_sum in I. each_one; (split; [reflexivity|]; split; [reflexivity|]; intros ty A; injection A as <-; cbn; intuition discriminate).
  - assert (One : forall ty id m more x v, rd_float xd_reader m = Some x -> says xd_reader rr_parts ty id v -> adds xd_reader rr_parts (rr_term ty id m more) (x * v)).
    { intros ty id m more x v N S. exists ty, id, x. split; [reflexivity|]. split; [reflexivity|]. split; [exists m; split; [reflexivity|exact N]|].
      left. exists v. split; [exact S|reflexivity]. }
    eexists. split.
    + eapply adds_more; [apply One; [reflexivity|exact rr_gen]|]. eapply adds_more; [apply One; [reflexivity|exact rr_unit]|].
      eapply adds_more; [apply One; [reflexivity|exact rr_from]|]. eapply adds_more; [apply One; [reflexivity|exact rr_limit]|].
      eapply adds_more; [|constructor]. exists "C", "Constant", (101 # 2). split; [reflexivity|]. split; [reflexivity|].
      split; [eexists; split; reflexivity|]. right. split; [|split; [cbn; intuition discriminate|split; reflexivity]].
      intros v S. destruct S as [(S & _)|[(S & _)|[(S & _)|[(S & _)|(S & _)]]]]; try discriminate. cbn in S. intuition discriminate.
    + vm_compute. reflexivity.
Qed.

(** The stated right hand side of a constraint is that of the run without intervention. *)
Theorem C63_stated : forall rd root p st d, consists_of root p -> inputs_readable rd p -> rhs_calc rd (document root) = Got (st, d) ->
  forall id q, nemde_rhs d id = Got q
    <-> exists e, In e (pa_solutions p) /\ named "Intervention" "0" e /\ named "ConstraintID" id e /\ number rd "RHS" e q.
Proof. exact stated_rhs. Qed.
Print Assumptions C63_stated.

Example C63_stated_case :
  consists_of rr_root rr_parts /\ inputs_readable xd_reader rr_parts /\ (exists st d, rhs_calc xd_reader (document rr_root) = Got (st, d))
  /\ exists e, In e (pa_solutions rr_parts) /\ named "Intervention" "0" e /\ named "ConstraintID" "VIA" e /\ number xd_reader "RHS" e 10.
Proof.
  split; [exact rr_consists|]. split; [exact rr_readable|]. split; [apply (C63_set_up _ _ _ rr_consists rr_readable)|].
  eexists. split; [right; now left|]. split; [reflexivity|]. split; [reflexivity|eexists; split; reflexivity].
Qed.

(** The list of constraints without generic equations is of those none of whose terms has
    the id of a generic equation with terms. *)
Theorem C63_no_generic : forall rd root p st d, consists_of root p -> inputs_readable rd p -> rhs_calc rd (document root) = Got (st, d) ->
  forall id, In id (without_generic st)
    <-> exists e l, In e (pa_rhs p) /\ named "ConstraintID" id e /\ equation_terms e l
        /\ forall t g m, In t l -> In g (pa_generic p) -> equation_terms g m -> attr "EquationID" g <> attr "SpdID" t.
Proof. exact free_of_generic. Qed.
Print Assumptions C63_no_generic.

Example C63_no_generic_case :
  consists_of rr_root rr_parts /\ inputs_readable xd_reader rr_parts
  /\ exists st d, rhs_calc xd_reader (document rr_root) = Got (st, d) /\ without_generic st = ["SUM"] /\ dget "VIA" (s_rhs st) <> None.
Proof.
  split; [exact rr_consists|]. split; [exact rr_readable|]. eexists _, _. split; [vm_compute; reflexivity|]. split; [reflexivity|nonempty].
Qed.

(** A case file with one entered value cannot be read, nor one in which all values of a
    type are bad. *)
Theorem C63_single_refuted : exists rd root e,
  (exists c, only ["NemSpdInputs"; "PeriodCollection"; "Period"; "EnteredValuePeriodCollection"] root c /\ kids "EnteredValuePeriod" c = [e])
  /\ named "SpdID" "LIMIT" e /\ number rd "Value" e 2 /\ rhs_calc rd (document root) = Raise TypeE.
Proof.
  exists xd_reader, (rr_doc rr_scada [nth 0 rr_entered (Elem "" [] [])]). eexists.
  split; [eexists; split; [cbn; repeat (eexists; split; [reflexivity|]); reflexivity|reflexivity]|].
  split; [reflexivity|]. split; [eexists; split; reflexivity|]. vm_compute. reflexivity.
Qed.
Print Assumptions C63_single_refuted.

Definition rr_bad : elem :=
  Elem "ConstraintScadaData" [("SpdType", "I")] [Elem "BadScadaValuesCollection" [] [rr_value "RELAY" "1"]].
Theorem C63_all_bad_refuted : exists rd root l s,
  collection ["NemSpdInputs"; "ConstraintScadaDataCollection"] "ConstraintScadaData" root l /\ In s l /\ kids "ScadaValuesCollection" s = []
  /\ (exists b e, kids "BadScadaValuesCollection" s = [b] /\ kids "ScadaValues" b = [e] /\ named "SpdID" "RELAY" e /\ number rd "Value" e 1)
  /\ rhs_calc rd (document root) = Raise KeyE.
Proof.
  exists xd_reader, (rr_doc (rr_scada ++ [rr_bad]) rr_entered), (rr_scada ++ [rr_bad]), rr_bad.
  split; [is_collection|]. split; [right; right; now left|]. split; [reflexivity|].
  split; [eexists _, _; split; [reflexivity|]; split; [reflexivity|]; split; [reflexivity|eexists; split; reflexivity]|].
  vm_compute. reflexivity.
Qed.
Print Assumptions C63_all_bad_refuted.
