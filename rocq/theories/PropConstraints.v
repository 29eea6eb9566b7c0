(** The split of the constraints of a case file into FCAS requirements and generic
    constraints: C46. *)

From Coq Require Import QArith String List Bool.
Import ListNotations.
From Verif Require Import PandasModel ConstraintsModel SpecConstraints ConstraintFacts.
Open Scope string_scope.
Open Scope list_scope.

(** Five constraints, one not invoked and one with regional and unit terms. *)
Definition cx_file : case_file :=
  CaseFile [CaseSolution "#W_E" "0" 80; CaseSolution "F_MAIN_R6" "0" 220; CaseSolution "F_MAIN_R6" "1" 250; CaseSolution "N>>N" "0" (-10 # 1);
            CaseSolution "F_T_REG" "0" 50; CaseSolution "GONE" "0" 1]
           [CaseConstraint "#W_E" "LE" 6300000 (Some (LhsFactors [] [Factor "W" "ENOF" 1] []));
            CaseConstraint "F_MAIN_R6" "GE" 500000 (Some (LhsFactors [Factor "NSW1" "R6SE" 1; Factor "VIC1" "R6SE" 1] [] []));
            CaseConstraint "OTHER" "EQ" 1 None;
            CaseConstraint "N>>N" "LE" 300000 (Some (LhsFactors [] [Factor "A" "ENOF" (1 # 2)] [InterFactor "VIC1-NSW1" (- (1))]));
            CaseConstraint "F_T_REG" "GE" 400000 (Some (LhsFactors [Factor "TAS1" "R5RE" 1] [Factor "X" "R5RE" (- (1))] []))].

Lemma cx_unique : unique_ids cx_file.
Proof. split; repeat constructor; cbn; intuition discriminate. Qed.

(** The tables can be built if the types and trade types are known. *)
Theorem C46_loads : forall x, known_names x -> exists d, init_constraints x = Ok d.
Proof. exact known_loads. Qed.
Print Assumptions C46_loads.

Example C46_loads_case : known_names cx_file.
Proof.
  split.
  - intros c rhs [Hc _]. unfold type_symbol. cbn in Hc. repeat (destruct Hc as [<-|Hc]; [eexists; cbn; eauto 6|]). destruct Hc.
  - intros c l f Hc L Hf. unfold trade_service. cbn in Hc.
    repeat (destruct Hc as [<-|Hc]; [cbn in L; try discriminate; injection L as <-; cbn in Hf;
      repeat (destruct Hf as [<-|Hf]; [eexists; cbn; first [solve [left; split; [tauto|reflexivity]]|solve [right; eauto 14]]|]); destruct Hf|]). destruct Hc.
Qed.

(** Every invoked constraint is among the FCAS requirements or among the other right
    hand sides, and not among both. *)
Theorem C46_partition :
  forall x d, init_constraints x = Ok d -> unique_ids x -> forall c rhs, invoked x c rhs ->
  ((exists r, In r (cd_fcas d) /\ fq_set r = cc_id c) \/ (exists r, In r (rhs_excluding_fcas d) /\ rh_set r = cc_id c))
  /\ ~ ((exists r, In r (cd_fcas d) /\ fq_set r = cc_id c) /\ (exists r, In r (rhs_excluding_fcas d) /\ rh_set r = cc_id c)).
Proof. exact partition. Qed.
Print Assumptions C46_partition.

(** The generic right hand sides are those of the invoked constraints without regional
    terms, each once and with its own value and type. *)
Theorem C46_generic :
  forall x d, init_constraints x = Ok d -> unique_ids x -> forall id q ty,
  In (RhsRow id q ty) (rhs_excluding_fcas d) <->
  exists c, invoked x c q /\ cc_id c = id /\ type_symbol (cc_type c) ty /\ regions_of c = [].
Proof. exact generic_iff. Qed.
Print Assumptions C46_generic.

Theorem C46_generic_once :
  forall x d, init_constraints x = Ok d -> unique_ids x -> NoDup (map rh_set (rhs_excluding_fcas d)).
Proof. exact generic_once. Qed.
Print Assumptions C46_generic_once.

(** The FCAS requirements are those of the invoked constraints with regional terms:
    one for each term, with its region and service and the value and type of the
    constraint. *)
Theorem C46_fcas :
  forall x d, init_constraints x = Ok d -> unique_ids x -> forall id sv rg ty v,
  In (FcasRow id sv rg ty v) (cd_fcas d) <->
  exists c f, invoked x c v /\ cc_id c = id /\ type_symbol (cc_type c) ty
    /\ In f (regions_of c) /\ fa_of f = rg /\ trade_service (fa_trade f) sv.
Proof. exact fcas_iff. Qed.
Print Assumptions C46_fcas.

Example C46_case :
  unique_ids cx_file
  /\ (exists d, init_constraints cx_file = Ok d
      /\ rhs_excluding_fcas d = [RhsRow "#W_E" 80 "<="; RhsRow "N>>N" (-10 # 1) "<="]
      /\ cd_fcas d = [FcasRow "F_MAIN_R6" "raise_6s" "NSW1" ">=" 220; FcasRow "F_MAIN_R6" "raise_6s" "VIC1" ">=" 220; FcasRow "F_T_REG" "raise_reg" "TAS1" ">=" 50])
  /\ (exists c, invoked cx_file c 220 /\ regions_of c <> []) /\ (exists c, invoked cx_file c 80 /\ regions_of c = []).
Proof.
  split; [exact cx_unique|]. split; [eexists; split; [vm_compute; reflexivity|split; reflexivity]|]. split.
  - eexists. split; [split; [right; left; reflexivity|]|discriminate]. eexists. split; [right; left; reflexivity|]. repeat split.
  - eexists. split; [split; [left; reflexivity|]|reflexivity]. eexists. split; [left; reflexivity|]. repeat split.
Qed.

(** The factor of a regional term is not part of the requirement: constraints that
    weigh the regions differently give the same FCAS requirements. *)
Theorem C46_factor_refuted :
  exists x x' d d', init_constraints x = Ok d /\ init_constraints x' = Ok d' /\ unique_ids x /\ unique_ids x'
  /\ cd_fcas d = cd_fcas d' /\ rhs_excluding_fcas d = rhs_excluding_fcas d'
  /\ (exists c c' q, invoked x c q /\ invoked x' c' q /\ cc_id c = cc_id c' /\ map fa_coef (regions_of c) = [1; 1] /\ map fa_coef (regions_of c') = [1; 1 # 2]).
Proof.
  exists (CaseFile [CaseSolution "F" "0" 100] [CaseConstraint "F" "GE" 1 (Some (LhsFactors [Factor "NSW1" "R6SE" 1; Factor "VIC1" "R6SE" 1] [] []))]).
  exists (CaseFile [CaseSolution "F" "0" 100] [CaseConstraint "F" "GE" 1 (Some (LhsFactors [Factor "NSW1" "R6SE" 1; Factor "VIC1" "R6SE" (1 # 2)] [] []))]).
  do 2 eexists. split; [vm_compute; reflexivity|]. split; [vm_compute; reflexivity|].
  split; [split; repeat constructor; cbn; intuition discriminate|]. split; [split; repeat constructor; cbn; intuition discriminate|].
  split; [reflexivity|]. split; [reflexivity|]. do 3 eexists.
  split; [split; [left; reflexivity|]; eexists; split; [left; reflexivity|]; repeat split|].
  split; [split; [left; reflexivity|]; eexists; split; [left; reflexivity|]; repeat split|]. repeat split.
Qed.
Print Assumptions C46_factor_refuted.

(** A constraint id that is defined twice makes both definitions regional if one of
    them is. *)
Theorem C46_repeated_refuted :
  exists x d c q, init_constraints x = Ok d /\ invoked x c q /\ regions_of c = []
  /\ ~ (exists r, In r (rhs_excluding_fcas d) /\ rh_set r = cc_id c).
Proof.
  exists (CaseFile [CaseSolution "F" "0" 100] [CaseConstraint "F" "GE" 1 (Some (LhsFactors [Factor "NSW1" "R6SE" 1] [] [])); CaseConstraint "F" "LE" 1 None]).
  eexists. exists (CaseConstraint "F" "LE" 1 None), 100. split; [vm_compute; reflexivity|]. split; [|split; [reflexivity|]].
  - split; [right; left; reflexivity|]. eexists; split; [left; reflexivity|]. repeat split.
  - intros [r [[] _]].
Qed.
Print Assumptions C46_repeated_refuted.
