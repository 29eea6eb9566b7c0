(** The constraints of a case file in the market: C65. *)

From Coq Require Import QArith Lqa String List Bool ZArith Lia.
Import ListNotations.
From Verif Require Import PandasModel TablesModel MarketModel ConstraintsModel XmlModel CaseConstraintsModel SolverModel.
From Verif Require Import SpecXml SpecLp SpecHistory SpecDispatch SpecNetwork SpecConstraints SpecCaseConstraints.
From Verif Require Import CheckFacts CheckNetworkFacts CheckUnitFacts ConstraintFacts CaseConstraintFacts PropXml PropXmlRead.
Open Scope string_scope.
Open Scope list_scope.

(** The constraint tables can be read from any document whose constraints have types
    and trade types nempy knows. *)
Theorem C65_load : forall rd root x, states rd root x -> known_names x ->
  exists d, load_constraints rd (document root) = Got (Ok d) /\ init_constraints x = Ok d.
Proof. exact load_known. Qed.
Print Assumptions C65_load.

(** An invoked constraint without terms of regions relates its terms to its right-hand
    side the way its type says. *)
Theorem C65_generic :
  forall rd root x d c m y, states rd root x -> load_constraints rd (document root) = Got (Ok d) -> unique_ids x ->
  in_force c (OpGeneric (generic_of d) None) m -> links c (units_of d) [] (inters_of d) m -> solution m y ->
  forall k q ty, invoked x k q -> regions_of k = [] -> type_symbol (cc_type k) ty -> has_term m k ->
  relation ty (terms_value m y k) q.
Proof. intros rd root x d c m y S L U. exact (case_generic x d (load_inv rd root x d S L) U c m y). Qed.
Print Assumptions C65_generic.

(** The same for constraints with terms of regions, which reach the market as FCAS
    requirements; the factors of their regions are lost, see [C46_factor_refuted]. *)
Theorem C65_regional :
  forall rd root x d c m y, states rd root x -> load_constraints rd (document root) = Got (Ok d) -> unique_ids x ->
  in_force c (OpFcasReq (requirements_of d) None) m -> links c (units_of d) [] (inters_of d) m -> solution m y ->
  (forall k f, In k (cf_constraints x) -> In f (regions_of k) -> service_for (fa_trade f) <> "energy") ->
  forall k q ty, invoked x k q -> type_symbol (cc_type k) ty -> regions_of k <> [] -> has_regional_term m k \/ has_term m k ->
  relation ty (regions_supply m y k + terms_value m y k) q.
Proof. intros rd root x d c m y S L U. exact (case_fcas x d (load_inv rd root x d S L) U c m y). Qed.
Print Assumptions C65_regional.

(** A market of two regions with the constraints of the document of C55. *)
Definition cc_file : case_file := xd_file [CaseSolution "F1" "0" (101 # 2); CaseSolution "G1" "0" 100; CaseSolution "N1" "0" 0].
Definition cc_data : constraint_data := Eval vm_compute in
  match load_constraints xd_reader (document xd_root) with Got (Ok d) => d | _ => ConstraintData [] [] [] [] [] [] end.
Definition cc_config : config :=
  Config ["NSW1"; "VIC1"] [UnitInfo "A" "NSW1" "generator" 1; UnitInfo "B" "VIC1" "generator" 1] 5.
Definition cc_ops : list op :=
  [OpVolumeBids (BidTable ["1"] [BidRow "A" "energy" "generator" (fun _ => 100); BidRow "A" "raise_reg" "generator" (fun _ => 40);
                                 BidRow "B" "raise_reg" "generator" (fun _ => 30)]);
   OpInterconnectors [Inter "V-N" "V-N" "NSW1" "VIC1" 50 (- 50) 1 1 1];
   OpGeneric (generic_of cc_data) None; OpFcasReq (requirements_of cc_data) None;
   OpLinkUnits (units_of cc_data); OpLinkInters (inters_of cc_data)].
Definition cc_market : market := final cc_config cc_ops.
Definition cc_x : assignment := values [70; 30; 25; - 1].

Lemma cc_load : load_constraints xd_reader (document xd_root) = Got (Ok cc_data).
Proof. vm_compute. reflexivity. Qed.
Lemma cc_unique : unique_ids cc_file.
Proof. split; distinct. Qed.
Lemma cc_links : links cc_config (units_of cc_data) [] (inters_of cc_data) cc_market.
Proof. apply (linksb_both _ _ 4%nat 5%nat); [reflexivity|reflexivity|vm_compute; reflexivity]. Qed.
Lemma cc_solution : solution cc_market cc_x.
Proof. solves. Qed.
Lemma cc_known : known_names cc_file.
Proof.
  split.
  - intros c rhs [[<-|[<-|[<-|[]]]] _]; eexists; [right; right|left|right; left]; split; reflexivity.
  - intros c l f [<-|[<-|[<-|[]]]] L Hf; first [discriminate L|injection L as <-]; cbn in Hf.
    + exists "raise_reg". right. destruct Hf as [<-|[<-|[]]]; cbn; auto.
    + exists "energy". left. destruct Hf as [<-|[]]. cbn. auto.
Qed.

Example C65_load_hyps : states xd_reader xd_root cc_file /\ known_names cc_file /\ unique_ids cc_file
  /\ load_constraints xd_reader (document xd_root) = Got (Ok cc_data).
Proof. split; [apply C55_constraints_hyps|]. split; [exact cc_known|]. split; [exact cc_unique|exact cc_load]. Qed.

Definition cc_generic : case_constraint :=
  CaseConstraint "G1" "LE" 15000 (Some (LhsFactors [] [Factor "A" "ENOF" 1] [InterFactor "V-N" (- (30))])).
Definition cc_regional : case_constraint :=
  CaseConstraint "F1" "GE" 15000 (Some (LhsFactors [Factor "NSW1" "R5RE" 1; Factor "VIC1" "R5RE" 1] [] [])).

Example C65_generic_hyps :
  in_force cc_config (OpGeneric (generic_of cc_data) None) cc_market /\ links cc_config (units_of cc_data) [] (inters_of cc_data) cc_market
  /\ solution cc_market cc_x /\ invoked cc_file cc_generic 100 /\ regions_of cc_generic = [] /\ type_symbol (cc_type cc_generic) "<="
  /\ has_term cc_market cc_generic /\ terms_value cc_market cc_x cc_generic == 100.
Proof.
  split; [in_force_at 2%nat|]. split; [exact cc_links|]. split; [exact cc_solution|].
  split; [split; [right; left; reflexivity|]; eexists; split; [right; left; reflexivity|]; repeat split|].
  split; [reflexivity|]. split; [left; split; reflexivity|]. split; [|vm_compute; reflexivity].
  left. exists (Factor "A" "ENOF" 1), "generator". split; [now left|]. split; decided.
Qed.

Example C65_regional_hyps :
  in_force cc_config (OpFcasReq (requirements_of cc_data) None) cc_market /\ links cc_config (units_of cc_data) [] (inters_of cc_data) cc_market
  /\ solution cc_market cc_x
  /\ (forall k f, In k (cf_constraints cc_file) -> In f (regions_of k) -> service_for (fa_trade f) <> "energy")
  /\ invoked cc_file cc_regional (101 # 2) /\ type_symbol (cc_type cc_regional) ">=" /\ regions_of cc_regional <> []
  /\ has_regional_term cc_market cc_regional /\ regions_supply cc_market cc_x cc_regional == 55.
Proof.
  split; [in_force_at 3%nat|]. split; [exact cc_links|]. split; [exact cc_solution|].
  split; [intros k f [<-|[<-|[<-|[]]]] Hf; cbn in Hf; [destruct Hf as [<-|[<-|[]]]; discriminate|destruct Hf|destruct Hf]|].
  split; [split; [left; reflexivity|]; eexists; split; [left; reflexivity|]; repeat split|].
  split; [right; right; split; reflexivity|]. split; [discriminate|]. split; [|vm_compute; reflexivity].
  exists (Factor "VIC1" "R5RE" 1). split; [right; now left|]. apply region_offersb_ok. vm_compute. reflexivity.
Qed.
