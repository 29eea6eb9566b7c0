(** C10, C34: FCAS requirement sets and generic constraints. *)

From Coq Require Import QArith String List Bool Lqa.
Import ListNotations.
From Verif Require Import PandasModel TablesModel MarketModel SolverModel SpecLp SpecHistory SpecDispatch SpecNetwork
  Fixtures CheckFacts CheckNetworkFacts GenericFacts PropLimits.
Open Scope string_scope.
Open Scope list_scope.

Definition gx_gu : list gunit_row := [GUnit "G1" "A" "energy" 1; GUnit "G1" "S" "energy" 2].
Definition gx_gr : list gregion_row := [GRegion "G1" "VIC" "energy" (1#2)].
Definition gx_gi : list ginter_row := [GInter "G1" "VNI" 3].

Lemma gx_links : links gx_config gx_gu gx_gr gx_gi gx_market.
Proof. apply (linksb_ok _ _ 15%nat 16%nat 17%nat); vm_compute; reflexivity. Qed.

(** [b] is the first row of its set: that row's relation and volume count.  Linked
    terms are present only if somebody also linked the set's name with
    link_units_to_generic_constraints and its two companions. *)
Theorem C10_requirement_met :
  forall c l gu gr gi m x, in_force c (OpFcasReq l None) m -> links c gu gr gi m -> solution m x ->
    (forall r, In r l -> fq_service r <> "energy") ->
    forall pre b post, l = pre ++ b :: post -> (forall r, In r pre -> fq_set r <> fq_set b) ->
    (exists r, In r l /\ fq_set r = fq_set b /\ region_offers m (fq_region r) (fq_service r))
    \/ some_linked m gu gr gi (fq_set b) ->
    relation (fq_type b) (set_supply m x l (fq_set b) + linked m x gu gr gi (fq_set b)) (fq_volume b).
Proof. exact fcas_respected. Qed.
Print Assumptions C10_requirement_met.

Example C10_case :
  in_force gx_config (OpFcasReq gx_fcas None) gx_market /\ links gx_config gx_gu gx_gr gx_gi gx_market
  /\ solution gx_market gx_x /\ (forall r, In r gx_fcas -> fq_service r <> "energy")
  /\ (exists b post, gx_fcas = [] ++ b :: post /\ post <> [] /\ region_offers gx_market (fq_region b) (fq_service b))
  /\ set_supply gx_market gx_x gx_fcas "RREG" == 9.
Proof.
  split; [in_force_at 7%nat|]. split; [exact gx_links|]. split; [exact gx_solution|].
  split; [intros r [<-|[<-|[]]]; discriminate|]. split; [|vm_compute; reflexivity].
  eexists. eexists. split; [reflexivity|]. split; [discriminate|].
  apply region_offersb_ok. vm_compute. reflexivity.
Qed.

(** Nothing linked to the set: the supply of the set alone meets the requirement. *)
Theorem C10_requirement_met_unlinked :
  forall c l gu gr gi m x, in_force c (OpFcasReq l None) m -> links c gu gr gi m -> solution m x ->
    (forall r, In r l -> fq_service r <> "energy") ->
    forall pre b post, l = pre ++ b :: post -> (forall r, In r pre -> fq_set r <> fq_set b) ->
    (exists r, In r l /\ fq_set r = fq_set b /\ region_offers m (fq_region r) (fq_service r)) ->
    (forall g, In g gu -> gu_set g <> fq_set b) -> (forall g, In g gr -> gr_set g <> fq_set b) ->
    (forall g, In g gi -> gi_set g <> fq_set b) ->
    relation (fq_type b) (set_supply m x l (fq_set b)) (fq_volume b).
Proof. exact fcas_respected_unlinked. Qed.
Print Assumptions C10_requirement_met_unlinked.

Example C10_unlinked_case :
  (forall g, In g gx_gu -> gu_set g <> "RREG") /\ (forall g, In g gx_gr -> gr_set g <> "RREG")
  /\ (forall g, In g gx_gi -> gi_set g <> "RREG").
Proof.
  split; [intros g [<-|[<-|[]]]; discriminate|]. split; intros g [<-|[]]; discriminate.
Qed.

Definition eq_config : config :=
  Config ["NSW"] [UnitInfo "A" "NSW" "generator" 1; UnitInfo "L" "NSW" "load" 1] 5.
(** A set whose regions offer nothing of the service and that nothing is linked to
    is dropped: no reserve at all and the market solves. *)
Definition nr_ops : list op :=
  [OpVolumeBids (BidTable ["1"] [BidRow "A" "energy" "generator" (fun _ => 100)]);
   OpDemand [Demand "NSW" 100] None; OpFcasReq [FcasReq "R" "NSW" "raise_reg" 50 ">="] None].
Theorem C10_unoffered_requirement_dropped :
  exists c l m x r, in_force c (OpFcasReq l None) m /\ links c [] [] [] m /\ solution m x /\ l = [r]
    /\ fq_service r <> "energy" /\ ~ relation (fq_type r) (set_supply m x l (fq_set r)) (fq_volume r).
Proof.
  exists eq_config, [FcasReq "R" "NSW" "raise_reg" 50 ">="], (final eq_config nr_ops), (values [100]),
    (FcasReq "R" "NSW" "raise_reg" 50 ">=").
  split; [in_force_at 2%nat|]. split; [apply linksb_none; vm_compute; reflexivity|]. split; [solves|].
  split; [reflexivity|]. split; [discriminate|]. vm_compute. intuition discriminate.
Qed.
Print Assumptions C10_unoffered_requirement_dropped.

Theorem C34_generic_constraints :
  forall c l gu gr gi m x, in_force c (OpGeneric l None) m -> links c gu gr gi m -> solution m x ->
    forall g, In g l -> some_linked m gu gr gi (ge_set g) ->
    relation (ge_type g) (linked m x gu gr gi (ge_set g)) (ge_rhs g).
Proof. exact generic_respected. Qed.
Print Assumptions C34_generic_constraints.

Example C34_case :
  in_force gx_config (OpGeneric gx_generic None) gx_market /\ links gx_config gx_gu gx_gr gx_gi gx_market
  /\ solution gx_market gx_x /\ In (Generic "G1" "<=" 250) gx_generic
  /\ some_linked gx_market gx_gu gx_gr gx_gi "G1"
  /\ linked gx_market gx_x gx_gu gx_gr gx_gi "G1" == 6431#32.
Proof.
  split; [in_force_at 14%nat|]. split; [exact gx_links|]. split; [exact gx_solution|]. split; [now left|].
  split; [|vm_compute; reflexivity].
  right; left. exists (GRegion "G1" "VIC" "energy" (1#2)). split; [now left|]. split; [reflexivity|].
  apply region_offersb_ok. vm_compute. reflexivity.
Qed.

(** A link to a region counts the region's loads like its generators. *)
Definition gl_ops : list op :=
  [OpVolumeBids (BidTable ["1"] [BidRow "A" "energy" "generator" (fun _ => 100); BidRow "L" "energy" "load" (fun _ => 30)]);
   OpDemand [Demand "NSW" 20] None; OpGeneric [Generic "G" "<=" 80] None; OpLinkRegions [GRegion "G" "NSW" "energy" 1]].
Theorem C34_region_link_adds_loads :
  exists c l gr m x g, in_force c (OpGeneric l None) m /\ links c [] gr [] m /\ solution m x /\ In g l
    /\ relation (ge_type g) (linked m x [] gr [] (ge_set g)) (ge_rhs g)
    /\ linked m x [] gr [] (ge_set g) == 80 /\ region_supply m x "NSW" "energy" == 20.
Proof.
  exists eq_config, [Generic "G" "<=" 80], [GRegion "G" "NSW" "energy" 1], (final eq_config gl_ops), (values [50; 30]),
    (Generic "G" "<=" 80).
  split; [in_force_at 2%nat|]. split; [apply (linksb_regions _ _ 3%nat); vm_compute; reflexivity|]. split; [solves|].
  split; [now left|]. split; [vm_compute; left; split; [reflexivity|discriminate]|]. split; vm_compute; reflexivity.
Qed.
Print Assumptions C34_region_link_adds_loads.

(** Each link that is carried by an interconnector of a set enters with the
    interconnector's coefficient times the link's own generic_constraint_factor. *)
Theorem C32_generic_factor :
  forall c l gi m x, in_force c (OpGeneric l None) m -> links c [] [] gi m -> solution m x ->
    forall g, In g l -> some_linked m [] [] gi (ge_set g) ->
    relation (ge_type g)
      (qsum (map (fun k => gi_coef k * qsum (map (fun v => inject_Z (iv_gcf v) * x (iv_id v))
                     (filter (fun v => String.eqb (gi_inter k) (iv_inter v)) (rows_or_nil (m_inter m)))))
            (filter (fun k => String.eqb (ge_set g) (gi_set k)) gi)))
      (ge_rhs g).
Proof. exact generic_interconnectors. Qed.
Print Assumptions C32_generic_factor.

Definition gf_config : config :=
  Config ["VIC"; "TAS"] [UnitInfo "A" "VIC" "generator" 1; UnitInfo "B" "TAS" "generator" 1] 5.
Definition gf_ops : list op :=
  [OpInterconnectors [Inter "T-V" "TAS_VIC" "VIC" "TAS" 400 0 1 1 1; Inter "T-V" "VIC_TAS" "TAS" "VIC" 300 0 (-1) 1 1];
   OpGeneric [Generic "G" ">=" (-200)] None; OpLinkInters [GInter "G" "T-V" 2]].
Example C32_generic_case :
  in_force gf_config (OpGeneric [Generic "G" ">=" (-200)] None) (final gf_config gf_ops)
  /\ links gf_config [] [] [GInter "G" "T-V" 2] (final gf_config gf_ops)
  /\ solution (final gf_config gf_ops) (values [0; 100])
  /\ linked (final gf_config gf_ops) (values [0; 100]) [] [] [GInter "G" "T-V" 2] "G" == -(200).
Proof.
  split; [in_force_at 1%nat|]. split; [apply (linksb_inters _ _ 2%nat); vm_compute; reflexivity|]. split; [solves|].
  all_decided.
Qed.
