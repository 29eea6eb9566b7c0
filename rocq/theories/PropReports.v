(** C32 (report), C35, C36, C37: the reports of a solution. *)

From Coq Require Import QArith Qabs String List Bool Lqa Arith Lia.
Import ListNotations.
From Verif Require Import PandasModel TablesModel MarketModel SolverModel ReportsModel FcasReportsModel StepFacts SpecLp SpecHistory
  SpecDispatch SpecNetwork SpecReports Fixtures CheckFacts CheckNetworkFacts ReportFacts SummaryFacts FcasReportFacts
  PropLimits PropNetwork PropReplace.
Open Scope string_scope.
Open Scope list_scope.

(** ** C32 *)

(** One row per link, in the order of the link table, with the flow of the link
    and, if the link has a loss function, its losses. *)
Theorem C32_flows_reported :
  forall c dirs lf bps m x b rep, network c dirs lf bps m -> interconnector_flows m x = Ok (b, rep) ->
    Forall2 (fun row d => fl_inter row = in_inter d /\ fl_link row = in_link d
       /\ fl_flow row == link_flow m x (in_inter d) (in_link d)
       /\ (forall f, In f lf -> about_link d f = true ->
             exists q, fl_loss row = Some q /\ q == link_loss m x (in_inter d) (in_link d))) rep dirs.
Proof. exact flow_report. Qed.
Print Assumptions C32_flows_reported.

Example C32_report_case :
  network bl_config bl_inter bl_loss bl_points (final bl_config bl_ops)
  /\ interconnector_flows (final bl_config bl_ops) bl_x
     = Ok (true, [FlowRow "T-V" "TAS_VIC" 100 (Some 2); FlowRow "T-V" "VIC_TAS" 0 (Some 0)]).
Proof. split; [network_at 2%nat 3%nat|]. vm_compute; reflexivity. Qed.

(** ** C35 *)

(** Each unit, dispatch type and service that is offered has one row, which holds
    the sum of its bands; nothing else has a row. *)
Theorem C35_unit_dispatch :
  forall m x rep, unit_dispatch m x = Ok rep -> NoDup (map fst rep)
    /\ (forall u d s q, In ((u, d, s), q) rep -> offers m u s d /\ q == dispatch m x u s d)
    /\ (forall u d s, offers m u s d -> exists q, In ((u, d, s), q) rep).
Proof. exact unit_dispatch_rows. Qed.
Print Assumptions C35_unit_dispatch.

(** Over any group of units, dispatch types and services the report adds up to
    the bid variables of the group. *)
Theorem C35_totals :
  forall m x rep (g : string -> string -> string -> bool), unit_dispatch m x = Ok rep ->
    qsum (map snd (filter (fun row => let '((u, d, s), _) := row in g u d s) rep)) == group_total m x g.
Proof.
  intros m x rep g H. unfold group_total. rewrite <- (unit_dispatch_group m x rep g H). 
  assert (E : forall l : list (ukey * Q), filter (fun row => let '((u, d, s), _) := row in g u d s) l
    = filter (fun p => g (fst (fst (fst p))) (snd (fst (fst p))) (snd (fst p))) l).
  { intros l. apply filter_ext. now intros [[[u d] s] q]. }
  now rewrite E.
Qed.
Print Assumptions C35_totals.

Example C35_case :
  exists rep, unit_dispatch gx_market gx_x = Ok rep /\ In (("L", "load", "energy"), 20) rep
    /\ offers gx_market "L" "energy" "load"
    /\ group_total gx_market gx_x (fun _ d s => String.eqb d "generator" && String.eqb s "raise_reg") == 6.
Proof. eexists. split; [vm_compute; reflexivity|]. split; [cbn; auto 12|]. all_decided. Qed.

(** The net dispatch of a region is its generators minus its loads. *)
Theorem C35_net_dispatch :
  forall m x rep, net_dispatch m x = Ok rep -> NoDup (map fst rep)
    /\ (forall r q, In (r, q) rep -> region_offers m r "energy" /\ q == region_supply m x r "energy")
    /\ (forall r, region_offers m r "energy" -> exists q, In (r, q) rep).
Proof. exact net_dispatch_rows. Qed.
Print Assumptions C35_net_dispatch.

Example C35_net_case :
  exists rep, net_dispatch gx_market gx_x = Ok rep /\ In ("NSW", 1045#16) rep /\ region_offers gx_market "NSW" "energy".
Proof. eexists. split; [vm_compute; reflexivity|]. split; [cbn; auto|]. apply region_offersb_ok. vm_compute. reflexivity. Qed.

(** ** C36 *)

(** A row adds up to the demand if no link distorts it.  Missing for the full
    statement: ends with a loss factor other than one, see the refutation below,
    and regions that the summary leaves out. *)
Theorem C36_summary_balances_partial :
  forall c l dirs lf bps m x rep, in_force c (OpDemand l None) m -> network c dirs lf bps m ->
    (forall d, In d dirs -> in_from d <> in_to d) -> solution m x -> region_summary m x = Ok rep ->
    forall d row, In d l -> In row rep -> sm_region row = de_region d -> live_factors dirs (de_region d) ->
    (forall e, In e dirs -> plain_end e (de_region d) (link_flow m x (in_inter e) (in_link e))) ->
    row_total row == de_demand d.
Proof. exact summary_balances. Qed.
Print Assumptions C36_summary_balances_partial.

(** In general it is out by exactly the sum of the distortions. *)
Theorem C36_imbalance :
  forall c l dirs lf bps m x rep, in_force c (OpDemand l None) m -> network c dirs lf bps m ->
    (forall d, In d dirs -> in_from d <> in_to d) -> solution m x -> region_summary m x = Ok rep ->
    forall d row, In d l -> In row rep -> sm_region row = de_region d -> live_factors dirs (de_region d) ->
    supplied m dirs (de_region d) ->
    row_total row == de_demand d
      + qsum (map (fun e => distortion e (de_region d) (link_flow m x (in_inter e) (in_link e))) dirs).
Proof. exact summary_total. Qed.
Print Assumptions C36_imbalance.

(** Each region has at most one row, and a region that offers energy has one if it
    is an end of a link, or there are no links, and the same for loss functions. *)
Theorem C36_regions_partial :
  forall c dirs lf bps m x rep, network c dirs lf bps m -> region_summary m x = Ok rep ->
    NoDup (map sm_region rep)
    /\ (forall r, region_offers m r "energy" -> dirs = [] \/ (exists d, In d dirs /\ ends d r) -> lf = [] \/ loses dirs lf r ->
          exists row, In row rep /\ sm_region row = r).
Proof. intros c dirs lf bps m x rep N H. destruct (summary_rows c dirs lf bps m x rep N H) as [A [_ B]]. exact (conj A B). Qed.
Print Assumptions C36_regions_partial.

Example C36_case :
  in_force gx_config (OpDemand gx_demand None) gx_market /\ network gx_config gx_inter gx_loss gx_points gx_market
  /\ (forall d, In d gx_inter -> in_from d <> in_to d) /\ solution gx_market gx_x
  /\ (exists rep row, region_summary gx_market gx_x = Ok rep /\ In row rep /\ sm_region row = "VIC")
  /\ In (Demand "VIC" 70) gx_demand /\ live_factors gx_inter "VIC" /\ supplied gx_market gx_inter "VIC"
  /\ (forall e, In e gx_inter -> plain_end e "VIC" (link_flow gx_market gx_x (in_inter e) (in_link e)))
  /\ region_offers gx_market "VIC" "energy" /\ (exists d, In d gx_inter /\ ends d "VIC") /\ loses gx_inter gx_loss "VIC".
Proof.
  split; [in_force_at 6%nat|]. split; [exact gx_network|]. split; [exact gx_ends|]. split; [exact gx_solution|].
  split; [do 2 eexists; split; [vm_compute; reflexivity|split; [right; left; reflexivity|reflexivity]]|].
  split; [cbn; auto|].
  split; [intros d [<-|[]]; split; intros _ E; vm_compute in E; discriminate|].
  split; [right; exists (Inter "VNI" "VNI" "NSW" "VIC" 50 (-50) 1 1 1); split; [now left|right; reflexivity]|].
  split; [intros e [<-|[]]; split; intros _; left; reflexivity|].
  split; [apply region_offersb_ok; vm_compute; reflexivity|].
  split; [exists (Inter "VNI" "VNI" "NSW" "VIC" 50 (-50) 1 1 1); split; [now left|right; reflexivity]|].
  exists (Inter "VNI" "VNI" "NSW" "VIC" 50 (-50) 1 1 1). eexists. split; [now left|]. split; [now left|]. split; [reflexivity|right; reflexivity].
Qed.

(** TAS sends 100 MW with a loss factor of 0.95 and its row is out by 5/19 MW. *)
Theorem C36_balance_refuted :
  exists c l dirs lf bps m x rep d row, in_force c (OpDemand l None) m /\ network c dirs lf bps m
    /\ (forall d, In d dirs -> in_from d <> in_to d) /\ solution m x /\ region_summary m x = Ok rep
    /\ In d l /\ In row rep /\ sm_region row = de_region d /\ live_factors dirs (de_region d)
    /\ row_total row == de_demand d + (5#19).
Proof.
  exists bl_config, [Demand "VIC" 105; Demand "TAS" 50], bl_inter, bl_loss, bl_points, (final bl_config bl_ops), bl_x.
  eexists. exists (Demand "TAS" 50). eexists.
  split; [in_force_at 1%nat|]. split; [network_at 2%nat 3%nat|].
  split; [intros d [<-|[<-|[]]]; discriminate|]. split; [solves|]. split; [vm_compute; reflexivity|].
  split; [cbn; auto|]. split; [right; left; reflexivity|]. split; [reflexivity|].
  split; [intros d [<-|[<-|[]]]; split; intros _ E; vm_compute in E; discriminate|].
  vm_compute. reflexivity.
Qed.
Print Assumptions C36_balance_refuted.

(** A region with dispatch but without interconnectors is left out. *)
Definition dr_config : config :=
  Config ["NSW"; "VIC"; "WA"] [UnitInfo "A" "NSW" "generator" 1; UnitInfo "B" "VIC" "generator" 1; UnitInfo "C" "WA" "generator" 1] 5.
Definition dr_inter : list inter_row := [Inter "VNI" "VNI" "NSW" "VIC" 50 (-50) 1 1 1].
Definition dr_ops : list op :=
  [OpVolumeBids (BidTable ["1"] (map (fun u => BidRow u "energy" "generator" (fun _ => 100)) ["A"; "B"; "C"]));
   OpDemand [Demand "NSW" 60; Demand "VIC" 30; Demand "WA" 20] None; OpInterconnectors dr_inter].
Theorem C36_regions_refuted :
  exists c l dirs m x rep r, in_force c (OpDemand l None) m /\ network c dirs [] [] m /\ solution m x
    /\ region_summary m x = Ok rep /\ region_offers m r "energy" /\ region_supply m x r "energy" == 20
    /\ ~ In r (map sm_region rep).
Proof.
  exists dr_config, [Demand "NSW" 60; Demand "VIC" 30; Demand "WA" 20], dr_inter, (final dr_config dr_ops), (values [50; 40; 20; 10]).
  eexists. exists "WA". split; [in_force_at 1%nat|]. split; [apply (networkb_lossless _ _ 2%nat); [reflexivity|vm_compute; reflexivity]|].
  split; [solves|]. split; [vm_compute; reflexivity|]. split; [apply region_offersb_ok; vm_compute; reflexivity|].
  split; [vm_compute; reflexivity|]. cbn. intuition discriminate.
Qed.
Print Assumptions C36_regions_refuted.

(** ** C37 *)

(** With [pr] the price of each requirement set, a service's price in a region is
    the sum over the sets that cover it. *)
Theorem C37_prices :
  forall c l v m pi pr rep, in_force c (OpFcasReq l v) m -> set_prices m pi pr -> fcas_prices m pi = Ok rep ->
    NoDup (map fst rep)
    /\ (forall g s q, In ((g, s), q) rep -> q == qsum (map (fun r => pr (fq_set r))
          (filter (fun r => String.eqb g (fq_region r) && String.eqb s (fq_service r)) l)))
    /\ (forall g s, (exists q, In ((g, s), q) rep) <-> exists r, In r l /\ fq_region r = g /\ fq_service r = s).
Proof. exact prices_reported. Qed.
Print Assumptions C37_prices.

(** Two overlapping sets: RREG covers NSW and VIC, LOCAL covers VIC. *)
Definition fp_sets : list fcas_req_row :=
  [FcasReq "RREG" "NSW" "raise_reg" 8 ">="; FcasReq "RREG" "VIC" "raise_reg" 8 ">="; FcasReq "LOCAL" "VIC" "raise_reg" 2 ">="].
Definition fp_ops : list op := firstn 7 gx_ops ++ [OpFcasReq fp_sets (Some (VNum 1000))].
Example C37_prices_case :
  let m := final gx_config fp_ops in
  let pr := fun s => if String.eqb s "RREG" then 5 else 12 in
  let pi := fun i => if Nat.eqb i 13 then 5 else 12 in
  in_force gx_config (OpFcasReq fp_sets (Some (VNum 1000))) m /\ set_prices m pi pr
  /\ fcas_prices m pi = Ok [(("NSW", "raise_reg"), 5); (("VIC", "raise_reg"), 17)].
Proof.
  cbv zeta. split; [in_force_at 7%nat|]. split; [|vm_compute; reflexivity].
  intros rows row s H Hr E. vm_compute in H. injection H as <-.
  destruct Hr as [<-|[<-|[]]]; cbn in E; injection E as <-; reflexivity.
Qed.

(** Raising one service, on the side that the reported number belongs to, up to
    the reported availability keeps the unit level constraints.  Missing for the
    full statement: the joint ramping constraints of bidirectional units, which
    the report ignores (see the refutation), coefficients smaller than 0.00001,
    which it takes for zero, and bids of units that are not registered. *)
Theorem C37_availability_partial :
  forall c m p x rep u s a, reached c m -> assemble m = Ok p -> feasible p x ->
    fcas_availability m p x = Ok rep -> In ((u, s), a) rep ->
    s <> "energy" /\ exists d, offers m u s d /\
      (registered (m_cfg m) u d -> forall y delta, 0 <= delta -> (forall q, a = Some q -> dispatch m x u s d + delta <= q) ->
       raised m x y u s d delta ->
       forall k rows r con, In k unit_keys -> k <> "joint_ramping_raise_reg_bdu" -> k <> "joint_ramping_lower_reg_bdu" ->
         clear_terms m k u s -> dget k (m_rhs m) = Some rows -> In r rows -> In con (p_cons p) -> pc_id con = cr_id r ->
         con_holds y con).
Proof. exact availability_sound. Qed.
Print Assumptions C37_availability_partial.

(** A's raise regulation, 4 MW with 10 MW reported, raised by 5 MW. *)
Definition av_y : assignment := fun n => if Nat.eqb n 1 then 9 else gx_x n.
Example C37_availability_case :
  reached gx_config gx_market /\ (exists p rep, assemble gx_market = Ok p /\ feasible p gx_x
    /\ fcas_availability gx_market p gx_x = Ok rep /\ In (("A", "raise_reg"), Some 10) rep)
  /\ offers gx_market "A" "raise_reg" "generator" /\ registered (m_cfg gx_market) "A" "generator"
  /\ dispatch gx_market gx_x "A" "raise_reg" "generator" == 4
  /\ raised gx_market gx_x av_y "A" "raise_reg" "generator" 5
  /\ clear_terms gx_market "energy_and_regulation_capacity" "A" "raise_reg".
Proof.
  split; [is_reached|]. split.
  { destruct gx_solution as [p [A F]]. exists p. eexists. split; [exact A|]. split; [exact F|].
    assert (E : match assemble gx_market with Ok p => fcas_availability gx_market p gx_x | Err e => Err e end
      = Ok [(("A", "raise_6s"), Some 8); (("A", "raise_reg"), Some 10); (("L", "raise_reg"), Some (600#60)); (("A", "lower_reg"), Some (19500#960))])
      by (vm_compute; reflexivity).
    rewrite A in E. split; [exact E|]. cbn; auto. }
  split; [apply offersb_ok; vm_compute; reflexivity|]. split; [apply registeredb_ok; vm_compute; reflexivity|].
  split; [vm_compute; reflexivity|]. split.
  - split; [vm_compute; reflexivity|]. intros n H. unfold av_y. destruct (Nat.eqb n 1) eqn:E; [|reflexivity].
    apply Nat.eqb_eq in E. subst. exfalso.
    refine (H (BidVar "A" "1" "raise_reg" "generator" 1 0 10) _ eq_refl eq_refl eq_refl eq_refl). vm_compute. right. left. reflexivity.
  - intros cs H. vm_compute in H. injection H as <-. split.
    + intros c Hc. vm_compute in Hc. repeat (destruct Hc as [<-|Hc]; [intros _ E; try (vm_compute in E; discriminate); right; vm_compute; discriminate|]). destruct Hc.
    + intros i d. apply once_each. repeat (constructor; [cbn; intuition discriminate|]). constructor.
Qed.

(** A bidirectional unit: 20 MW of raise regulation are reported to be available,
    its joint ramping constraint allows 5 MW. *)
Definition rb_config : config :=
  Config ["NSW"] [UnitInfo "A" "NSW" "generator" 1; UnitInfo "S" "NSW" "generator" 1; UnitInfo "S" "NSW" "load" 1] 5.
Definition rb_ops : list op :=
  [OpVolumeBids (BidTable ["1"] [BidRow "A" "energy" "generator" (fun _ => 100); BidRow "S" "energy" "generator" (fun _ => 30);
                                 BidRow "S" "energy" "load" (fun _ => 30); BidRow "S" "raise_reg" "generator" (fun _ => 25)]);
   OpDemand [Demand "NSW" 60] None;
   OpMaxAvail [MaxAvail "S" "raise_reg" "generator" 20] None;
   OpJointRamping [RegRamp "S" 0 60 60] None "no_fast_start_units" None].
Theorem C37_availability_refuted :
  exists c m p x rep u s d y delta k rows r con, reached c m /\ assemble m = Ok p /\ feasible p x
    /\ fcas_availability m p x = Ok rep /\ In ((u, s), Some 20) rep
    /\ offers m u s d /\ registered (m_cfg m) u d /\ 0 <= delta /\ dispatch m x u s d + delta <= 20
    /\ raised m x y u s d delta /\ In k unit_keys /\ clear_terms m k u s /\ dget k (m_rhs m) = Some rows /\ In r rows
    /\ In con (p_cons p) /\ pc_id con = cr_id r /\ ~ con_holds y con.
Proof.
  exists rb_config, (final rb_config rb_ops). eexists. exists (values [60]). eexists. exists "S", "raise_reg", "generator", (values [60; 0; 0; 15]), 15.
  exists "joint_ramping_raise_reg_bdu". eexists. eexists. eexists.
  split; [is_reached|]. split; [vm_compute; reflexivity|]. split; [apply feasibleb_ok; vm_compute; reflexivity|].
  split; [vm_compute; reflexivity|]. split; [left; reflexivity|].
  split; [apply offersb_ok; vm_compute; reflexivity|]. split; [apply registeredb_ok; vm_compute; reflexivity|].
  split; [discriminate|]. split; [vm_compute; discriminate|].
  split.
  { split; [vm_compute; reflexivity|]. intros n H. destruct n as [|[|[|[|n]]]]; try reflexivity.
    - exfalso. refine (H (BidVar "S" "1" "raise_reg" "generator" 3 0 25) _ eq_refl eq_refl eq_refl eq_refl). vm_compute. auto 10.
    - unfold values. cbn. destruct n; reflexivity. }
  split; [cbn; auto 20|]. split.
  { intros cs H. vm_compute in H. injection H as <-. split.
    - intros c Hc. cbn in Hc. repeat (destruct Hc as [<-|Hc]; [intros _ E; try (vm_compute in E; discriminate); right; vm_compute; discriminate|]). destruct Hc.
    - intros i d. apply once_each. repeat (constructor; [cbn; intuition discriminate|]). constructor. }
  split; [vm_compute; reflexivity|]. split; [left; reflexivity|].
  split; [cbn; auto 20|]. split; [reflexivity|]. vm_compute. intuition discriminate.
Qed.
Print Assumptions C37_availability_refuted.
