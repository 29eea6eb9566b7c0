(** C06, C15, C16, C17, C32: regional balance, interconnector flows and losses. *)

From Coq Require Import QArith String List Bool Lqa.
Import ListNotations.
From Verif Require Import PandasModel TablesModel MarketModel SolverModel SpecLp SpecHistory SpecDispatch SpecNetwork
  Fixtures CheckFacts CheckNetworkFacts LimitFacts BalanceFacts LossFacts PropLimits.
Open Scope string_scope.
Open Scope list_scope.

Lemma gx_network : network gx_config gx_inter gx_loss gx_points gx_market.
Proof. network_at 12%nat 13%nat. Qed.
Lemma gx_ends d : In d gx_inter -> in_from d <> in_to d.
Proof. intros [<-|[]]. discriminate. Qed.

Theorem C06_energy_balance :
  forall c l dirs lf bps m x, in_force c (OpDemand l None) m -> network c dirs lf bps m ->
    (forall d, In d dirs -> in_from d <> in_to d) -> solution m x ->
    forall d, In d l -> supplied m dirs (de_region d) ->
    region_supply m x (de_region d) "energy" + inflow m x dirs (de_region d) - losses m x dirs lf (de_region d)
    == de_demand d.
Proof. exact balance_respected. Qed.
Print Assumptions C06_energy_balance.

Example C06_case :
  in_force gx_config (OpDemand gx_demand None) gx_market
  /\ network gx_config gx_inter gx_loss gx_points gx_market
  /\ (forall d, In d gx_inter -> in_from d <> in_to d) /\ solution gx_market gx_x
  /\ In (Demand "VIC" 70) gx_demand /\ supplied gx_market gx_inter "VIC"
  /\ inflow gx_market gx_x gx_inter "VIC" == -(25)
  /\ losses gx_market gx_x gx_inter gx_loss "VIC" == 5#16.
Proof.
  split; [in_force_at 6%nat|]. split; [exact gx_network|]. split; [exact gx_ends|].
  split; [exact gx_solution|]. split; [cbn; auto|]. split.
  - right. exists (Inter "VNI" "VNI" "NSW" "VIC" 50 (-50) 1 1 1). split; [now left|]. right. reflexivity.
  - all_decided.
Qed.

(** Without a variable in the region the constraint is dropped: here 40 MW of
    demand in TAS are not supplied and the market still solves. *)
Definition ts_config : config := Config ["NSW"; "TAS"] [UnitInfo "A" "NSW" "generator" 1] 5.
Definition ts_ops : list op :=
  [OpVolumeBids (BidTable ["1"] [BidRow "A" "energy" "generator" (fun _ => 100)]);
   OpDemand [Demand "NSW" 60; Demand "TAS" 40] None].
Theorem C06_unsupplied_region_dropped :
  exists c l m x d, in_force c (OpDemand l None) m /\ network c [] [] [] m /\ solution m x /\ In d l
    /\ de_demand d == 40 /\ region_supply m x (de_region d) "energy" == 0.
Proof.
  exists ts_config, [Demand "NSW" 60; Demand "TAS" 40], (final ts_config ts_ops), (values [60]), (Demand "TAS" 40).
  split; [in_force_at 1%nat|]. split; [apply networkb_none; vm_compute; reflexivity|]. split; [solves|]. all_decided.
Qed.
Print Assumptions C06_unsupplied_region_dropped.

(** A link from a region to itself is charged twice its share of the losses, so
    the condition on the ends of the links cannot be left out: supply 50, flow
    nets out, and losses of 1/2 are charged in full although only the shares 1/4
    and 3/4 of it are due in total. *)
Definition sl_config : config := Config ["NSW"] [UnitInfo "A" "NSW" "generator" 1] 5.
Definition sl_inter : list inter_row := [Inter "I" "I" "NSW" "NSW" 50 (-50) 1 1 1].
Definition sl_loss : list lossfn_row := [LossFn "I" "I" (1#4) (fun f => Qabs.Qabs f / 100)].
Definition sl_points : list bp_row := [Bp "I" "I" 1 (-50); Bp "I" "I" 2 0; Bp "I" "I" 3 50].
Definition sl_ops : list op :=
  [OpVolumeBids (BidTable ["1"] [BidRow "A" "energy" "generator" (fun _ => 100)]);
   OpDemand [Demand "NSW" 60] None; OpInterconnectors sl_inter; OpLosses sl_loss sl_points].
Theorem C17_self_link_refuted :
  exists c l dirs lf bps m x d, in_force c (OpDemand l None) m /\ network c dirs lf bps m /\ solution m x /\ In d dirs
    /\ link_loss m x (in_inter d) (in_link d) == 1#2
    /\ region_supply m x (in_from d) "energy" + inflow m x dirs (in_from d) - (1#2) * link_loss m x (in_inter d) (in_link d)
       == 60 /\ ~ (1#2) == 1.
Proof.
  exists sl_config, [Demand "NSW" 60], sl_inter, sl_loss, sl_points, (final sl_config sl_ops),
    (values [60 + (1#4); 50; 1#2; 0; 0; 1]), (Inter "I" "I" "NSW" "NSW" 50 (-50) 1 1 1).
  split; [in_force_at 1%nat|]. split; [network_at 2%nat 3%nat|]. split; [solves|]. all_decided.
Qed.
Print Assumptions C17_self_link_refuted.

Theorem C15_flow_limits :
  forall c dirs lf bps m x, network c dirs lf bps m -> solution m x ->
    forall d, In d dirs -> in_min d <= link_flow m x (in_inter d) (in_link d) <= in_max d.
Proof. exact flow_limits. Qed.
Print Assumptions C15_flow_limits.

Example C15_limits_case :
  network gx_config gx_inter gx_loss gx_points gx_market /\ solution gx_market gx_x
  /\ In (Inter "VNI" "VNI" "NSW" "VIC" 50 (-50) 1 1 1) gx_inter
  /\ link_flow gx_market gx_x "VNI" "VNI" == 25.
Proof. split; [exact gx_network|]. split; [exact gx_solution|]. all_decided. Qed.

(** A change of a link's flow by [delta], everything else equal, changes the left
    side of the balance of the receiving region by to_region_loss_factor * delta,
    that of the sending region by -from_region_loss_factor * delta and no other. *)
Theorem C15_regional_effect :
  forall c l dirs lf bps m p r con, in_force c (OpDemand l None) m -> network c dirs lf bps m ->
    (forall d, In d dirs -> in_from d <> in_to d) -> assemble m = Ok p -> In con (p_cons p) -> balance_con m r con ->
    forall d x y delta, In d dirs -> flow_changed m (in_inter d) (in_link d) delta x y ->
    let change := linear (pc_terms con) y - linear (pc_terms con) x in
    (r = in_to d -> change == in_to_lf d * delta)
    /\ (r = in_from d -> change == -(in_from_lf d * delta))
    /\ (r <> in_to d -> r <> in_from d -> change == 0).
Proof. exact flow_effect_cases. Qed.
Print Assumptions C15_regional_effect.

Definition gx_problem : problem := match assemble gx_market with Ok p => p | Err _ => Problem [] [] [] [] [] end.
Definition gx_balance (r : string) : pcon :=
  match dget "demand" (m_mrhs gx_market) with
  | Some rows =>
    match find (fun row => match cr_key row with KRegion q => String.eqb q r | _ => false end) rows with
    | Some row => match find (fun c => Nat.eqb (pc_id c) (cr_id row)) (p_cons gx_problem) with
                  | Some c => c | None => PCon 0 "" [] (RNum 0) end
    | None => PCon 0 "" [] (RNum 0)
    end
  | None => PCon 0 "" [] (RNum 0)
  end.
Definition bump (i : nat) (q : Q) (x : assignment) : assignment := fun j => if Nat.eqb j i then x j + q else x j.

Lemma gx_assembles : assemble gx_market = Ok gx_problem.
Proof. vm_compute. reflexivity. Qed.
Lemma gx_balance_con : In (gx_balance "NSW") (p_cons gx_problem) /\ balance_con gx_market "NSW" (gx_balance "NSW").
Proof.
  split.
  - vm_compute. auto 100.
  - unfold balance_con. eexists. eexists. split; [vm_compute; reflexivity|]. split; [left; reflexivity|].
    split; [reflexivity|vm_compute; reflexivity].
Qed.

Lemma gx_m_inter_rows : rows_or_nil (m_inter gx_market) = [InterVar "VNI" "VNI" 18 (-50) 50 1].
Proof. vm_compute. reflexivity. Qed.
Lemma gx_m_loss_rows : rows_or_nil (m_loss gx_market) = [LossVar "VNI" "VNI" 19 (-50) 50].
Proof. vm_compute. reflexivity. Qed.

Example C15_effect_case :
  in_force gx_config (OpDemand gx_demand None) gx_market
  /\ network gx_config gx_inter gx_loss gx_points gx_market /\ assemble gx_market = Ok gx_problem
  /\ In (gx_balance "NSW") (p_cons gx_problem) /\ balance_con gx_market "NSW" (gx_balance "NSW")
  /\ In (Inter "VNI" "VNI" "NSW" "VIC" 50 (-50) 1 1 1) gx_inter
  /\ flow_changed gx_market "VNI" "VNI" 3 gx_x (bump 18 3 gx_x)
  /\ linear (pc_terms (gx_balance "NSW")) (bump 18 3 gx_x) - linear (pc_terms (gx_balance "NSW")) gx_x == 3.
Proof.
  split; [in_force_at 6%nat|]. split; [exact gx_network|]. split; [exact gx_assembles|].
  split; [apply gx_balance_con|]. split; [apply gx_balance_con|]. split; [now left|]. split; [|vm_compute; reflexivity].
  split.
  - intros v Hv _ _. rewrite gx_m_inter_rows in Hv. destruct Hv as [<-|[]]. reflexivity.
  - intros n Hn. unfold bump. destruct (Nat.eqb n 18) eqn:E; [|reflexivity]. exfalso.
    apply Nat.eqb_eq in E. rewrite gx_m_inter_rows in Hn. apply (Hn (InterVar "VNI" "VNI" 18 (-50) 50 1)); [now left|reflexivity|reflexivity|now symmetry].
Qed.

(** The loss of a link with a loss function and two or more break points that rise
    along the segments. *)
Theorem C16_loss_interpolation :
  forall c dirs lf bps m x f d, network c dirs lf bps m -> solution m x ->
    In f lf -> In d dirs -> about_link d f = true ->
    (exists b1 b2, In b1 bps /\ In b2 bps /\ at_link d b1 = true /\ at_link d b2 = true /\ bp_seg b1 <> bp_seg b2) ->
    rising d bps ->
    exists a b, adjacent d bps a b
      /\ interpolates (bp_point a) (lf_fun f (bp_point a)) (bp_point b) (lf_fun f (bp_point b))
           (link_flow m x (in_inter d) (in_link d)) (link_loss m x (in_inter d) (in_link d)).
Proof. exact loss_interpolated. Qed.
Print Assumptions C16_loss_interpolation.

Example C16_case :
  network gx_config gx_inter gx_loss gx_points gx_market /\ solution gx_market gx_x
  /\ In (LossFn "VNI" "VNI" (1#2) (fun f => f * f / 1000)) gx_loss
  /\ In (Inter "VNI" "VNI" "NSW" "VIC" 50 (-50) 1 1 1) gx_inter
  /\ In (Bp "VNI" "VNI" 3 25) gx_points /\ In (Bp "VNI" "VNI" 4 50) gx_points
  /\ rising (Inter "VNI" "VNI" "NSW" "VIC" 50 (-50) 1 1 1) gx_points
  /\ link_loss gx_market gx_x "VNI" "VNI" == 5#8.
Proof.
  split; [exact gx_network|]. split; [exact gx_solution|]. split; [now left|]. split; [now left|].
  split; [cbn; auto|]. split; [cbn; auto|]. split; [|vm_compute; reflexivity].
  intros a b Ha Hb _ _. cbn in Ha, Hb.
  repeat match goal with H : _ \/ _ |- _ => destruct H | H : False |- _ => destruct H end; subst; cbn;
    intros H; try (vm_compute in H; discriminate); vm_compute; reflexivity.
Qed.

(** A change of a link's loss by [delta], everything else equal, is charged to the
    sending region with from_region_loss_share, to the receiving region with the
    rest, and to no other region. *)
Theorem C17_loss_shares :
  forall c l dirs lf bps m p r con, in_force c (OpDemand l None) m -> network c dirs lf bps m ->
    (forall d, In d dirs -> in_from d <> in_to d) -> assemble m = Ok p -> In con (p_cons p) -> balance_con m r con ->
    forall d f x y delta, In d dirs -> In f lf -> about_link d f = true ->
    loss_changed m (in_inter d) (in_link d) delta x y ->
    let change := linear (pc_terms con) y - linear (pc_terms con) x in
    (r = in_from d -> change == -(lf_share f * delta))
    /\ (r = in_to d -> change == -((1 - lf_share f) * delta))
    /\ (r <> in_to d -> r <> in_from d -> change == 0).
Proof. exact loss_effect_cases. Qed.
Print Assumptions C17_loss_shares.

Example C17_case :
  in_force gx_config (OpDemand gx_demand None) gx_market
  /\ network gx_config gx_inter gx_loss gx_points gx_market /\ assemble gx_market = Ok gx_problem
  /\ In (gx_balance "NSW") (p_cons gx_problem) /\ balance_con gx_market "NSW" (gx_balance "NSW")
  /\ loss_changed gx_market "VNI" "VNI" 4 gx_x (bump 19 4 gx_x)
  /\ linear (pc_terms (gx_balance "NSW")) (bump 19 4 gx_x) - linear (pc_terms (gx_balance "NSW")) gx_x == -(2).
Proof.
  split; [in_force_at 6%nat|]. split; [exact gx_network|]. split; [exact gx_assembles|].
  split; [apply gx_balance_con|]. split; [apply gx_balance_con|]. split; [|vm_compute; reflexivity].
  split.
  - intros v Hv _ _. rewrite gx_m_loss_rows in Hv. destruct Hv as [<-|[]]. reflexivity.
  - intros n Hn. unfold bump. destruct (Nat.eqb n 19) eqn:E; [|reflexivity]. exfalso.
    apply Nat.eqb_eq in E. rewrite gx_m_loss_rows in Hn. apply (Hn (LossVar "VNI" "VNI" 19 (-50) 50)); [now left|reflexivity|reflexivity|now symmetry].
Qed.

(** Over all regions: the losses charged add up to the losses of the links. *)
Theorem C17_losses_complete :
  forall c dirs lf bps m x, network c dirs lf bps m -> NoDup (c_regions c) ->
    (forall d, In d dirs -> in_from d <> in_to d) ->
    (forall d, In d dirs -> In (in_from d) (c_regions c) /\ In (in_to d) (c_regions c)) ->
    qsum (map (losses m x dirs lf) (c_regions c))
    == qsum (map (fun d => qsum (map (fun f => link_loss m x (in_inter d) (in_link d)) (filter (about_link d) lf))) dirs).
Proof. exact losses_complete. Qed.
Print Assumptions C17_losses_complete.

Example C17_complete_case :
  network gx_config gx_inter gx_loss gx_points gx_market /\ NoDup (c_regions gx_config)
  /\ (forall d, In d gx_inter -> In (in_from d) (c_regions gx_config) /\ In (in_to d) (c_regions gx_config))
  /\ qsum (map (losses gx_market gx_x gx_inter gx_loss) (c_regions gx_config)) == 5#8.
Proof.
  split; [exact gx_network|]. split; [repeat constructor; cbn; intuition discriminate|].
  split; [intros d [<-|[]]; cbn; auto|]. vm_compute. reflexivity.
Qed.

(** Two links of one interconnector, both named differently from it: at most one
    carries a flow.  Each link's limits and losses are those of the link itself:
    C15_flow_limits and C16_loss_interpolation are about links. *)
Theorem C32_one_way :
  forall c dirs lf bps m x d1 d2, network c dirs lf bps m -> solution m x ->
    In d1 dirs -> In d2 dirs -> in_inter d1 = in_inter d2 -> in_link d1 <> in_link d2 ->
    in_link d1 <> in_inter d1 -> in_link d2 <> in_inter d2 ->
    link_flow m x (in_inter d1) (in_link d1) == 0 \/ link_flow m x (in_inter d2) (in_link d2) == 0.
Proof. exact one_link_carries. Qed.
Print Assumptions C32_one_way.

Definition bl_config : config :=
  Config ["VIC"; "TAS"] [UnitInfo "A" "VIC" "generator" 1; UnitInfo "B" "TAS" "generator" 1] 5.
Definition bl_inter : list inter_row :=
  [Inter "T-V" "TAS_VIC" "VIC" "TAS" 400 0 1 (95#100) 1; Inter "T-V" "VIC_TAS" "TAS" "VIC" 300 0 (-1) 1 (9#10)].
Definition bl_loss : list lossfn_row :=
  [LossFn "T-V" "TAS_VIC" 1 (fun f => f / 50); LossFn "T-V" "VIC_TAS" 0 (fun f => f / 20)].
Definition bl_points : list bp_row :=
  [Bp "T-V" "TAS_VIC" 1 0; Bp "T-V" "TAS_VIC" 2 200; Bp "T-V" "TAS_VIC" 3 400;
   Bp "T-V" "VIC_TAS" 1 0; Bp "T-V" "VIC_TAS" 2 300].
Definition bl_ops : list op :=
  [OpVolumeBids (BidTable ["1"] [BidRow "A" "energy" "generator" (fun _ => 100); BidRow "B" "energy" "generator" (fun _ => 300)]);
   OpDemand [Demand "VIC" 105; Demand "TAS" 50] None; OpInterconnectors bl_inter; OpLosses bl_loss bl_points].
(* A 5, B 147, flow 100 over TAS_VIC, losses 2 borne in TAS *)
Definition bl_x : assignment := values [5; 147; 100; 0; 2; 0; 1#2; 1#2; 0; 1; 0].

Example C32_case :
  network bl_config bl_inter bl_loss bl_points (final bl_config bl_ops) /\ solution (final bl_config bl_ops) bl_x
  /\ link_flow (final bl_config bl_ops) bl_x "T-V" "TAS_VIC" == 100
  /\ link_flow (final bl_config bl_ops) bl_x "T-V" "VIC_TAS" == 0
  /\ link_loss (final bl_config bl_ops) bl_x "T-V" "TAS_VIC" == 2.
Proof. split; [network_at 2%nat 3%nat|]. split; [solves|]. all_decided. Qed.

(** Links named like their interconnector are not in the set: both can carry. *)
Definition bk_inter : list inter_row :=
  [Inter "T-V" "T-V" "VIC" "TAS" 400 0 1 1 1; Inter "T-V" "VIC_TAS" "TAS" "VIC" 300 0 (-1) 1 1].
Definition bk_ops : list op :=
  [OpVolumeBids (BidTable ["1"] [BidRow "A" "energy" "generator" (fun _ => 100); BidRow "B" "energy" "generator" (fun _ => 300)]);
   OpDemand [Demand "VIC" 105; Demand "TAS" 50] None; OpInterconnectors bk_inter].
Theorem C32_same_name_both_ways :
  exists c dirs m x d1 d2, network c dirs [] [] m /\ solution m x /\ In d1 dirs /\ In d2 dirs
    /\ in_inter d1 = in_inter d2 /\ in_link d1 <> in_link d2
    /\ link_flow m x (in_inter d1) (in_link d1) == 100 /\ link_flow m x (in_inter d2) (in_link d2) == 5.
Proof.
  exists bl_config, bk_inter, (final bl_config bk_ops), (values [10; 145; 100; 5]),
    (Inter "T-V" "T-V" "VIC" "TAS" 400 0 1 1 1), (Inter "T-V" "VIC_TAS" "TAS" "VIC" 300 0 (-1) 1 1).
  split; [apply (networkb_lossless _ _ 2%nat); vm_compute; reflexivity|]. split; [solves|]. all_decided.
Qed.
Print Assumptions C32_same_name_both_ways.
