(** C18: historical loss functions.  C51: historical interconnector definitions. *)

From Coq Require Import QArith Qabs ZArith String List Bool.
Import ListNotations.
From Verif Require Import PandasModel TablesModel MarketModel SolverModel SpecLp SpecHistory SpecDispatch SpecNetwork
  LossModel SpecLoss Fixtures CheckFacts CheckNetworkFacts HistLossFacts.
Open Scope string_scope.
Open Scope list_scope.

(** A regulated interconnector and Basslink, whose link to Tasmania runs against it. *)
Definition hx_raw : raw :=
  Raw [Ic "V-N" "REGULATED" 50 100 (97#100) (1#500) (1#2); Ic "T-V-MNSP1" "MNSP" 300 400 1 (1#5000) 0]
    [Dir "V-N" "VIC" "NSW"; Dir "T-V-MNSP1" "TAS" "VIC"]
    [Mnsp "T-V-MNSP1" "BLNKTAS" 1 1 "VIC" "TAS" (-1) 400; Mnsp "T-V-MNSP1" "BLNKVIC" 1 1 "TAS" "VIC" 1 500]
    [LinkBid "T-V-MNSP1" "TAS" None; LinkBid "T-V-MNSP1" "VIC" (Some 300)]
    [Lfm "V-N" "VIC" (1#250000); Lfm "V-N" "NSW" (-1#800000)]
    [Seg "V-N" 1 (-50); Seg "V-N" 2 0; Seg "V-N" 3 100; Seg "T-V-MNSP1" (-1) (-200); Seg "T-V-MNSP1" 0 0; Seg "T-V-MNSP1" 1 200]
    [Sum "NSW" 8000 7990 10; Sum "VIC" 5000 5010 (-10); Sum "TAS" 1000 1000 0].
Definition hx_fns : list lossfn_row := match loss_model hx_raw with Ok p => fst p | Err _ => [] end.
Definition hx_points : list bp_row := match loss_model hx_raw with Ok p => snd p | Err _ => [] end.
Definition hx_vn : inter_row := Inter "V-N" "V-N" "NSW" "VIC" 100 (-50) 1 1 1.
Definition hx_tas : inter_row := Inter "T-V-MNSP1" "BLNKTAS" "TAS" "VIC" 400 0 (-1) 1 1.
Definition hx_vic : inter_row := Inter "T-V-MNSP1" "BLNKVIC" "VIC" "TAS" 300 0 1 1 1.
Lemma hx_loads : loss_model hx_raw = Ok (hx_fns, hx_points).
Proof. reflexivity. Qed.
Lemma hx_defs : definitions hx_raw = [hx_vn; hx_tas; hx_vic].
Proof. reflexivity. Qed.

(** ** C18 *)

Theorem C18_loss_functions :
  forall w lfs bps, loss_model w = Ok (lfs, bps) ->
  (forall f, In f lfs -> exists d i, In d (definitions w) /\ In i (rw_ic w) /\ function_of d i f
     /\ lf_share f = share_of i /\ forall q, lf_fun f q == loss_at w i (inter_flow d q))
  /\ (forall d i, In d (definitions w) -> In i (rw_ic w) -> ic_id i = in_inter d ->
       exists f, In f lfs /\ function_of d i f /\ lf_share f = share_of i
         /\ forall q, lf_fun f q == loss_at w i (inter_flow d q)).
Proof. exact functions_are. Qed.
Print Assumptions C18_loss_functions.

Example C18_functions_case :
  loss_model hx_raw = Ok (hx_fns, hx_points)
  /\ map lf_link hx_fns = ["V-N"; "BLNKTAS"; "BLNKVIC"] /\ map lf_share hx_fns = [1#2; 1; 1]
  /\ demand_part hx_raw "V-N" == 1#100
  /\ Forall2 Qeq (map (fun f => lf_fun f 50) hx_fns) [3#2; 1#4; 1#4]
  /\ loss_at hx_raw (Ic "V-N" "REGULATED" 50 100 (97#100) (1#500) (1#2)) 50 == 3#2.
Proof. split; [exact hx_loads|]. repeat split; try reflexivity. repeat constructor. Qed.

Theorem C18_vanishes_at_zero :
  forall w lfs bps, loss_model w = Ok (lfs, bps) -> forall f, In f lfs -> lf_fun f 0 == 0.
Proof. exact functions_vanish. Qed.
Print Assumptions C18_vanishes_at_zero.

Theorem C18_marginal_loss :
  forall w lfs bps, loss_model w = Ok (lfs, bps) -> forall f, In f lfs ->
  exists d i, In d (definitions w) /\ In i (rw_ic w) /\ function_of d i f
    /\ forall q m, slope (lf_fun f) q m <-> m == inject_Z (in_gcf d) * (loss_factor w i (inter_flow d q) - 1).
Proof. exact functions_slope. Qed.
Print Assumptions C18_marginal_loss.

Example C18_marginal_case :
  loss_model hx_raw = Ok (hx_fns, hx_points)
  /\ (exists f, In f hx_fns /\ lf_link f = "V-N" /\ lf_fun f 50 == 3#2 /\ lf_fun f 0 == 0)
  /\ loss_factor hx_raw (Ic "V-N" "REGULATED" 50 100 (97#100) (1#500) (1#2)) 50 - 1 == 2#25.
Proof.
  split; [exact hx_loads|]. split; [|reflexivity]. eexists. split; [left; reflexivity|]. repeat split; reflexivity.
Qed.

(** The chord between two break points. *)
Theorem C18_interpolation_error :
  forall w i a b q y, 0 <= ic_flow i -> a < b ->
    interpolates a (loss_at w i a) b (loss_at w i b) q y ->
    loss_at w i q <= y /\ y <= loss_at w i q + ic_flow i / 8 * ((b - a) * (b - a)).
Proof.
  exact (fun w i a b q y K L I =>
    chord_bounds (loss_at w i) (ic_flow i) (ic_const i + demand_part w (ic_id i) - 1) a b q y
      (fun q => Qeq_refl _) K L I).
Qed.
Print Assumptions C18_interpolation_error.

(** The bound is reached in the middle of the segment. *)
Example C18_error_case :
  let i := Ic "V-N" "REGULATED" 50 100 (97#100) (1#500) (1#2) in
  interpolates 0 (loss_at hx_raw i 0) 100 (loss_at hx_raw i 100) 50 4
  /\ 4 == loss_at hx_raw i 50 + ic_flow i / 8 * (100 * 100).
Proof. repeat split; (discriminate || reflexivity). Qed.

(** At the break points of a link the losses are those of the break points given. *)
Theorem C18_break_points :
  forall w lfs bps d i f b, loss_model w = Ok (lfs, bps) -> In d (definitions w) -> In f lfs -> In b bps ->
    function_of d i f -> In i (rw_ic w) -> named_once w d -> (forall j, In j (rw_ic w) -> ic_id j = ic_id i -> j = i) ->
    along_or_against d -> at_link d b = true ->
    exists s, In s (rw_seg w) /\ sr_id s = in_inter d /\ inter_flow d (bp_point b) == sr_point s
      /\ lf_fun f (bp_point b) == loss_at w i (sr_point s).
Proof. exact break_point_losses. Qed.
Print Assumptions C18_break_points.

Lemma hx_named d : In d (definitions hx_raw) -> named_once hx_raw d.
Proof.
  rewrite hx_defs. intros H d' H' E1 E2. rewrite hx_defs in H'.
  destruct H as [<-|[<-|[<-|[]]]], H' as [<-|[<-|[<-|[]]]]; reflexivity || discriminate.
Qed.

Example C18_break_points_case :
  let i := Ic "T-V-MNSP1" "MNSP" 300 400 1 (1#5000) 0 in
  In hx_tas (definitions hx_raw) /\ named_once hx_raw hx_tas /\ In (Bp "T-V-MNSP1" "BLNKTAS" 1 200) hx_points
  /\ (exists f, In f hx_fns /\ function_of hx_tas i f /\ lf_fun f 200 == 4)
  /\ along_or_against hx_tas /\ (forall j, In j (rw_ic hx_raw) -> ic_id j = ic_id i -> j = i).
Proof.
  cbn zeta. assert (H : In hx_tas (definitions hx_raw)) by (rewrite hx_defs; right; now left).
  split; [exact H|]. split; [now apply hx_named|]. split; [vm_compute; auto 10|]. split.
  - eexists. split; [right; left; reflexivity|]. repeat split; reflexivity.
  - split; [now right|]. intros j [<-|[<-|[]]]; [discriminate|reflexivity].
Qed.

(** The losses of a dispatch: between the loss of the flow and that plus K h^2 / 8. *)
Theorem C18_dispatch_losses :
  forall w lfs bps c m x d i, loss_model w = Ok (lfs, bps) -> network c (definitions w) lfs bps m ->
    solution m x -> In d (definitions w) -> In i (rw_ic w) -> ic_id i = in_inter d -> named_once w d ->
    along_or_against d -> numbered w (in_inter d) ->
    (exists s t, In s (rw_seg w) /\ In t (rw_seg w) /\ sr_id s = in_inter d /\ sr_id t = in_inter d /\ sr_seg s <> sr_seg t) ->
    0 <= ic_flow i ->
    let flow := inter_flow d (link_flow m x (in_inter d) (in_link d)) in
    let loss := link_loss m x (in_inter d) (in_link d) in
    exists a b, neighbours w (in_inter d) a b /\ sr_point a <= flow <= sr_point b
      /\ loss_at w i flow <= loss
      /\ loss <= loss_at w i flow + ic_flow i / 8 * ((sr_point b - sr_point a) * (sr_point b - sr_point a)).
Proof. exact market_losses. Qed.
Print Assumptions C18_dispatch_losses.

Definition hx_config : config :=
  Config ["NSW"; "VIC"; "TAS"]
    [UnitInfo "A" "VIC" "generator" 1; UnitInfo "B" "TAS" "generator" 1; UnitInfo "D" "NSW" "generator" 1] 5.
Definition hx_ops : list op :=
  [OpVolumeBids (BidTable ["1"] [BidRow "A" "energy" "generator" (fun _ => 400); BidRow "B" "energy" "generator" (fun _ => 300);
                                 BidRow "D" "energy" "generator" (fun _ => 200)]);
   OpDemand [Demand "NSW" 100; Demand "VIC" 150; Demand "TAS" 50] None;
   OpInterconnectors (definitions hx_raw); OpLosses hx_fns hx_points].
(* A 102, B 152, D 52; 50 over V-N with losses of 4, 100 over BLNKVIC with losses of 2 *)
Definition hx_x : assignment := values [102; 152; 52; 50; 0; 100; 4; 0; 2; 0; 1#2; 1#2; 0; 1; 0; 0; 1#2; 1#2].
Lemma hx_numbered id : numbered hx_raw id.
Proof.
  intros a b Ha Hb. cbn in Ha, Hb.
  destruct Ha as [<-|[<-|[<-|[<-|[<-|[<-|[]]]]]]], Hb as [<-|[<-|[<-|[<-|[<-|[<-|[]]]]]]]; cbn; intros E1 E2 E3;
    subst id; try discriminate; reflexivity.
Qed.

Example C18_dispatch_case :
  let m := final hx_config hx_ops in
  network hx_config (definitions hx_raw) hx_fns hx_points m /\ solution m hx_x
  /\ (forall d, In d (definitions hx_raw) -> named_once hx_raw d /\ along_or_against d /\ numbered hx_raw (in_inter d))
  /\ link_flow m hx_x "V-N" "V-N" == 50 /\ link_loss m hx_x "V-N" "V-N" == 4
  /\ link_flow m hx_x "T-V-MNSP1" "BLNKVIC" == 100 /\ link_loss m hx_x "T-V-MNSP1" "BLNKVIC" == 2
  /\ loss_at hx_raw (Ic "T-V-MNSP1" "MNSP" 300 400 1 (1#5000) 0) 100 == 1.
Proof.
  cbn zeta. split; [network_at 2%nat 3%nat|]. split; [solves|]. split.
  - intros d H. split; [now apply hx_named|]. split; [|apply hx_numbered]. rewrite hx_defs in H.
    destruct H as [<-|[<-|[<-|[]]]]; [now left|now right|now left].
  - all_decided.
Qed.

(** A link with a factor other than 1 and -1 gets the losses of other flows at its
    break points; a fraction is cut off, and losses vanish with a factor of zero. *)
Definition factor_raw (factor : Q) : raw :=
  Raw [Ic "T-V-MNSP1" "MNSP" 300 400 1 (1#5000) 0] [Dir "T-V-MNSP1" "TAS" "VIC"]
    [Mnsp "T-V-MNSP1" "BLNKVIC" 1 1 "TAS" "VIC" factor 500] [LinkBid "T-V-MNSP1" "VIC" None] []
    [Seg "T-V-MNSP1" 0 0; Seg "T-V-MNSP1" 1 200] [].
Theorem C18_other_factors_refuted :
  exists w lfs bps i f b s, loss_model w = Ok (lfs, bps) /\ In i (rw_ic w) /\ In f lfs /\ In b bps /\ In s (rw_seg w)
    /\ bp_point b == 2 * sr_point s /\ lf_fun f (bp_point b) == 16 * loss_at w i (sr_point s) /\ ~ loss_at w i (sr_point s) == 0.
Proof.
  exists (factor_raw 2). do 2 eexists. exists (Ic "T-V-MNSP1" "MNSP" 300 400 1 (1#5000) 0). eexists.
  exists (Bp "T-V-MNSP1" "BLNKVIC" 2 400), (Seg "T-V-MNSP1" 1 200).
  split; [reflexivity|]. split; [now left|]. split; [left; reflexivity|]. split; [vm_compute; auto|]. split; [cbn; auto|].
  split; [reflexivity|]. split; [reflexivity|]. discriminate.
Qed.
Print Assumptions C18_other_factors_refuted.

Theorem C18_fraction_refuted :
  exists w lfs bps n d f, loss_model w = Ok (lfs, bps) /\ In n (rw_mnsp w) /\ mn_factor n == 1#2 /\ In d (definitions w)
    /\ in_link d = mn_link n /\ in_gcf d = 0%Z /\ In f lfs /\ forall q, lf_fun f q == 0.
Proof.
  exists (factor_raw (1#2)). do 2 eexists. eexists. eexists. eexists.
  split; [reflexivity|]. split; [left; reflexivity|]. split; [reflexivity|]. split; [left; reflexivity|].
  split; [reflexivity|]. split; [reflexivity|]. split; [left; reflexivity|].
  intros q. cbn [lf_fun fst snd]. unfold adjust. cbn [if_fun]. unfold create_function. change (inject_Z (to_int (1#2))) with 0. cbn [in_gcf]. unfold inject_Z, to_int. cbn. ring.
Qed.
Print Assumptions C18_fraction_refuted.

(** ** C51 *)

Theorem C51_definitions :
  forall w d, In d (definitions w) -> regulated w d \/ market_link w d.
Proof. exact definitions_are. Qed.
Print Assumptions C51_definitions.

Theorem C51_regulated_present :
  forall w r i, In r (rw_dir w) -> In i (rw_ic w) -> dr_id r = ic_id i -> ic_type i = "REGULATED" ->
    exists d, In d (definitions w) /\ in_inter d = ic_id i /\ in_link d = ic_id i /\ in_from d = dr_from r /\ in_to d = dr_to r
      /\ in_min d == - ic_import i /\ in_max d == ic_export i.
Proof. exact regulated_present. Qed.
Print Assumptions C51_regulated_present.

Theorem C51_market_links_present :
  forall w n b i, In n (rw_mnsp w) -> In b (rw_bids w) -> In i (rw_ic w) -> mn_id n = ic_id i ->
    ic_type i = "MNSP" -> lb_id b = ic_id i -> lb_to b = mn_to n ->
    exists d, In d (definitions w) /\ in_inter d = ic_id i /\ in_link d = mn_link n /\ in_from d = mn_from n /\ in_to d = mn_to n
      /\ in_min d == 0 /\ (forall a, lb_avail b = Some a -> in_max d == a) /\ (lb_avail b = None -> in_max d == mn_max n)
      /\ (forall z, mn_factor n == inject_Z z -> in_gcf d = z).
Proof. exact market_present. Qed.
Print Assumptions C51_market_links_present.

Example C51_case :
  definitions hx_raw = [hx_vn; hx_tas; hx_vic]
  /\ In (Dir "V-N" "VIC" "NSW") (rw_dir hx_raw) /\ In (LinkBid "T-V-MNSP1" "VIC" (Some 300)) (rw_bids hx_raw)
  /\ in_max hx_vic = 300 /\ in_max hx_tas = 400 /\ in_min hx_vn = -50.
Proof. split; [exact hx_defs|]. repeat split; cbn; auto. Qed.
