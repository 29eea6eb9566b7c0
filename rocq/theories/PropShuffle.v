(** C83: the order of rows and of calls does not matter. *)

From Coq Require Import QArith String List Bool Lqa Arith ZArith Permutation.
Import ListNotations.
From Verif Require Import PandasModel TablesModel ElasticModel MarketModel SolverModel SpecLp SpecHistory SpecDispatch SpecElastic
  SpecReplace SpecOrder SpecExact SpecShuffle Fixtures SolverFacts CheckFacts CheckOrderFacts ShuffleFacts PropExact.
Open Scope string_scope.
Open Scope list_scope.

(** Two histories make the same calls, with the rows of their tables, the calls and
    the rows of the unit information in any order, with or without interconnector losses.
    Then every dispatch that one problem admits, flows and losses included, is admitted
    by the other, and costs the same. *)
Theorem C83_same_dispatch :
  forall c c' m0 m0' ops ops' p p' x,
    new_market c = Ok m0 -> new_market c' = Ok m0' -> sane ops m0 -> sane ops' m0' -> accepted ops m0 -> accepted ops' m0' ->
    one_each ops -> (forall o, In o ops -> cost_arg o = None /\ in_scope_losses c ops o) -> same_units c c' -> same_calls ops ops' ->
    assemble (run ops m0) = Ok p -> assemble (run ops' m0') = Ok p' -> feasible p x ->
    exists x', feasible p' x' /\ same_dispatch (run ops m0) x (run ops' m0') x' /\ objective p x == objective p' x'.
Proof. exact shuffled_history. Qed.
Print Assumptions C83_same_dispatch.

(** The same dispatch is optimal, at the same cost. *)
Theorem C83_same_optimum :
  forall c c' m0 m0' ops ops' p p' x,
    new_market c = Ok m0 -> new_market c' = Ok m0' -> sane ops m0 -> sane ops' m0' -> accepted ops m0 -> accepted ops' m0' ->
    one_each ops -> (forall o, In o ops -> cost_arg o = None /\ in_scope_losses c ops o) -> same_units c c' -> same_calls ops ops' ->
    assemble (run ops m0) = Ok p -> assemble (run ops' m0') = Ok p' -> optimal p x ->
    exists x', optimal p' x' /\ same_dispatch (run ops m0) x (run ops' m0') x' /\ objective p x == objective p' x'.
Proof. exact shuffled_optimum. Qed.
Print Assumptions C83_same_optimum.

(** Below: the market of C79 with losses on its interconnector, and the same market with the rows of
    all tables reversed and the calls after the bids and the network in reverse order. *)
Definition rev_bids (t : bid_table) : bid_table := BidTable (rev (bt_bands t)) (rev (bt_rows t)).
Definition sh_back (o : op) : op :=
  match o with
  | OpVolumeBids t => OpVolumeBids (rev_bids t)
  | OpPriceBids t => OpPriceBids (rev_bids t)
  | OpCapacity l v => OpCapacity (rev l) v
  | OpUigf l v => OpUigf (rev l) v
  | OpRamp t s p r v =>
    OpRamp (RampTable (rt_has_up t) (rt_has_down t) (rev (rt_rows t)))
      (match s with Some s => Some (ScadaTable (st_has_up s) (st_has_down s) (rev (st_rows s))) | None => None end) p r v
  | OpFastStart l v => OpFastStart (rev l) v
  | OpDemand l v => OpDemand (rev l) v
  | OpFcasReq l v => OpFcasReq (rev l) v
  | OpMaxAvail l v => OpMaxAvail (rev l) v
  | OpJointRamping l p r v => OpJointRamping (rev l) p r v
  | OpJointCapacity l v => OpJointCapacity (rev l) v
  | OpEnergyReg l v => OpEnergyReg (rev l) v
  | OpInterconnectors l => OpInterconnectors (rev l)
  | OpLosses lf bps => OpLosses (rev lf) (rev bps)
  | OpGeneric l v => OpGeneric (rev l) v
  | OpLinkUnits l => OpLinkUnits (rev l)
  | OpLinkRegions l => OpLinkRegions (rev l)
  | OpLinkInters l => OpLinkInters (rev l)
  | o => o
  end.
Definition sh_config : config := Config (c_regions gx_config) (rev (c_ui gx_config)) (c_interval gx_config).
Definition sl_head : list op := [OpVolumeBids gx_volumes; OpPriceBids gx_prices; OpInterconnectors ex_inter; OpLosses gx_loss gx_points].
Definition sl_tail : list op :=
  [OpCapacity gx_limits None; OpUigf gx_forecast None; OpRamp ex_ramp (Some gx_scada) None "no_fast_start_units" None; OpFastStart gx_profile None;
   OpDemand gx_demand None; OpFcasReq gx_fcas None; OpMaxAvail gx_avail None; OpJointRamping ex_reg None "no_fast_start_units" None;
   OpJointCapacity gx_contingency None; OpEnergyReg gx_regulation None; OpGeneric gx_generic None;
   OpLinkUnits [GUnit "G1" "A" "energy" 1; GUnit "G1" "S" "energy" 2];
   OpLinkRegions [GRegion "G1" "VIC" "energy" (1#2)]; OpLinkInters [GInter "G1" "VNI" 3]].
Definition sl_ops : list op := sl_head ++ sl_tail.
Definition sh_ops : list op := map sh_back (sl_head ++ rev sl_tail).
Definition sh_start : market := final sh_config [].
Definition sl_dispatch : assignment :=
  values [80 + (1#4); 4; 0; 5; 0; 60; 12 + (1#4); 5; 0; 20; 2; 0; 2; 2; 1; 0; 1; 25; 20; 5; 0; 1#2; 0; 1#5; 4#5; 0].

Lemma sl_scope o : In o sl_ops -> cost_arg o = None /\ in_scope_losses gx_config sl_ops o.
Proof.
  revert o. refine (proj1 (Forall_forall (fun o => cost_arg o = None /\ in_scope_losses gx_config sl_ops o) _) _). unfold sl_ops at 2, sl_head, sl_tail. cbn [app].
  repeat (apply Forall_cons; [split; [reflexivity|]; cbn [in_scope_losses]; try (split; [reflexivity|cbn [in_scope]])|]); try exact I; [..|apply Forall_nil].
  - split.
    + intros b Hb. exists (LossFn "VNI" "VNI" (1#2) (fun f => f * f / 1000)). split; [now left|].
      destruct Hb as [<-|[<-|[<-|[<-|[]]]]]; split; reflexivity.
    + change (directions sl_ops) with ex_inter. intros d f Hd [<-|[]] E. cbn in Hd.
      destruct Hd as [<-|[<-|[<-|[]]]]; try discriminate E. split.
      * intros a b Ha Hb _ _ L. destruct Ha as [<-|[<-|[<-|[<-|[]]]]], Hb as [<-|[<-|[<-|[<-|[]]]]]; try reflexivity; discriminate L.
      * exists (Bp "VNI" "VNI" 1 (-50)), (Bp "VNI" "VNI" 2 0). split; [now left|]. split; [right; now left|].
        split; [reflexivity|]. split; [reflexivity|discriminate].
  - split; [reflexivity|]. split; [reflexivity|]. split; [reflexivity|]. exact ex_ramp_scope.
  - intros f [<-|[]]. split; [apply not_two_sidedb; vm_compute; reflexivity|]. split; reflexivity.
  - intros d Hd. cbn in Hd. destruct Hd as [<-|[<-|[<-|[]]]]; discriminate.
  - intros r [<-|[<-|[]]]; discriminate.
  - split; [reflexivity|]. apply ex_reg_scope. now left.
  - intros t [<-|[]]. split; [reflexivity|apply not_two_sidedb; vm_compute; reflexivity].
  - intros t [<-|[]]. split; [reflexivity|]. intros _. reflexivity.
Qed.

Lemma sh_same : same_calls sl_ops sh_ops.
Proof.
  exists (sl_head ++ rev sl_tail). split.
  - apply Permutation_app_head, Permutation_rev.
  - unfold sh_ops. assert (F : Forall (fun o => same_call o (sh_back o)) (sl_head ++ rev sl_tail)).
    { apply Forall_forall. intros o Ho. assert (Ho' : In o sl_ops).
      { unfold sl_ops. apply in_or_app. apply in_app_or in Ho. destruct Ho as [Ho|Ho]; [now left|right; now apply in_rev]. }
      clear Ho. revert o Ho'. apply Forall_forall. unfold sl_ops, sl_head, sl_tail. cbn [app].
      repeat (apply Forall_cons; [cbn [sh_back same_call]; unfold same_bid_table, same_ramps; cbn [bt_rows bt_bands rt_has_up rt_has_down rt_rows rev_bids]; auto using Permutation_rev|]);
        [..|apply Forall_nil].
      - split; [repeat split; apply Permutation_rev|]. split; [cbn [same_scada st_has_up st_has_down st_rows]; repeat split; apply Permutation_rev|]. now repeat split.
      - split; [|split; [apply Permutation_rev|reflexivity]]. intros a b Ha Hb. vm_compute in Ha, Hb.
        repeat (destruct Ha as [<-|Ha]); try contradiction; repeat (destruct Hb as [<-|Hb]); try contradiction; vm_compute; try discriminate; now split.
      - split; [apply Permutation_rev|]. now repeat split. }
    induction F; cbn; constructor; auto.
Qed.

Example C83_case :
  new_market gx_config = Ok ex_start /\ new_market sh_config = Ok sh_start /\ sane sl_ops ex_start /\ sane sh_ops sh_start
  /\ accepted sl_ops ex_start /\ accepted sh_ops sh_start /\ one_each sl_ops
  /\ (forall o, In o sl_ops -> cost_arg o = None /\ in_scope_losses gx_config sl_ops o)
  /\ same_units gx_config sh_config /\ same_calls sl_ops sh_ops
  /\ (exists p, assemble (run sl_ops ex_start) = Ok p /\ feasible p sl_dispatch)
  /\ (exists p', assemble (run sh_ops sh_start) = Ok p')
  /\ map bv_service (rows_or_nil (m_bids (run sl_ops ex_start))) <> map bv_service (rows_or_nil (m_bids (run sh_ops sh_start)))
  /\ link_loss (run sl_ops ex_start) sl_dispatch "VNI" "VNI" == 1#2.
Proof.
  split; [vm_compute; reflexivity|]. split; [vm_compute; reflexivity|]. split; [apply saneb_ok; vm_compute; reflexivity|].
  split; [apply saneb_ok; vm_compute; reflexivity|]. split; [apply acceptedb_ok; vm_compute; reflexivity|].
  split; [apply acceptedb_ok; vm_compute; reflexivity|]. split.
  { unfold one_each. replace (flat_map touches sl_ops) with (nodup string_dec (flat_map touches sl_ops)) by (vm_compute; reflexivity). apply NoDup_nodup. }
  split; [exact sl_scope|]. split; [split; [apply Permutation_rev|reflexivity]|]. split; [exact sh_same|]. split.
  - change (solution (final gx_config sl_ops) sl_dispatch). solves.
  - split; [eexists; vm_compute; reflexivity|]. split; [vm_compute; discriminate|vm_compute; reflexivity].
Qed.

(** The rows of a requirement set have to agree: the code takes volume and type from
    the first row of a set, so a table whose rows disagree means something else in
    another order. *)
Definition sd_config : config := Config ["NSW"; "VIC"] [UnitInfo "A" "NSW" "generator" 1; UnitInfo "B" "VIC" "generator" 1] 5.
Definition sd_bids : bid_table := BidTable ["1"] [BidRow "A" "raise_reg" "generator" (fun _ => 30); BidRow "B" "raise_reg" "generator" (fun _ => 30)].
Definition sd_rows : list fcas_req_row := [FcasReq "R" "NSW" "raise_reg" 10 "="; FcasReq "R" "VIC" "raise_reg" 20 "="].
Definition sd_ops (l : list fcas_req_row) : list op := [OpVolumeBids sd_bids; OpFcasReq l None].
Theorem C83_disagreeing_rows_refuted :
  exists c m0 ops l l' p p' x,
    new_market c = Ok m0 /\ Permutation l l' /\ accepted (ops ++ [OpFcasReq l None]) m0 /\ accepted (ops ++ [OpFcasReq l' None]) m0
    /\ assemble (run (ops ++ [OpFcasReq l None]) m0) = Ok p /\ assemble (run (ops ++ [OpFcasReq l' None]) m0) = Ok p'
    /\ feasible p x
    /\ forall x', feasible p' x' -> ~ same_dispatch (run (ops ++ [OpFcasReq l None]) m0) x (run (ops ++ [OpFcasReq l' None]) m0) x'.
Proof.
  exists sd_config, (final sd_config []), [OpVolumeBids sd_bids], sd_rows, (rev sd_rows).
  eexists. eexists. exists (values [4; 6]).
  split; [vm_compute; reflexivity|]. split; [apply Permutation_rev|]. split; [apply acceptedb_ok; vm_compute; reflexivity|].
  split; [apply acceptedb_ok; vm_compute; reflexivity|]. split; [vm_compute; reflexivity|]. split; [vm_compute; reflexivity|].
  split; [apply feasibleb_ok; vm_compute; reflexivity|]. intros x' [_ [F _]] [S _].
  specialize (F _ (or_introl eq_refl)). destruct F as [[E _]|[[E _]|[_ F]]]; try discriminate E.
  assert (S' : forall u, band_dispatch (final sd_config (sd_ops sd_rows)) (values [4; 6]) u "raise_reg" "generator" "1"
    == band_dispatch (final sd_config (sd_ops (rev sd_rows))) x' u "raise_reg" "generator" "1") by (intros u; apply S).
  pose proof (S' "A") as S1. pose proof (S' "B") as S2. clear S S'.
  assert (B : forall l, l = sd_rows \/ l = rev sd_rows -> rows_or_nil (m_bids (final sd_config (sd_ops l)))
    = [BidVar "A" "1" "raise_reg" "generator" 0 0 30; BidVar "B" "1" "raise_reg" "generator" 1 0 30]) by (intros l [->| ->]; vm_compute; reflexivity).
  unfold band_dispatch in S1, S2. rewrite !B in S1, S2 by auto. cbn in S1, S2, F. lra.
Qed.
Print Assumptions C83_disagreeing_rows_refuted.
