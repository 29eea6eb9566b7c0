(** C72-C74: what dispatch records. *)

From Coq Require Import QArith Qabs Lqa String List Bool Arith.
Import ListNotations.
From Verif Require Import PandasModel TablesModel MarketModel SolverModel PricingModel ReportsModel FcasReportsModel DispatchPricesModel DispatchModel
  SpecLp SpecHistory SpecDispatch SpecNetwork SpecElastic SpecPricing SpecPrices SpecDual SpecSolver
  Fixtures CheckFacts CheckLpFacts CheckNetworkFacts CheckPricingFacts CheckElasticFacts CheckDualFacts CheckDispatchFacts
  DualFacts PricingFacts DispatchFacts PropReplace PropDual.
Open Scope string_scope.
Open Scope list_scope.

Definition no_limits : dispatch_args := DArgs None None None false.
Definition nothing : recorded := Recorded None None None [] None.

(** ** The market with losses of C67 and a solver for it *)

Definition du_solver : solver := table_solver [(du_problem, du_x)] [(du_lin, (du_x, du_pi))] by_distance.
Definition du_full : problem := Eval vm_compute in linear_problem du_problem.
Lemma du_optimal : optimal du_problem du_x.
Proof.
  assert (Sh : shadow_prices du_full du_x du_pi).
  { apply shadowb_ok; [vm_compute; reflexivity|]. unfold du_full, du_pi, du_x. no_cheaper. }
  split; [apply feasibleb_ok; vm_compute; reflexivity|]. intros y Fy.
  apply (proj2 (shadow_optimal _ _ _ Sh) y). exact (PricingFacts.linear_feasible du_problem y Fy).
Qed.
Lemma du_sound : sound du_solver.
Proof.
  apply table_sound; [exact by_distance_sorts| |].
  - intros p x [E|[]]. injection E as <- <-. exact du_optimal.
  - intros q y pi [E|[]]. injection E as <- <- <-. exact du_shadow.
Qed.
Lemma du_reached : reached du_config du_market.
Proof. is_reached. Qed.
Definition du_recorded : recorded := fst (dispatch_market du_solver no_limits du_market nothing).
Lemma du_dispatch : dispatch_market du_solver no_limits du_market nothing = (du_recorded, None).
Proof. vm_compute. reflexivity. Qed.

(** ** C72: what is recorded is an optimal dispatch with the prices of its problem *)

Theorem C72_dispatch_records_optimum :
  forall c s a m old new, reached c m -> sound s -> dispatch_market s a m old = (new, None) ->
  exists p x y pi q, assemble m = Ok p /\ optimal p x /\ d_value new = Some x
    /\ (exists o, d_objective new = Some o /\ o == objective p x)
    /\ (exists sl, d_slack new = Some sl /\ forall i, distance p x i (sl i))
    /\ priced_by (sv_sort s) m p x q /\ shadow_prices q y pi /\ prices_recorded m new pi
    /\ recorded_energy_prices m new = energy_prices m pi
    /\ (forall k rows, In (k, rows) (m_mrhs m) -> all_present p rows).
Proof. exact dispatch_records. Qed.
Print Assumptions C72_dispatch_records_optimum.

(** The prices of the re-run are recorded exactly if the caller asked for one, a price is
    at or beyond a limit, and a generic or FCAS constraint is violated. *)
Theorem C72_rerun_prices_when_due :
  forall c s a m old new, reached c m -> sound s -> dispatch_market s a m old = (new, None) ->
  exists p x y pi, assemble m = Ok p /\ d_value new = Some x /\ shadow_prices (pricing_problem (sv_sort s) m x p) y pi
    /\ (~ rerun_due a m x pi -> prices_recorded m new pi)
    /\ (rerun_due a m x pi -> exists q' y' pi', (exists ec ef fc, rerun_problem ec ef fc pi m x (pricing_problem (sv_sort s) m x p) = Some q')
          /\ shadow_prices q' y' pi' /\ prices_recorded m new pi').
Proof. exact dispatch_rerun. Qed.
Print Assumptions C72_rerun_prices_when_due.

(** Exceptions: which there are, and that all but the last two leave every earlier
    result as it was. *)
Theorem C72_exceptions :
  forall s a m old new e, dispatch_market s a m old = (new, Some e) ->
  (new = old /\ ((e = EValue /\ da_rerun a = true /\ limits_given a = false)
    \/ assemble m = Err e
    \/ exists p, assemble m = Ok p /\ e = EValue /\ sv_mip s p = None))
  \/ (exists p x, assemble m = Ok p /\ sv_mip s p = Some x /\ d_value new = Some x /\ d_objective new = d_objective old
      /\ ((e = EModelBuild /\ exists q, priced_by (sv_sort s) m p x q /\ sv_lin s q = None)
         \/ (e = EAttribute /\ exists k rows, In (k, rows) (m_mrhs m) /\ ~ all_present (pricing_problem (sv_sort s) m x p) rows))).
Proof. exact dispatch_err. Qed.
Print Assumptions C72_exceptions.

(** NSW is short of reserve; its price is the cost of violation, 700, and above the
    limit of 500.  The re-run finds 2, what the offer of A costs. *)
Definition rr_config : config := Config ["NSW"] [UnitInfo "A" "NSW" "generator" 1] 5.
Definition rr_volumes : bid_table :=
  BidTable ["1"] [BidRow "A" "energy" "generator" (fun _ => 100); BidRow "A" "raise_6s" "generator" (fun _ => 10)].
Definition rr_prices : bid_table :=
  BidTable ["1"] [BidRow "A" "energy" "generator" (fun _ => 30); BidRow "A" "raise_6s" "generator" (fun _ => 2)].
Definition rr_ops : list op :=
  [OpVolumeBids rr_volumes; OpPriceBids rr_prices; OpDemand [Demand "NSW" 60] None; OpFcasReq [FcasReq "R6" "NSW" "raise_6s" 15 ">="] None;
   OpElastic "fcas" (VTable [("R6", 700)])].
Definition rr_market : market := final rr_config rr_ops.
Definition rr_problem : problem :=
  Eval vm_compute in match assemble rr_market with Ok p => p | Err _ => Problem [] [] [] [] [] end.
Definition rr_x : nat -> Q := values [60; 10; 5].
Definition rr_pi : nat -> Q := values [30; 700].
Definition rr_relaxed : problem := Eval vm_compute in relax (adjusters rr_market rr_x) rr_problem.
Definition rr_y : nat -> Q := values [60; 999#100; 0].
Definition rr_pi2 : nat -> Q := values [30; 2].
Definition rr_solver : solver := table_solver [(rr_problem, rr_x)] [(rr_problem, (rr_x, rr_pi)); (rr_relaxed, (rr_y, rr_pi2))] by_distance.
Definition rr_args : dispatch_args := DArgs (Some 15000) (Some (-(1000))) (Some 500) true.
Lemma rr_shadow : shadow_prices rr_problem rr_x rr_pi.
Proof. apply shadowb_ok; [vm_compute; reflexivity|]. unfold rr_problem, rr_pi, rr_x. no_cheaper. Qed.
Lemma rr_shadow2 : shadow_prices rr_relaxed rr_y rr_pi2.
Proof. apply shadowb_ok; [vm_compute; reflexivity|]. unfold rr_relaxed, rr_pi2, rr_y. no_cheaper. Qed.
Lemma rr_sound : sound rr_solver.
Proof.
  apply table_sound; [exact by_distance_sorts| |].
  - intros p x [E|[]]. injection E as <- <-. exact (shadow_optimal _ _ _ rr_shadow).
  - intros q y pi [E|[E|[]]]; injection E as <- <- <-; [exact rr_shadow|exact rr_shadow2].
Qed.
Example C72_case :
  (reached du_config du_market /\ sound du_solver
   /\ exists new, dispatch_market du_solver no_limits du_market nothing = (new, None) /\ recorded_energy_prices du_market new = Ok du_ps)
  /\ (reached rr_config rr_market /\ sound rr_solver
      /\ (exists new, dispatch_market rr_solver rr_args rr_market nothing = (new, None)
            /\ d_prices new = [("demand", [(0%nat, 30)]); ("fcas", [(1%nat, 2)])])
      /\ rerun_due rr_args rr_market rr_x rr_pi)
  /\ dispatch_market (table_solver [] [] by_distance) no_limits rr_market du_recorded = (du_recorded, Some EValue).
Proof.
  split; [|split].
  - split; [exact du_reached|]. split; [exact du_sound|]. exists du_recorded. split; [exact du_dispatch|vm_compute; reflexivity].
  - split; [is_reached|]. split; [exact rr_sound|]. split; [eexists; split; vm_compute; reflexivity|].
    split; [reflexivity|]. split.
    + exists 15000, (-(1000)), 500. split; [reflexivity|]. split; [reflexivity|]. split; [reflexivity|]. left.
      eexists. eexists. split; [vm_compute; reflexivity|]. split; [left; reflexivity|]. vm_compute. discriminate.
    + exists "fcas". split; [now right|]. exists 2%nat. split; [vm_compute; auto|vm_compute; reflexivity].
  - vm_compute. reflexivity.
Qed.

(** ** C73: the search for the constraints in the way *)

(** Removing all the constraints named, in order, lets the solver find a solution; with
    fewer of them, from the front, it finds none.  Nothing is named only if even removing
    them all does not help.
    Missing: that each of them is in the way.  The ones before the last need not be,
    see below. *)
Theorem C73_named_constraints_partial :
  forall solve p l, find_problem_constraint solve p = l ->
  (l = [] /\ forall t u, p_cons p = t ++ u -> t <> [] -> solve (without_cons p (map pc_id t)) = None)
  \/ (exists t u, p_cons p = t ++ u /\ t <> [] /\ l = map pc_id t /\ solve (without_cons p l) <> None
      /\ forall t' u', p_cons p = t' ++ u' -> t' <> [] -> (length t' < length t)%nat -> solve (without_cons p (map pc_id t')) = None).
Proof. intros solve p l. exact (remove_spec solve p (p_cons p) [] l). Qed.
Print Assumptions C73_named_constraints_partial.

(** NSW can be supplied and TAS cannot. *)
Definition fp_config : config := Config ["NSW"; "TAS"] [UnitInfo "A" "NSW" "generator" 1; UnitInfo "T" "TAS" "generator" 1] 5.
Definition fp_ops : list op :=
  [OpVolumeBids (BidTable ["1"] [BidRow "A" "energy" "generator" (fun _ => 100); BidRow "T" "energy" "generator" (fun _ => 100)]);
   OpPriceBids (BidTable ["1"] [BidRow "A" "energy" "generator" (fun _ => 30); BidRow "T" "energy" "generator" (fun _ => 30)]);
   OpDemand [Demand "NSW" 60; Demand "TAS" 500] None].
Definition fp_market : market := final fp_config fp_ops.
Definition fp_problem : problem :=
  Eval vm_compute in match assemble fp_market with Ok p => p | Err _ => Problem [] [] [] [] [] end.
Definition fp_none : problem := Eval vm_compute in without_cons fp_problem [0%nat; 1%nat].
Definition fp_solve : problem -> option (nat -> Q) := answer [(fp_none, values [])].
Example C73_case : find_problem_constraint fp_solve fp_problem = [0%nat; 1%nat].
Proof. vm_compute. reflexivity. Qed.
(** The balance of NSW is named although it is not in the way: without the balance of
    TAS alone there is a solution, and removing that of NSW does not help. *)
Theorem C73_harmless_constraint_named_refuted :
  exists c m p solve i j, reached c m /\ assemble m = Ok p
    /\ (forall q x, solve q = Some x -> optimal q x)
    /\ find_problem_constraint solve p = [i; j]
    /\ (forall x, ~ feasible p x) /\ (forall x, ~ feasible (without_cons p [i]) x)
    /\ exists x, optimal (without_cons p [j]) x.
Proof.
  exists fp_config, fp_market, fp_problem, fp_solve, 0%nat, 1%nat. split; [is_reached|]. split; [vm_compute; reflexivity|]. split.
  { intros q x H. apply answer_in in H. destruct H as [E|[]]. injection E as <- <-. split; [apply feasibleb_ok; vm_compute; reflexivity|].
    unfold fp_none. no_better. }
  split; [vm_compute; reflexivity|].
  assert (T : forall q x, In (PVar 1 0 (Some 100)) (p_vars q) -> In (PCon 1 "=" [(1%nat, 1)] (RNum 500)) (p_cons q) -> ~ feasible q x).
  { intros q x Hv Hc [B [K _]]. specialize (B _ Hv). specialize (K _ Hc). unfold in_bounds in B. unfold con_holds in K.
    cbn [pv_id pv_lb pv_ub pc_type pc_terms pc_rhs linear rhs_value] in *. clean_relations. lra. }
  split; [intros x; apply T; unfold fp_problem; cbn; auto|]. split; [intros x; apply T; unfold fp_problem; cbn; auto|].
  exists (values [60]). split; [apply feasibleb_ok; vm_compute; reflexivity|]. unfold fp_problem. cbn. no_better.
Qed.
Print Assumptions C73_harmless_constraint_named_refuted.

(** ** C74: the prices belong to the recorded dispatch *)

(** Without losses and without special ordered sets, and without a re-run, they do. *)
Theorem C74_lossless_prices_partial :
  forall c s a m old new, reached c m -> sound s -> dispatch_market s a m old = (new, None) -> m_loss m = None -> da_rerun a = false ->
  exists p x pi, assemble m = Ok p /\ d_value new = Some x /\ prices_recorded m new pi /\ recorded_energy_prices m new = energy_prices m pi
    /\ (no_sets p -> shadow_prices p x pi /\ priced_problem m p p).
Proof. exact lossless_prices. Qed.
Print Assumptions C74_lossless_prices_partial.

Theorem C74_lossless_bids_follow_price_partial :
  forall c l v0 dirs s a m old new tv tp u d b v k ui price ps p,
  reached c m -> sound s -> dispatch_market s a m old = (new, None) -> da_rerun a = false ->
  m_loss m = None -> assemble m = Ok p -> no_sets p ->
  held c (OpDemand l v0) m -> network c dirs [] [] m -> (forall e, In e dirs -> in_from e <> in_to e) ->
  recorded_energy_prices m new = Ok ps ->
  priced c tv tp m -> offered tv u "energy" d b v -> 1#10000 <= v -> offered tp u "energy" d b k ->
  In ui (c_ui c) -> ui_unit ui = u -> ui_dt ui = d -> In (ui_region ui, price) ps -> ~ ui_lf ui == 0 ->
  (forall w con, In w (band_vars m u "energy" d b) -> In con (p_cons p) -> mentions con (bv_id w) -> balance_con m (ui_region ui) con) ->
  exists x, d_value new = Some x
    /\ (mw_cost (ui_lf ui) "energy" d k < earns "energy" d price -> band_dispatch m x u "energy" d b == v)
    /\ (earns "energy" d price < mw_cost (ui_lf ui) "energy" d k -> band_dispatch m x u "energy" d b == 0).
Proof. exact lossless_bids. Qed.
Print Assumptions C74_lossless_bids_follow_price_partial.

(** With losses they do if the solution of the linear problem costs what the dispatch
    costs.  It is never dearer.  Missing: that it costs the same, which is false, see below. *)
Theorem C74_same_cost_prices_partial :
  forall c dirs lf bps s a m old new, reached c m -> sound s -> dispatch_market s a m old = (new, None) ->
  network c dirs lf bps m -> all_losses lf bps -> (forall d, In d dirs -> rising d bps) -> (forall d, In d dirs -> balanced d bps) -> da_rerun a = false ->
  exists p x y pi, assemble m = Ok p /\ d_value new = Some x /\ d_lin new = Some y /\ prices_recorded m new pi
    /\ recorded_energy_prices m new = energy_prices m pi /\ objective p y <= objective p x
    /\ (objective p x <= objective p y -> shadow_prices (pricing_problem (sv_sort s) m x p) x pi).
Proof. exact lossy_prices. Qed.
Print Assumptions C74_same_cost_prices_partial.

Definition df_solver : solver := table_solver [(df_problem, df_x)] [(df_problem, (df_x, df_pi))] by_distance.
Lemma df_shadow : shadow_prices df_problem df_x df_pi.
Proof. apply shadowb_ok; [vm_compute; reflexivity|]. unfold df_problem, df_pi, df_x. no_cheaper. Qed.
Lemma df_sound : sound df_solver.
Proof.
  apply table_sound; [exact by_distance_sorts| |].
  - intros p x [E|[]]. injection E as <- <-. exact (shadow_optimal _ _ _ df_shadow).
  - intros q y pi [E|[]]. injection E as <- <- <-. exact df_shadow.
Qed.
Example C74_case :
  reached du_config df_market /\ sound df_solver /\ m_loss df_market = None /\ assemble df_market = Ok df_problem /\ no_sets df_problem
  /\ held du_config (OpDemand du_demand None) df_market /\ network du_config [df_link] [] [] df_market
  /\ (exists new, dispatch_market df_solver no_limits df_market nothing = (new, None)
       /\ recorded_energy_prices df_market new = Ok [("NSW", 45); ("VIC", 405#10)])
  /\ priced du_config du_volumes du_prices df_market
  /\ offered du_volumes "C" "energy" "generator" "1" 82 /\ offered du_prices "C" "energy" "generator" "1" 10
  /\ mw_cost 1 "energy" "generator" 10 < earns "energy" "generator" (405#10)
  /\ (forall w con, In w (band_vars df_market "C" "energy" "generator" "1") -> In con (p_cons df_problem) -> mentions con (bv_id w) ->
        balance_con df_market "VIC" con)
  /\ band_dispatch df_market df_x "C" "energy" "generator" "1" == 82.
Proof.
  split; [is_reached|]. split; [exact df_sound|]. split; [vm_compute; reflexivity|]. split; [vm_compute; reflexivity|].
  split; [split; reflexivity|]. split; [held_by 2%nat|]. split; [apply (networkb_lossless _ _ 3); vm_compute; reflexivity|].
  split; [eexists; split; vm_compute; reflexivity|].
  split; [apply (pricedb_ok du_config [] [] df_rest); vm_compute; reflexivity|].
  split; [du_offer (BidRow "C" "energy" "generator" (fx_two 82 0))|]. split; [du_offer (BidRow "C" "energy" "generator" (fx_two 10 10))|].
  split; [vm_compute; reflexivity|]. split; [|vm_compute; reflexivity].
  apply only_balance_ok. vm_compute. reflexivity.
Qed.
Example C74_losses_case :
  network du_config [du_link] du_loss du_points du_market /\ all_losses du_loss du_points
  /\ (forall d, In d [du_link] -> rising d du_points) /\ (forall d, In d [du_link] -> balanced d du_points)
  /\ d_value du_recorded = Some du_x /\ d_lin du_recorded = Some du_x.
Proof.
  split; [exact du_network|].
  split. { intros b [<-|[<-|[<-|[<-|[]]]]]; exists (LossFn "VNI" "VNI" (1#2) (fun f => f * f / 1000)); repeat split; now left. }
  split; [intros d [<-|[]]; apply risingb_ok; vm_compute; reflexivity|].
  split; [intros d [<-|[]]; apply balancedb_ok; vm_compute; reflexivity|]. split; reflexivity.
Qed.

(** Power in VIC is worth less than nothing, so the linear problem, free to interpolate
    between break points that are not neighbours, loses more of it.  Its VIC price is
    the -20 of C's second band, while the dispatch recorded does not use up C's first
    band, at -100. *)
Definition nd_config : config :=
  Config ["NSW"; "VIC"] [UnitInfo "B" "NSW" "generator" 1; UnitInfo "C" "VIC" "generator" 1] 5.
Definition nd_volumes : bid_table := BidTable ["1"; "2"]
  [BidRow "B" "energy" "generator" (fx_two 80 0); BidRow "C" "energy" "generator" (fx_two (165#2) 20)].
Definition nd_prices : bid_table := BidTable ["1"; "2"]
  [BidRow "B" "energy" "generator" (fx_two 10 10); BidRow "C" "energy" "generator" (fx_two (-(100)) (-(20)))].
Definition nd_link : inter_row := Inter "VNI" "VNI" "NSW" "VIC" 60 0 1 1 1.
Definition nd_rest : list op := [OpDemand du_demand None; OpInterconnectors [nd_link]; OpLosses du_loss du_points].
Definition nd_ops : list op := OpVolumeBids nd_volumes :: OpPriceBids nd_prices :: nd_rest.
Definition nd_market : market := final nd_config nd_ops.
Definition nd_problem : problem :=
  Eval vm_compute in match assemble nd_market with Ok p => p | Err _ => Problem [] [] [] [] [] end.
(** B, C 1, C 2, flow, losses, weights *)
Definition nd_x : nat -> Q := values [62; 82; 0; 60; 4; 0; 4#5; 1#5].
Definition nd_lin : problem := Eval vm_compute in pricing_problem by_distance nd_market nd_x nd_problem.
Definition nd_y : nat -> Q := values [63; 165#2; 1#2; 60; 6; 2#5; 0; 3#5].
Definition nd_pi : nat -> Q := values [10; -(20); 0; 5; -(1)#2].
Definition nd_solver : solver := table_solver [(nd_problem, nd_x)] [(nd_lin, (nd_y, nd_pi))] by_distance.
Lemma nd_shadow : shadow_prices nd_lin nd_y nd_pi.
Proof. apply shadowb_ok; [vm_compute; reflexivity|]. unfold nd_lin, nd_pi, nd_y. no_cheaper. Qed.
Lemma nd_optimal : optimal nd_problem nd_x.
Proof.
  split; [apply feasibleb_ok; vm_compute; reflexivity|].
  intros y [B [K [S _]]]. unfold nd_problem in B, K, S. cbn [p_vars p_cons p_sos2] in B, K, S. specialize (S _ (or_introl eq_refl)).
  assert (A : y 7%nat == 0 /\ y 8%nat == 0 \/ y 5%nat == 0 /\ y 8%nat == 0 \/ y 5%nat == 0 /\ y 6%nat == 0).
  { destruct (Qeq_dec (y 5%nat) 0) as [E5|N5].
    - destruct (Qeq_dec (y 6%nat) 0) as [E6|N6]; [auto|]. destruct (Qeq_dec (y 8%nat) 0) as [E8|N8]; [auto|].
      pose proof (S 1%nat 3%nat 6%nat 8%nat ltac:(auto) eq_refl eq_refl N6 N8). discriminate.
    - destruct (Qeq_dec (y 7%nat) 0) as [E7|N7].
      + destruct (Qeq_dec (y 8%nat) 0) as [E8|N8]; [auto|]. pose proof (S 0%nat 3%nat 5%nat 8%nat ltac:(auto) eq_refl eq_refl N5 N8). discriminate.
      + pose proof (S 0%nat 2%nat 5%nat 7%nat ltac:(auto) eq_refl eq_refl N5 N7). discriminate. }
  clear S. split_all B. split_all K. unfold objective, nd_problem. cbn [p_obj]. unfold in_bounds in *. unfold con_holds in *.
  cbn [pv_id pv_lb pv_ub pc_type pc_terms pc_rhs linear rhs_value] in *. clean_relations.
  unfold nd_x, values. cbn -[Qmult Qplus Qle]. destruct A as [[A1 A2]|[[A1 A2]|[A1 A2]]]; lra.
Qed.
Lemma nd_sound : sound nd_solver.
Proof.
  apply table_sound; [exact by_distance_sorts| |].
  - intros p x [E|[]]. injection E as <- <-. exact nd_optimal.
  - intros q y pi [E|[]]. injection E as <- <- <-. exact nd_shadow.
Qed.
Theorem C74_losses_detach_prices_refuted :
  exists c l dirs lf bps s m old new ps tv tp u d b v k ui price x,
    reached c m /\ sound s /\ dispatch_market s no_limits m old = (new, None) /\ d_value new = Some x
    /\ held c (OpDemand l None) m /\ network c dirs lf bps m /\ all_losses lf bps
    /\ (forall e, In e dirs -> rising e bps) /\ (forall e, In e dirs -> balanced e bps) /\ (forall e, In e dirs -> in_from e <> in_to e)
    /\ recorded_energy_prices m new = Ok ps /\ priced c tv tp m
    /\ offered tv u "energy" d b v /\ offered tp u "energy" d b k /\ In ui (c_ui c) /\ ui_unit ui = u /\ ui_dt ui = d
    /\ In (ui_region ui, price) ps
    /\ (forall p w con, assemble m = Ok p -> In w (band_vars m u "energy" d b) -> In con (p_cons p) -> mentions con (bv_id w) -> balance_con m (ui_region ui) con)
    /\ mw_cost (ui_lf ui) "energy" d k < earns "energy" d price /\ band_dispatch m x u "energy" d b < v.
Proof.
  exists nd_config, du_demand, [nd_link], du_loss, du_points, nd_solver, nd_market, nothing,
    (fst (dispatch_market nd_solver no_limits nd_market nothing)), [("NSW", 10); ("VIC", -(20))], nd_volumes, nd_prices,
    "C", "generator", "1", (165#2), (-(100)), (UnitInfo "C" "VIC" "generator" 1), (-(20)), nd_x.
  split; [is_reached|]. split; [exact nd_sound|]. split; [vm_compute; reflexivity|]. split; [vm_compute; reflexivity|].
  split; [held_by 2%nat|]. split; [network_at 3%nat 4%nat|].
  split. { intros b [<-|[<-|[<-|[<-|[]]]]]; exists (LossFn "VNI" "VNI" (1#2) (fun f => f * f / 1000)); repeat split; now left. }
  split; [intros d [<-|[]]; apply risingb_ok; vm_compute; reflexivity|].
  split; [intros d [<-|[]]; apply balancedb_ok; vm_compute; reflexivity|]. split; [intros d [<-|[]]; discriminate|].
  split; [vm_compute; reflexivity|]. split; [apply (pricedb_ok nd_config [] [] nd_rest); vm_compute; reflexivity|].
  split; [du_offer (BidRow "C" "energy" "generator" (fx_two (165#2) 20))|].
  split; [du_offer (BidRow "C" "energy" "generator" (fx_two (-(100)) (-(20))))|].
  split; [cbn; auto|]. split; [reflexivity|]. split; [reflexivity|]. split; [cbn; auto|]. split.
  { intros p w con A. assert (p = nd_problem) as -> by (assert (E : assemble nd_market = Ok nd_problem) by (vm_compute; reflexivity); rewrite E in A; injection A as <-; reflexivity).
    apply only_balance_ok. vm_compute. reflexivity. }
  split; vm_compute; reflexivity.
Qed.
Print Assumptions C74_losses_detach_prices_refuted.
