(** C75: at the reported prices no units would rather run differently. *)

From Coq Require Import QArith Qabs Lqa String List Bool Arith.
Import ListNotations.
From Verif Require Import PandasModel TablesModel MarketModel SolverModel PricingModel ReportsModel FcasReportsModel DispatchPricesModel DispatchModel
  SpecLp SpecHistory SpecDispatch SpecNetwork SpecElastic SpecPricing SpecPrices SpecDual SpecSolver SpecTrade
  Fixtures CheckFacts CheckLpFacts CheckNetworkFacts CheckPricingFacts CheckElasticFacts CheckDualFacts CheckDispatchFacts CheckTradeFacts
  DualFacts DualTradeFacts DispatchFacts PropReplace PropDual PropDispatch.
Open Scope string_scope.
Open Scope list_scope.

(** All other operation that the bounds and the constraints of the group's own units
    allow earns the group no more, energy and reserves together. *)
Theorem C75_no_gain :
  forall c l v dirs lf bps lr vr gu gr gi m p q x pi pe pf tv tp group y,
  held c (OpDemand l v) m -> network c dirs lf bps m -> (forall d, In d dirs -> in_from d <> in_to d) ->
  held c (OpFcasReq lr vr) m -> links c gu gr gi m -> (forall b, In b lr -> fq_service b <> "energy") ->
  assemble m = Ok p -> (forall k rows, In (k, rows) (m_mrhs m) -> all_present p rows) ->
  priced_problem m p q -> shadow_prices q x pi -> energy_prices m pi = Ok pe -> fcas_prices m pi = Ok pf ->
  priced c tv tp m -> only_group m group x y -> boxed q y ->
  (forall con, In con (p_cons q) -> (forall r, ~ balance_con m r con) -> (forall s, ~ set_con m s con) -> met_or_free pi y con) ->
  (forall b, In b lr -> linked m y gu gr gi (fq_set b) == linked m x gu gr gi (fq_set b)) ->
  profit c m tp group pe pf y <= profit c m tp group pe pf x.
Proof. exact no_gain. Qed.
Print Assumptions C75_no_gain.

(** Without reserve requirements. *)
Theorem C75_no_gain_energy :
  forall c l v dirs lf bps m p q x pi pe tv tp group y,
  held c (OpDemand l v) m -> network c dirs lf bps m -> (forall d, In d dirs -> in_from d <> in_to d) ->
  assemble m = Ok p -> (forall d, In d l -> supplied m dirs (de_region d)) ->
  priced_problem m p q -> shadow_prices q x pi -> energy_prices m pi = Ok pe ->
  priced c tv tp m -> only_group m group x y -> boxed q y ->
  (forall con, In con (p_cons q) -> (forall r, ~ balance_con m r con) -> met_or_free pi y con) ->
  profit c m tp group pe [] y <= profit c m tp group pe [] x.
Proof. exact no_gain_energy. Qed.
Print Assumptions C75_no_gain_energy.

(** Units that could stay idle are paid at least what they ask. *)
Theorem C75_no_loss :
  forall c l v dirs lf bps lr vr gu gr gi m p q x pi pe pf tv tp group y,
  held c (OpDemand l v) m -> network c dirs lf bps m -> (forall d, In d dirs -> in_from d <> in_to d) ->
  held c (OpFcasReq lr vr) m -> links c gu gr gi m -> (forall b, In b lr -> fq_service b <> "energy") ->
  assemble m = Ok p -> (forall k rows, In (k, rows) (m_mrhs m) -> all_present p rows) ->
  priced_problem m p q -> shadow_prices q x pi -> energy_prices m pi = Ok pe -> fcas_prices m pi = Ok pf ->
  priced c tv tp m -> only_group m group x y ->
  (forall w, In w (rows_or_nil (m_bids m)) -> group (bv_unit w) = true -> y (bv_id w) == 0) -> boxed q y ->
  (forall con, In con (p_cons q) -> (forall r, ~ balance_con m r con) -> (forall s, ~ set_con m s con) -> met_or_free pi y con) ->
  (forall b, In b lr -> linked m y gu gr gi (fq_set b) == linked m x gu gr gi (fq_set b)) ->
  asked c m tp group x <= income c m group pe pf x.
Proof. exact no_loss. Qed.
Print Assumptions C75_no_loss.

(** A sells energy at 45 and reserve at 6: idle it would lose 400.  The load L pays 45
    for what it values at 60.  A and B together could not gain by selling more either. *)
Definition is_unit (u : string) : string -> bool := String.eqb u.
Definition du_idle_A : nat -> Q := instead [0; 1; 2]%nat (fun _ => 0) du_x.
Definition du_pf : list ((string * string) * Q) := Eval vm_compute in match fcas_prices du_market du_pi with Ok l => l | Err _ => [] end.
Example C75_case :
  held du_config (OpDemand du_demand None) du_market /\ network du_config [du_link] du_loss du_points du_market
  /\ (forall d, In d [du_link] -> in_from d <> in_to d)
  /\ held du_config (OpFcasReq du_reserve None) du_market /\ links du_config [] [] [] du_market
  /\ (forall b, In b du_reserve -> fq_service b <> "energy")
  /\ assemble du_market = Ok du_problem /\ (forall k rows, In (k, rows) (m_mrhs du_market) -> all_present du_problem rows)
  /\ priced_problem du_market du_problem du_lin /\ shadow_prices du_lin du_x du_pi
  /\ energy_prices du_market du_pi = Ok du_ps /\ fcas_prices du_market du_pi = Ok du_pf
  /\ priced du_config du_volumes du_prices du_market /\ only_group du_market (is_unit "A") du_x du_idle_A
  /\ (forall w, In w (rows_or_nil (m_bids du_market)) -> is_unit "A" (bv_unit w) = true -> du_idle_A (bv_id w) == 0) /\ boxed du_lin du_idle_A
  /\ (forall con, In con (p_cons du_lin) -> (forall r, ~ balance_con du_market r con) -> (forall s, ~ set_con du_market s con) -> met_or_free du_pi du_idle_A con)
  /\ (forall b, In b du_reserve -> linked du_market du_idle_A [] [] [] (fq_set b) == linked du_market du_x [] [] [] (fq_set b))
  /\ income du_config du_market (is_unit "A") du_ps du_pf du_x == 40 * 45 + 10 * 6
  /\ asked du_config du_market du_prices (is_unit "A") du_x == 40 * 40 + 10 * 2
  /\ profit du_config du_market du_prices (is_unit "A") du_ps du_pf du_idle_A == 0
  /\ income du_config du_market (is_unit "L") du_ps du_pf du_x == - (10 * 45)
  /\ asked du_config du_market du_prices (is_unit "L") du_x == - (10 * 60).
Proof.
  split; [exact du_held|]. split; [exact du_network|]. split; [exact du_ends|]. split; [exact du_held_reserve|]. split; [exact du_links|].
  split; [intros b [<-|[]]; discriminate|]. split; [exact du_assemble|]. split; [apply all_presentb_ok; vm_compute; reflexivity|].
  split; [exact du_priced_problem|]. split; [exact du_shadow|]. split; [exact du_energy|]. split; [vm_compute; reflexivity|].
  split; [exact du_priced|]. split; [apply only_groupb_ok; vm_compute; reflexivity|].
  split. { apply (idle_ok du_market). vm_compute. reflexivity. }
  split; [apply boxedb_ok; vm_compute; reflexivity|]. split; [apply (rest_met _ _ _ _ ["NSW"; "VIC"] ["R6"]); vm_compute; reflexivity|].
  split; [intros b _; reflexivity|]. repeat (split; [vm_compute; reflexivity|]). vm_compute. reflexivity.
Qed.
(** Without reserves: C idle, C at half its offer. *)
Definition df_half_C : nat -> Q := instead [5]%nat (fun _ => 41) df_x.
Example C75_energy_case :
  held du_config (OpDemand du_demand None) df_market /\ network du_config [df_link] [] [] df_market
  /\ (forall d, In d [df_link] -> in_from d <> in_to d) /\ assemble df_market = Ok df_problem
  /\ (forall d, In d du_demand -> supplied df_market [df_link] (de_region d))
  /\ priced_problem df_market df_problem df_problem /\ shadow_prices df_problem df_x df_pi
  /\ energy_prices df_market df_pi = Ok [("NSW", 45); ("VIC", 405#10)] /\ priced du_config du_volumes du_prices df_market
  /\ only_group df_market (is_unit "C") df_x df_half_C /\ boxed df_problem df_half_C
  /\ (forall con, In con (p_cons df_problem) -> (forall r, ~ balance_con df_market r con) -> met_or_free df_pi df_half_C con)
  /\ profit du_config df_market du_prices (is_unit "C") [("NSW", 45); ("VIC", 405#10)] [] df_half_C == 41 * (405#10) - 41 * 10
  /\ profit du_config df_market du_prices (is_unit "C") [("NSW", 45); ("VIC", 405#10)] [] df_x == 82 * (405#10) - 82 * 10.
Proof.
  split; [held_by 2%nat|]. split; [apply (networkb_lossless _ _ 3); vm_compute; reflexivity|].
  split; [intros d [<-|[]]; discriminate|]. split; [vm_compute; reflexivity|].
  split; [intros e [<-|[<-|[]]]; right; exists df_link; cbn; auto|].
  split; [exists by_distance, df_x; split; [exact by_distance_sorts|left; vm_compute; reflexivity]|]. split; [exact df_shadow|].
  split; [vm_compute; reflexivity|]. split; [apply (pricedb_ok du_config [] [] df_rest); vm_compute; reflexivity|].
  split; [apply only_groupb_ok; vm_compute; reflexivity|]. split; [apply boxedb_ok; vm_compute; reflexivity|].
  split; [apply (all_others_met _ _ _ _ ["NSW"; "VIC"]); vm_compute; reflexivity|]. split; vm_compute; reflexivity.
Qed.

(** What dispatch records in markets without losses: at the recorded prices no units
    would rather run differently from the recorded dispatch. *)
Theorem C75_recorded_dispatch :
  forall c l v dirs lr vr gu gr gi s a m old new tv tp p,
  reached c m -> sound s -> dispatch_market s a m old = (new, None) -> da_rerun a = false -> m_loss m = None -> assemble m = Ok p -> no_sets p ->
  held c (OpDemand l v) m -> network c dirs [] [] m -> (forall d, In d dirs -> in_from d <> in_to d) ->
  held c (OpFcasReq lr vr) m -> links c gu gr gi m -> (forall b, In b lr -> fq_service b <> "energy") -> priced c tv tp m ->
  exists x pi pe pf, d_value new = Some x /\ prices_recorded m new pi /\ recorded_energy_prices m new = Ok pe /\ fcas_prices m pi = Ok pf
    /\ forall group y, only_group m group x y -> boxed p y ->
       (forall con, In con (p_cons p) -> (forall r, ~ balance_con m r con) -> (forall s, ~ set_con m s con) -> con_holds y con) ->
       (forall b, In b lr -> linked m y gu gr gi (fq_set b) == linked m x gu gr gi (fq_set b)) ->
       profit c m tp group pe pf y <= profit c m tp group pe pf x.
Proof. exact recorded_no_gain. Qed.
Print Assumptions C75_recorded_dispatch.

Definition tr_rest : list op := [OpDemand du_demand None; OpFcasReq du_reserve None; OpInterconnectors [df_link]].
Definition tr_ops : list op := OpVolumeBids du_volumes :: OpPriceBids du_prices :: tr_rest.
Definition tr_market : market := final du_config tr_ops.
Definition tr_problem : problem :=
  Eval vm_compute in match assemble tr_market with Ok p => p | Err _ => Problem [] [] [] [] [] end.
Definition tr_x : nat -> Q := values [40; 10; 0; 342#10; 5; 82; 10; 62].
Definition tr_pi : nat -> Q := values [45; 405#10; 6].
Definition tr_solver : solver := table_solver [(tr_problem, tr_x)] [(tr_problem, (tr_x, tr_pi))] by_distance.
Lemma tr_shadow : shadow_prices tr_problem tr_x tr_pi.
Proof. apply shadowb_ok; [vm_compute; reflexivity|]. unfold tr_problem, tr_pi, tr_x. no_cheaper. Qed.
Lemma tr_sound : sound tr_solver.
Proof.
  apply table_sound; [exact by_distance_sorts| |].
  - intros p x [E|[]]. injection E as <- <-. exact (shadow_optimal _ _ _ tr_shadow).
  - intros q y pi [E|[]]. injection E as <- <- <-. exact tr_shadow.
Qed.
Definition tr_idle_B : nat -> Q := instead [3; 4]%nat (fun _ => 0) tr_x.
Example C75_recorded_case :
  reached du_config tr_market /\ sound tr_solver /\ m_loss tr_market = None /\ assemble tr_market = Ok tr_problem /\ no_sets tr_problem
  /\ held du_config (OpDemand du_demand None) tr_market /\ network du_config [df_link] [] [] tr_market
  /\ (forall d, In d [df_link] -> in_from d <> in_to d)
  /\ held du_config (OpFcasReq du_reserve None) tr_market /\ links du_config [] [] [] tr_market
  /\ (forall b, In b du_reserve -> fq_service b <> "energy") /\ priced du_config du_volumes du_prices tr_market
  /\ (exists new, dispatch_market tr_solver no_limits tr_market nothing = (new, None) /\ d_value new = Some tr_x)
  /\ only_group tr_market (is_unit "B") tr_x tr_idle_B /\ boxed tr_problem tr_idle_B
  /\ (forall con, In con (p_cons tr_problem) -> (forall r, ~ balance_con tr_market r con) -> (forall s, ~ set_con tr_market s con) ->
        con_holds tr_idle_B con).
Proof.
  split; [is_reached|]. split; [exact tr_sound|]. split; [vm_compute; reflexivity|]. split; [vm_compute; reflexivity|].
  split; [split; reflexivity|]. split; [held_by 2%nat|]. split; [apply (networkb_lossless _ _ 4); vm_compute; reflexivity|].
  split; [intros d [<-|[]]; discriminate|]. split; [held_by 3%nat|]. split; [apply linksb_none; vm_compute; reflexivity|].
  split; [intros b [<-|[]]; discriminate|]. split; [apply (pricedb_ok du_config [] [] tr_rest); vm_compute; reflexivity|].
  split; [eexists; split; vm_compute; reflexivity|].
  split; [apply only_groupb_ok; vm_compute; reflexivity|]. split; [apply boxedb_ok; vm_compute; reflexivity|].
  intros con Hc N1 N2. exfalso.
  assert (K : forallb (fun c => existsb (fun r => balance_conb tr_market r c) ["NSW"; "VIC"] || set_conb tr_market "R6" c) (p_cons tr_problem) = true)
    by (vm_compute; reflexivity).
  rewrite forallb_forall in K. specialize (K con Hc). apply orb_true_iff in K. destruct K as [K|K].
  - apply existsb_exists in K. destruct K as [r [_ K]]. apply (N1 r). now apply balance_conb_ok.
  - apply (N2 "R6"). now apply set_conb_ok.
Qed.
