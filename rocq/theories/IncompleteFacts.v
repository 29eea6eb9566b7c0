(** Dispatch of a market for which not everything has been set. *)

From Coq Require Import QArith String List Bool Arith.
Import ListNotations.
From Verif Require Import PandasModel TablesModel MarketModel SolverModel PricingModel ReportsModel FcasReportsModel DispatchPricesModel DispatchModel
  SpecLp SpecHistory SpecDispatch SpecPricing SpecPrices SpecSolver
  SpecElastic LimitFacts StepFacts MeaningFacts TableFacts CostFacts DispatchFacts.
Open Scope string_scope.
Open Scope list_scope.

Lemma empty_refused c m0 s a old : new_market c = Ok m0 -> (da_rerun a = false \/ limits_given a = true) ->
  dispatch_market s a m0 old = (old, Some EModelBuild).
Proof.
  unfold new_market. intros H L. destruct (check_unit_info c); [discriminate|]. injection H as <-.
  unfold dispatch_market, limits_given in *. destruct a as [ce fl fc re]. cbn in *.
  destruct re; [|reflexivity]. destruct L as [L|L]; [discriminate|]. destruct ce, fl, fc; try discriminate. reflexivity.
Qed.

Lemma built_with_bids m : m_bids m <> None -> assemble m <> Err EModelBuild.
Proof.
  intros B. unfold assemble. assert (C : check_lhs m <> Some EModelBuild).
  { unfold check_lhs. destruct (m_c2v_reg m), (no_regional_vars m), (m_c2v_unit m), (m_unit_bids m); discriminate. }
  destruct (check_lhs m) as [e|]; [congruence|].
  assert (N : no_variable_tables m = false) by (unfold no_variable_tables; destruct (m_bids m); [reflexivity|congruence]).
  rewrite N. destruct (negb _); [discriminate|]. destruct (negb _); [discriminate|].
  assert (A : add_constraints m <> Err EModelBuild).
  { unfold add_constraints. destruct (no_rhs_tables m); [discriminate|]. destruct (all_lhs m) as [|r0 rs]; [discriminate|].
    generalize (con_ids (r0 :: rs)). generalize (r0 :: rs). intros rows ids. induction ids as [|i ids IH]; cbn; [discriminate|].
    unfold build_con. destruct (forallb _ _); [|discriminate]. destruct (find_rhs _ _); [|discriminate].
    destruct (mem_str _ _); [|discriminate]. destruct (build_cons _ _ _ ids); [discriminate|congruence]. }
  destruct (add_constraints m); congruence.
Qed.

Lemma bids_stay c t m : in_force c (OpVolumeBids t) m -> m_bids m <> None.
Proof.
  intros F. apply in_force_table in F. destruct F as [_ [_ [m' [m1 [_ [_ [St [_ K]]]]]]]].
  cbn [step] in St. unfold set_volume_bids in St. apply guard_ok in St. destruct St as [_ St].
  apply guard_ok in St. destruct St as [_ St].
  destruct (K "bids" ltac:(cbn; auto)) as [K1 _]. destruct (K1 eq_refl) as [K2 _].
  destruct (next_id _); [|discriminate]. inversion St; subst m1. rewrite K2. discriminate.
Qed.

Lemma bids_not_refused c t m s a old new : in_force c (OpVolumeBids t) m ->
  dispatch_market s a m old = (new, Some EModelBuild) ->
  exists p x q, assemble m = Ok p /\ sv_mip s p = Some x /\ d_value new = Some x /\ priced_by (sv_sort s) m p x q /\ sv_lin s q = None.
Proof.
  intros F D. pose proof (built_with_bids m (bids_stay c t m F)) as B.
  destruct (dispatch_err _ _ _ _ _ _ D) as [[_ [[E _]|[E|[p [_ [E _]]]]]]|[p [x [A [S [V [_ [[_ [q [P N]]]|[E _]]]]]]]]]; try discriminate; [contradiction|].
  exists p, x, q. auto.
Qed.

Lemma no_demand_group ops : (forall l v, ~ In (OpDemand l v) ops) -> forall m, group m "demand" = None -> group (run ops m) "demand" = None.
Proof.
  intros N. apply (run_preserves (fun m => group m "demand" = None)). intros o m Ho G.
  assert (D : {~ In "demand" (touches o)} + {exists v, o = OpElastic "demand" v}).
  { destruct (in_dec string_dec "demand" (touches o)) as [H|H]; [right|left; exact H].
    destruct o; cbn in H; repeat (destruct H as [H|H]; [try discriminate H|]); try contradiction.
    - exfalso. exact (N _ _ Ho).
    - subst. eauto. }
  destruct D as [D|[v ->]].
  - destruct (step_same_group "demand" o m D) as [E1 [E2 _]]. unfold group. rewrite E1, E2. exact G.
  - rewrite (unknown_group m "demand" v G). exact G.
Qed.

Lemma no_prices c m0 ops r : new_market c = Ok m0 -> (forall l v, ~ In (OpDemand l v) ops) ->
  recorded_energy_prices (run ops m0) r = Err EKey.
Proof.
  intros H N. unfold new_market in H. destruct (check_unit_info c); [discriminate|]. injection H as <-.
  pose proof (no_demand_group ops N (empty_market c) eq_refl) as G. unfold group in G. unfold recorded_energy_prices.
  destruct (dget "demand" (m_mrhs (run ops (empty_market c)))); [discriminate|reflexivity].
Qed.
