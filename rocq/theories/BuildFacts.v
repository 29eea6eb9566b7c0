(** When a market can be turned into a problem, and what a problem depends on. *)

From Coq Require Import QArith String List Bool Arith Lia ZArith Permutation.
Import ListNotations.
From Verif Require Import PandasModel TablesModel MarketModel SolverModel
  SpecLp PandasFacts InvariantFacts SolverFacts ElasticFacts.
Open Scope string_scope.
Open Scope list_scope.

Lemma dset_new {A} k (v : A) d : dget k d = None -> dset k v d = d ++ [(k, v)].
Proof.
  induction d as [|[k' v'] t IH]; cbn; [reflexivity|]. destruct (String.eqb k k'); [discriminate|].
  intros H. now rewrite IH.
Qed.

Lemma dconcat_new {A} k (v : list A) d : dget k d = None -> dconcat (dset k v d) = dconcat d ++ v.
Proof.
  intros H. rewrite dset_new by auto. unfold dconcat. rewrite flat_map_app. cbn. now rewrite app_nil_r.
Qed.

(** A left-hand side row the solver accepts. *)
Definition row_ok (m : market) (l : lrow) : Prop :=
  In (l_var l) (map pv_id (all_vars m))
  /\ exists r, In r (all_rhs m) /\ r_id r = l_con l /\ mem_str (r_type r) ["<="; ">="; "="] = true.

Lemma build_cons_ok vs rs rows ids : (forall i, In i ids -> exists c, build_con vs rs rows i = Ok c) ->
  exists cs, build_cons vs rs rows ids = Ok cs.
Proof.
  induction ids as [|i t IH]; intros H; cbn [build_cons]; [eauto|].
  destruct (H i) as [c ->]; [now left|]. destruct IH as [cs ->]; [intros j Hj; apply H; now right|]. eauto.
Qed.

Lemma lhs_terms_key rows t : In t (lhs_terms rows) -> exists l, In l rows /\ l_var l = fst t.
Proof.
  unfold lhs_terms, groupby_sum. intros H. apply in_map_iff in H. destruct H as [k [<- H]]. cbn [fst].
  apply -> keys_of_in_nat in H. apply in_map_iff in H. destruct H as [l [E H]]. eauto.
Qed.

Lemma build_con_ok m i : NoDup (map r_id (all_rhs m)) -> (exists l, In l (all_lhs m) /\ l_con l = i) ->
  (forall l, In l (all_lhs m) -> l_con l = i -> row_ok m l) ->
  exists c, build_con (all_vars m) (all_rhs m) (all_lhs m) i = Ok c.
Proof.
  intros ND [l0 [H0 E0]] H. unfold build_con.
  destruct (forallb (fun t => has_var (all_vars m) (fst t)) (lhs_terms (filter (fun r => Nat.eqb (l_con r) i) (all_lhs m)))) eqn:E.
  - destruct (H l0 H0 E0) as [_ [r [Hr [Er Ht]]]]. rewrite E0 in Er. pose proof (find_rhs_unique _ _ ND Hr) as Ef. rewrite Er in Ef. rewrite Ef, Ht. eauto.
  - exfalso. assert (X : forallb (fun t => has_var (all_vars m) (fst t)) (lhs_terms (filter (fun r => Nat.eqb (l_con r) i) (all_lhs m))) = true);
      [|congruence]. apply forallb_forall. intros t Ht. apply lhs_terms_key in Ht. destruct Ht as [l [Hl E1]].
    apply filter_In in Hl. destruct Hl as [Hl E2]. apply Nat.eqb_eq in E2. rewrite <- E1. apply has_var_in. now apply H.
Qed.

Lemma assemble_ok m : wf m -> check_lhs m = None -> no_variable_tables m = false ->
  (forall t, In t (all_costs m) -> In (fst t) (map pv_id (all_vars m))) ->
  (forall d, In d (rows_or_nil (m_dyn m)) -> In (dy_var d) (map pv_id (all_vars m))) ->
  (no_rhs_tables m = true \/ (all_lhs m <> [] /\ forall l, In l (all_lhs m) -> row_ok m l)) ->
  exists p, assemble m = Ok p.
Proof.
  intros W H1 H2 H3 H4 H5. unfold assemble. rewrite H1, H2.
  replace (forallb (fun c => has_var (all_vars m) (fst c)) (all_costs m)) with true
    by (symmetry; apply forallb_forall; intros t Ht; apply has_var_in; auto).
  replace (forallb (fun d => has_var (all_vars m) (dy_var d)) (rows_or_nil (m_dyn m))) with true
    by (symmetry; apply forallb_forall; intros t Ht; apply has_var_in; auto).
  cbn [negb]. assert (X : exists cs, add_constraints m = Ok cs).
  { unfold add_constraints. destruct (no_rhs_tables m) eqn:E; [eauto|]. destruct H5 as [H5|[H5 H6]]; [discriminate|].
    destruct (all_lhs m) eqn:El; [congruence|]. rewrite <- El. apply build_cons_ok. intros i Hi.
    apply con_ids_in in Hi. apply build_con_ok; auto; [now apply wf_rhs_NoDup|]. intros l' Hl' _. apply H6. congruence. }
  destruct X as [cs ->]. eauto.
Qed.

Lemma assemble_rows m p : assemble m = Ok p -> 
  check_lhs m = None /\ no_variable_tables m = false
  /\ (forall t, In t (all_costs m) -> In (fst t) (map pv_id (all_vars m)))
  /\ (forall d, In d (rows_or_nil (m_dyn m)) -> In (dy_var d) (map pv_id (all_vars m)))
  /\ (no_rhs_tables m = true \/ (all_lhs m <> [] /\ forall l, In l (all_lhs m) -> row_ok m l)).
Proof.
  intros A. pose proof (assemble_parts m p A) as [_ [_ [_ [_ [E5 [E6 [E7 E8]]]]]]].
  split; [exact E8|]. split.
  { unfold assemble in A. rewrite E8 in A. destruct (no_variable_tables m); [discriminate|reflexivity]. }
  split; [intros t Ht; apply has_var_in; auto|]. split; [intros t Ht; apply has_var_in; auto|].
  destruct (no_rhs_tables m) eqn:E; [now left|right]. split.
  - unfold add_constraints in E5. rewrite E in E5. destruct (all_lhs m); [discriminate|discriminate].
  - intros l Hl. destruct (lhs_vars m p l A E Hl) as [H1 H2]. split; [now apply has_var_in|exact H2].
Qed.

(** A problem only reads the values of its variables. *)
Lemma feasible_ext m p x y : wf m -> assemble m = Ok p ->
  (forall i, In i (map pv_id (all_vars m)) -> x i == y i) -> feasible p x -> feasible p y.
Proof.
  intros W A E F. pose proof (assemble_rows m p A) as [_ [_ [_ [R4 R5]]]].
  apply (feasible_iff m p y W A). apply (feasible_iff m p x W A) in F. destruct F as [F1 [F2 [F3 F4]]].
  split; [|split; [|split]].
  - intros v Hv. specialize (F1 v Hv). specialize (E (pv_id v) (in_map pv_id _ _ Hv)). unfold in_bounds in *.
    rewrite <- E. destruct (pv_ub v); [rewrite <- E|]; exact F1.
  - intros r Hr Hl. specialize (F2 r Hr Hl).
    assert (X : forall l, In l (all_lhs m) -> row_ok m l).
    { destruct R5 as [N|[_ X]]; [|exact X]. rewrite (no_rhs_tables_nil _ N) in Hr. destruct Hr. }
    assert (E1 : row_value (all_lhs m) y (r_id r) == row_value (all_lhs m) x (r_id r)).
    { apply row_value_ext. intros l Hl' _. symmetry. apply E. now apply X. }
    assert (E2 : rhs_value (r_rhs r) y == rhs_value (r_rhs r) x).
    { destruct (r_rhs r) as [q|v] eqn:Er; cbn; [reflexivity|]. symmetry. apply E.
      unfold all_rhs in Hr. rewrite !in_app_iff in Hr. destruct Hr as [Hr|[Hr|Hr]].
      - unfold static_rrows in Hr. apply in_map_iff in Hr. destruct Hr as [c0 [<- _]]. discriminate.
      - unfold static_rrows in Hr. apply in_map_iff in Hr. destruct Hr as [c0 [<- _]]. discriminate.
      - unfold dyn_rrows in Hr. apply in_map_iff in Hr. destruct Hr as [d [<- Hd]]. inversion Er; subst. auto. }
    unfold relation in *. rewrite E1, E2. exact F2.
  - intros s Hs. apply (sos2_ext x); [|auto]. intros i Hi. apply E. unfold sos2_sets in Hs. apply in_map_iff in Hs.
    destruct Hs as [k [<- _]]. apply in_map_iff in Hi. destruct Hi as [w [<- Hi]]. apply sort_rows_in in Hi.
    apply filter_In in Hi. destruct Hi as [Hi _]. unfold all_vars. rewrite !map_app, !in_app_iff. right; right; right; left.
    unfold weight_pvars. rewrite map_map. cbn [pv_id]. now apply in_map.
  - intros s Hs. apply (sos1_ext x); [|auto]. intros i Hi. apply E. unfold sos1_sets in Hs. apply in_map_iff in Hs.
    destruct Hs as [k [<- _]]. apply in_map_iff in Hi. destruct Hi as [w [<- Hi]].
    apply filter_In in Hi. destruct Hi as [Hi _]. apply filter_In in Hi. destruct Hi as [Hi _].
    unfold all_vars. rewrite !map_app, !in_app_iff. right; left.
    unfold inter_pvars. rewrite map_map. cbn [pv_id]. now apply in_map.
Qed.

Lemma objective_ext m p x y : assemble m = Ok p ->
  (forall i, In i (map pv_id (all_vars m)) -> x i == y i) -> objective p x == objective p y.
Proof.
  intros A E. pose proof (assemble_rows m p A) as [_ [_ [R3 _]]]. pose proof (assemble_parts m p A) as [_ [E2 _]].
  unfold objective. rewrite E2, !linear_sum. apply sumQ_ext_in. intros t Ht. rewrite (E (fst t)) by auto. reflexivity.
Qed.
