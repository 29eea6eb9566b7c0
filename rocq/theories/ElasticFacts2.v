(** Elastic constraints: the repaired assignment, feasibility and objective. *)

From Coq Require Import QArith Qminmax Qabs Lqa String List Bool Arith Lia ZArith Permutation.
Import ListNotations.
From Verif Require Import PandasModel TablesModel VariableIdsModel MarketConstraintsModel
  UnitConstraintsModel RampModel FcasModel InterModel ElasticModel MarketModel SolverModel ReportsModel
  SpecLp PandasFacts SpecHistory SpecIds SpecDispatch SpecElastic StepFacts InvariantFacts OwnerFacts SolverFacts
  MeaningFacts LimitFacts TableFacts BidFacts JointRampFacts BalanceFacts DeficitFacts ElasticStateFacts ElasticFacts.
Open Scope string_scope.
Open Scope list_scope.

Section Elastic.
  Variable m : market.
  Variable k : string.
  Variable g : list crow.
  Variable rows : list (crow * Q).
  Variable n : nat.
  Hypothesis O : owned m.
  Hypothesis T : tidy m.
  Hypothesis K : keyed m.
  Hypothesis G : group m k = Some g.
  Hypothesis Rin : forall q, In q rows -> In (fst q) g.
  Hypothesis ND : NoDup (map (fun q => cr_id (fst q)) rows).
  Hypothesis L : dget (deficit_key k) (m_lhs m) = Some (deficit_lhs rows n).
  Hypothesis D : dget (deficit_key k) (m_deficits m) = Some (deficit_variables rows n).
  Hypothesis C : dget (deficit_key k) (m_obj_def m) = Some (deficit_costs rows n).

  Let drows := deficit_rows rows n.
  Definition own_row (x : assignment) (i : nat) : Q :=
    row_value (all_lhs m) (mask (fun v => negb (is_violation m k v)) x) i.

  Lemma vars_d : violation_vars m k = map d_id drows.
  Proof.
    unfold violation_vars. change (k ++ "_deficit")%string with (deficit_key k). rewrite D. cbn [rows_or_nil].
    unfold drows. now rewrite deficit_row_ids.
  Qed.

  Lemma d_in p : In p drows -> In (d_id p) (violation_vars m k).
  Proof. intros H. rewrite vars_d. now apply in_map. Qed.
  Lemma in_d i : In i (violation_vars m k) -> exists p, In p drows /\ d_id p = i.
  Proof. rewrite vars_d. intros H. apply in_map_iff in H. destruct H as [p [E H]]. eauto. Qed.

  Lemma d_inj p q : In p drows -> In q drows -> d_id p = d_id q -> p = q.
  Proof. apply NoDup_map_inj. apply deficit_rows_NoDup. Qed.

  Lemma viol_row l : In l (all_lhs m) -> In (l_var l) (violation_vars m k) ->
    exists p, In p drows /\ l = LRow (cr_id (d_row p)) (d_id p) (d_coef p).
  Proof.
    intros H V. destruct (viol_lhs m k l O T H V) as [ls [E Hl]]. rewrite L in E. inversion E; subst ls.
    unfold deficit_lhs in Hl. apply in_map_iff in Hl. destruct Hl as [[[i [r c]] z] [<- Hl]].
    exists ((i, (r, c)), z). auto.
  Qed.

  Lemma d_row_in p : In p drows -> In (d_row p) g.
  Proof. intros H. apply deficit_rows_in in H. now apply Rin in H. Qed.

  (** The left-hand side of a constraint is its own part plus the violations. *)
  Lemma elastic_row x i :
    row_value (all_lhs m) x i == own_row x i + sumQ (fun p => d_coef p * x (d_id p)) (filter (d_at i) drows).
  Proof.
    rewrite (row_value_split (is_violation m k)). apply Qplus_comp; [reflexivity|].
    unfold drows. rewrite <- deficit_row_value. unfold all_lhs. rewrite row_value_app.
    set (z := mask (is_violation m k) x).
    rewrite (row_value_zero (generic_lhs m ++ _)).
    2:{ intros l Hl _. unfold z, mask. destruct (is_violation m k (l_var l)) eqn:E; [|reflexivity].
        apply is_violation_in, violation_def in E. exfalso. destruct O as [W _]. rewrite !in_app_iff in Hl.
        destruct Hl as [Hl|[Hl|Hl]].
        - now apply generic_plain in Hl.
        - apply in_regional_lhs in Hl. destruct Hl as [c [v [_ [Hl [_ [_ ->]]]]]]. now apply rv_plain in Hl.
        - apply in_unit_lhs in Hl. destruct Hl as [c [v [_ [Hl [_ [_ [_ ->]]]]]]]. now apply uv_plain in Hl. }
    rewrite Qplus_0_r. destruct O as [W [f [n0 O1]]].
    rewrite (row_value_key (deficit_key k) (m_lhs m) (deficit_lhs rows n)); [|apply (ow_keys _ _ _ O1)|exact L|].
    - apply row_value_ext. intros l Hl _. unfold z, mask. destruct (is_violation m k (l_var l)) eqn:E; [reflexivity|].
      exfalso. assert (is_violation m k (l_var l) = true); [|congruence]. apply is_violation_in.
      rewrite vars_d. unfold drows. rewrite deficit_row_ids, <- deficit_lhs_vars. now apply in_map.
    - intros k' l' r H1 H2 N. unfold z, mask. destruct (is_violation m k (l_var r)) eqn:E; [|reflexivity].
      exfalso. apply N. apply is_violation_in, in_d in E. destruct E as [p [Hp E]].
      apply dget_in in D. refine (td_own m T _ _ (Def (d_id p) 0 None) _ _ _ D _ H1 H2 _); auto.
      unfold deficit_variables. apply in_map_iff. exists p. split; auto. now destruct p as [[a [b c]] d].
  Qed.

  Definition canon (x : assignment) (p : drow) : Q :=
    Qmax 0 (d_coef p * (cr_rhs (d_row p) - own_row x (cr_id (d_row p)))).

  (** The violations of the constraints in [S] set to what they have to be. *)
  Definition fixed (S : nat -> bool) (x : assignment) : assignment := fun i =>
    match find (fun p => Nat.eqb (d_id p) i) (filter (fun p => S (cr_id (d_row p))) drows) with
    | Some p => canon x p
    | None => x i
    end.

  Lemma fixed_in S x p : In p drows -> S (cr_id (d_row p)) = true -> fixed S x (d_id p) = canon x p.
  Proof.
    intros H HS. unfold fixed. destruct (find _ _) as [q|] eqn:F.
    - apply find_some in F. destruct F as [F1 F2]. apply filter_In in F1. apply Nat.eqb_eq in F2.
      now rewrite (d_inj q p) by tauto.
    - exfalso. assert (Hf : In p (filter (fun p => S (cr_id (d_row p))) drows)) by (apply filter_In; auto).
      apply (find_none _ _ F) in Hf. rewrite Nat.eqb_refl in Hf. discriminate.
  Qed.

  Lemma fixed_out S x i : (forall p, In p drows -> S (cr_id (d_row p)) = true -> d_id p <> i) -> fixed S x i = x i.
  Proof.
    intros H. unfold fixed. destruct (find _ _) as [q|] eqn:F; [|reflexivity]. exfalso.
    apply find_some in F. destruct F as [F1 F2]. apply filter_In in F1. apply Nat.eqb_eq in F2.
    apply (H q); tauto.
  Qed.

  Lemma fixed_same S x : same_but m k x (fixed S x).
  Proof. intros i H. rewrite fixed_out; [reflexivity|]. intros p Hp _ E. apply H. rewrite <- E. now apply d_in. Qed.

  Lemma own_same x y i : same_but m k x y -> own_row y i == own_row x i.
  Proof.
    intros H. unfold own_row. apply row_value_ext. intros l _ _. unfold mask.
    destruct (is_violation m k (l_var l)) eqn:E; cbn [negb]; [reflexivity|]. apply H. intros V.
    apply is_violation_in in V. congruence.
  Qed.

  Lemma fixed_row_other S x i : (forall p, In p drows -> S (cr_id (d_row p)) = true -> cr_id (d_row p) <> i) ->
    row_value (all_lhs m) (fixed S x) i == row_value (all_lhs m) x i.
  Proof.
    intros H. apply row_value_ext. intros l Hl E. rewrite fixed_out; [reflexivity|].
    intros p Hp HS Ev. assert (V : In (l_var l) (violation_vars m k)) by (rewrite <- Ev; now apply d_in).
    destruct (viol_row l Hl V) as [q [Hq ->]]. cbn [l_var l_con] in *. apply (H p Hp HS).
    now rewrite (d_inj p q) by auto.
  Qed.

  Lemma canon_nonneg x p : 0 <= canon x p.
  Proof. unfold canon. apply Q.le_max_l. Qed.

  Lemma filter_d_in i p : In p (filter (d_at i) drows) -> In p drows /\ cr_id (d_row p) = i.
  Proof. intros H. apply filter_In in H. unfold d_at in H. rewrite Nat.eqb_eq in H. exact H. Qed.

  Lemma fixed_row S x r q : In (r, q) rows -> S (cr_id r) = true -> mem_str (cr_type r) ["<="; ">="; "="] = true ->
    relation (cr_type r) (row_value (all_lhs m) (fixed S x) (cr_id r)) (cr_rhs r).
  Proof.
    intros H HS Ht. set (a := own_row x (cr_id r)).
    assert (E : row_value (all_lhs m) (fixed S x) (cr_id r)
      == a + sumQ (fun p => d_coef p * Qmax 0 (d_coef p * (cr_rhs r - a))) (filter (d_at (cr_id r)) drows)).
    { rewrite elastic_row, (own_same x) by apply fixed_same. apply Qplus_comp; [reflexivity|].
      apply sumQ_ext_in. intros p Hp. apply filter_d_in in Hp. destruct Hp as [Hp Ep].
      rewrite fixed_in by (auto; now rewrite Ep). unfold canon. rewrite Ep.
      assert (Er : d_row p = r).
      { assert (Hq : In (snd (fst p)) rows) by (apply deficit_rows_in in Hp; exact Hp).
        unfold d_row in *. now rewrite (one_of_ids rows r q (snd (fst p)) ND H Hq Ep). }
      rewrite Er. reflexivity. }
    apply (relation_ext (cr_type r) _ _ (cr_rhs r) (Qeq_sym _ _ E)).
    destruct (deficit_pick rows n r q ND H) as [P1 [P2 P3]]. fold drows in P1, P2, P3.
    cbn in Ht. rewrite !orb_true_iff, !String.eqb_eq in Ht. unfold relation.
    destruct Ht as [Ht|[Ht|[Ht|Ht]]]; try discriminate.
    - destruct (P2 Ht) as [i ->]. left. split; auto. unfold sumQ. cbn [map qsum fold_right d_coef snd].
      destruct (Q.max_spec 0 (-(1) * (cr_rhs r - a))) as [[M ->]|[M ->]]; lra.
    - destruct (P1 Ht) as [i ->]. right. left. split; auto. unfold sumQ. cbn [map qsum fold_right d_coef snd].
      destruct (Q.max_spec 0 (1 * (cr_rhs r - a))) as [[M ->]|[M ->]]; lra.
    - destruct (P3 Ht) as [i [j ->]]. right. right. split; auto. unfold sumQ. cbn [map qsum fold_right d_coef snd].
      destruct (Q.max_spec 0 (-(1) * (cr_rhs r - a))) as [[M ->]|[M ->]];
        destruct (Q.max_spec 0 (1 * (cr_rhs r - a))) as [[M2 ->]|[M2 ->]]; lra.
  Qed.

  (** Violation variables have the bounds zero and infinity. *)
  Lemma viol_var v : In v (all_vars m) -> In (pv_id v) (violation_vars m k) -> v = PVar (pv_id v) 0 None.
  Proof.
    intros H V. destruct O as [W _]. pose proof (wf_vars_NoDup m W) as NDv.
    apply in_d in V. destruct V as [p [Hp E]]. apply (NoDup_map_inj pv_id (all_vars m)); auto.
    unfold all_vars. rewrite !in_app_iff. do 4 right. unfold deficit_pvars. apply in_map_iff.
    exists (Def (d_id p) 0 None). cbn. rewrite E. split; auto. apply in_dconcat. apply dget_in in D.
    exists (deficit_key k), (deficit_variables rows n). split; auto.
    unfold deficit_variables. apply in_map_iff. exists p. split; auto. rewrite <- E. now destruct p as [[a [b c]] d].
  Qed.

  Lemma viol_has p : In p drows -> In (PVar (d_id p) 0 None) (all_vars m).
  Proof.
    intros Hp. unfold all_vars. rewrite !in_app_iff. do 4 right. unfold deficit_pvars. apply in_map_iff.
    exists (Def (d_id p) 0 None). split; auto. apply in_dconcat. apply dget_in in D.
    exists (deficit_key k), (deficit_variables rows n). split; auto.
    unfold deficit_variables. apply in_map_iff. exists p. split; auto. now destruct p as [[a [b c]] d].
  Qed.

  Lemma fixed_bounds S x v : In v (all_vars m) -> (~ (In (pv_id v) (violation_vars m k)) \/ S = (fun _ => true) \/ in_bounds x v) ->
    (~ (In (pv_id v) (violation_vars m k)) -> in_bounds x v) -> in_bounds (fixed S x) v.
  Proof.
    intros H Hc Hx. destruct (in_dec Nat.eq_dec (pv_id v) (violation_vars m k)) as [V|N].
    - assert (0 <= fixed S x (pv_id v)).
      { destruct (in_d _ V) as [p [Hp E]]. rewrite <- E. destruct (S (cr_id (d_row p))) eqn:ES.
        - rewrite fixed_in by auto. apply canon_nonneg.
        - rewrite fixed_out; [|intros q Hq Hs Eq; rewrite (d_inj q p) in Hs by auto; congruence].
          destruct Hc as [Hc|[Hc|Hc]]; [tauto|subst S; discriminate|].
          rewrite E. destruct Hc as [Hc _]. rewrite (viol_var v H V) in Hc. exact Hc. }
      rewrite (viol_var v H V). split; cbn; auto.
    - specialize (Hx N). pose proof (fixed_same S x _ N) as E. destruct Hx as [H1 H2]. split; [now rewrite E|].
      destruct (pv_ub v); [now rewrite E|exact I].
  Qed.

  Lemma fixed_rhs S x r : In r (all_rhs m) -> rhs_value (r_rhs r) (fixed S x) == rhs_value (r_rhs r) x.
  Proof.
    intros H. unfold all_rhs in H. rewrite !in_app_iff in H. destruct H as [H|[H|H]];
      apply in_map_iff in H; destruct H as [d [<- H]]; cbn [r_rhs rhs_value]; try reflexivity.
    apply fixed_same. intros V. apply violation_def in V. revert V. apply (td_vars m T).
    unfold table_vars. rewrite !in_app_iff. right. left. now apply in_map.
  Qed.

  Lemma fixed_sos S x : 
    ((forall s, In s (sos2_sets (rows_or_nil (m_weights m))) -> sos2_ok x s) ->
     (forall s, In s (sos2_sets (rows_or_nil (m_weights m))) -> sos2_ok (fixed S x) s))
    /\ ((forall s, In s (sos1_sets (rows_or_nil (m_inter m))) -> sos1_ok x s) ->
     (forall s, In s (sos1_sets (rows_or_nil (m_inter m))) -> sos1_ok (fixed S x) s)).
  Proof.
    destruct O as [W _]. split; intros H s Hs.
    - apply (sos2_ext x); [|auto]. intros i Hi. symmetry. apply fixed_same. intros V.
      apply violation_def in V. now apply (sos2_plain m s i).
    - apply (sos1_ext x); [|auto]. intros i Hi. symmetry. apply fixed_same. intros V.
      apply violation_def in V. now apply (sos1_plain m s i).
  Qed.

  (** The change of the objective. *)
  Lemma cost_change x y : same_but m k x y ->
    linear (all_costs m) y - linear (all_costs m) x
    == sumQ (fun p => d_cost p * (y (d_id p) - x (d_id p))) drows.
  Proof.
    intros H. rewrite !linear_sum, <- sumQ_sub. unfold all_costs. rewrite sumQ_app, !sumQ_map.
    rewrite (sumQ_zero _ (rows_or_nil (m_obj_bids m))).
    2:{ intros o Ho. cbn [fst snd]. rewrite (H (ob_var o)); [ring|]. intros V. apply violation_def in V. revert V.
        apply (td_vars m T). unfold table_vars. rewrite in_app_iff. left. now apply in_map. }
    rewrite Qplus_0_l.
    rewrite (sumQ_key _ (deficit_key k) _ (deficit_costs rows n)); [|apply (td_keys m T)|exact C|].
    - unfold deficit_costs. rewrite sumQ_map. apply sumQ_ext. intros [[i [r c]] z]. cbn. ring.
    - intros k' l' c H1 H2 N. cbn [fst snd]. rewrite (H (co_var c)); [ring|]. intros V. apply N.
      apply in_d in V. destruct V as [p [Hp E]]. apply dget_in in D.
      refine (td_cown m T _ _ (Def (d_id p) 0 None) _ _ _ D _ H1 H2 _); auto.
      unfold deficit_variables. apply in_map_iff. exists p. split; auto. now destruct p as [[a [b e]] d].
  Qed.

  (** Violations in the terms of a constraint. *)
  Lemma violation_rows p c r x : assemble m = Ok p -> In c (p_cons p) -> In r g -> pc_id c = cr_id r ->
    violation m k c x == sumQ (fun p => x (d_id p)) (filter (d_at (cr_id r)) drows)
    /\ own_value m k c x == own_row x (cr_id r).
  Proof.
    intros A Hc Hr E. destruct O as [W _].
    destruct (con_is m p c _ W A Hc (group_static m k g r G Hr) E) as [Ec _]. cbn [r_id r_type r_rhs] in Ec.
    split.
    - unfold violation. rewrite Ec. cbn [pc_terms]. change (qsum (map ?f ?l)) with (sumQ f l).
      unfold lhs_terms, groupby_sum. rewrite filter_map_swap. cbn [fst]. rewrite sumQ_map. cbn [fst].
      rewrite <- (sumQ_map (fun i => x i) d_id). apply sumQ_perm. apply NoDup_Permutation.
      + apply NoDup_filter. apply keys_of_NoDup_nat.
      + apply NoDup_filter_map. apply deficit_rows_NoDup.
      + intros i. rewrite filter_In, keys_of_in_nat, in_map_iff, is_violation_in, in_map_iff. split.
        * intros [[l [<- Hl]] V]. apply filter_In in Hl. destruct Hl as [Hl El]. apply Nat.eqb_eq in El.
          destruct (viol_row l Hl V) as [q [Hq ->]]. exists q. split; auto. apply filter_In. split; auto.
          unfold d_at. now apply Nat.eqb_eq.
        * intros [q [<- Hq]]. apply filter_d_in in Hq. destruct Hq as [Hq Eq]. split; [|now apply d_in].
          exists (LRow (cr_id (d_row q)) (d_id q) (d_coef q)). split; auto. apply filter_In.
          cbn [l_con]. split; [|now apply Nat.eqb_eq]. unfold all_lhs. apply in_or_app. left. apply in_dconcat.
          apply dget_in in L. exists (deficit_key k), (deficit_lhs rows n). split; auto.
          unfold deficit_lhs. apply in_map_iff. exists q. split; auto. now destruct q as [[a [b e]] d].
    - unfold own_value, own_row.
      eapply Qeq_trans; [apply (linear_filter (fun v => negb (is_violation m k v)))|]. rewrite Ec. cbn [pc_terms].
      rewrite lhs_terms_value. reflexivity.
  Qed.

  Lemma d_lhs q : In q drows -> In (LRow (cr_id (d_row q)) (d_id q) (d_coef q)) (all_lhs m).
  Proof.
    intros Hq. unfold all_lhs. apply in_or_app. left. apply in_dconcat. apply dget_in in L.
    exists (deficit_key k), (deficit_lhs rows n). split; auto. unfold deficit_lhs. apply in_map_iff.
    exists q. split; auto. now destruct q as [[a [b e]] d].
  Qed.
End Elastic.
