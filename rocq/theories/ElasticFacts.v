(** Elastic constraints: extension, zero violation and minimality. *)

From Coq Require Import QArith Qminmax Qabs Lqa String List Bool Arith Lia ZArith Permutation.
Import ListNotations.
From Verif Require Import PandasModel TablesModel VariableIdsModel MarketConstraintsModel
  UnitConstraintsModel RampModel FcasModel InterModel ElasticModel MarketModel SolverModel ReportsModel
  SpecLp PandasFacts SpecHistory SpecIds SpecDispatch SpecElastic StepFacts InvariantFacts OwnerFacts SolverFacts
  MeaningFacts LimitFacts TableFacts BidFacts DeficitFacts ElasticStateFacts.
Open Scope string_scope.
Open Scope list_scope.

(** ** Variables of the mapped left-hand sides *)

Lemma uv_plain m v : wf m -> In v (rows_or_nil (m_unit_bids m)) -> ~ In (uv_id v) (def_ids m).
Proof.
  intros W H. destruct (bids_tables m W) as [vs [E1 [_ E2]]]. rewrite E2 in H. unfold bid_unit_map in H.
  apply in_map_iff in H. destruct H as [[b u] [<- H]]. cbn.
  apply in_merge in H. destruct H as [H _]. rewrite <- E1 in H.
  destruct (m_bids m) as [l|] eqn:E; [|destruct H]. now apply (bid_ids_lt m l).
Qed.

Lemma rv_plain m v : wf m -> tidy m -> In v (regional_vars m) -> ~ In (rv_id v) (def_ids m).
Proof.
  intros W T H. unfold regional_vars in H. rewrite !in_app_iff in H. destruct H as [H|[H|H]].
  - destruct (bids_tables m W) as [vs [E1 [E2 _]]]. rewrite E2 in H. unfold bid_regional_map in H.
    apply in_map_iff in H. destruct H as [[b u] [<- H]]. cbn.
    apply in_merge in H. destruct H as [H _]. rewrite <- E1 in H.
    destruct (m_bids m) as [l|] eqn:E; [|destruct H]. now apply (bid_ids_lt m l).
  - apply in_map_iff in H. destruct H as [r [<- H]].
    pose proof (wf_inter m W) as I. unfold inter_wf in I. destruct (m_directions m) as [l|].
    + destruct I as [_ [n [E1 E2]]]. rewrite E2 in H. cbn [rows_or_nil] in H. 
      assert (exists v, In v (inter_variables l n) /\ iv_id v = rv_id (ir_rv r)) as [v [Hv <-]].
      { unfold inter_regional_map in H. apply in_app_or in H.
        destruct H as [H|H]; apply in_map_iff in H; destruct H as [[i d] [<- H]];
          (exists (InterVar (in_inter d) (in_link d) i (in_min d) (in_max d) (in_gcf d)); split;
           [apply in_map_iff; exists (i, d); auto|reflexivity]). }
      now apply (inter_ids_lt m (inter_variables l n)).
    + destruct I as [_ E]. rewrite E in H. destruct H.
  - apply (td_vars m T). unfold table_vars. rewrite !in_app_iff. right. right. now apply in_map.
Qed.

Lemma generic_plain m l : wf m -> tidy m -> In l (generic_lhs m) -> ~ In (l_var l) (def_ids m).
Proof.
  intros W T H. unfold generic_lhs in H. destruct (generic_ids m) as [ids|]; [|destruct H].
  rewrite !in_app_iff in H. destruct H as [H|[H|H]].
  - destruct (m_gen_unit m) as [gs|]; [|destruct H]. destruct (m_unit_bids m) as [vs|] eqn:E; [|destruct H].
    apply in_map_iff in H. destruct H as [[[a v] r] [<- H]]. apply in_merge in H. destruct H as [H _].
    apply in_merge in H. destruct H as [_ [H _]]. cbn [l_var]. apply uv_plain; auto. rewrite E. exact H.
  - destruct (m_gen_region m) as [gs|]; [|destruct H]. destruct (m_reg_bids m) as [vs|] eqn:E; [|destruct H].
    apply in_map_iff in H. destruct H as [[[a v] r] [<- H]]. apply in_merge in H. destruct H as [H _].
    apply in_merge in H. destruct H as [_ [H _]]. cbn [l_var]. apply rv_plain; auto.
    unfold regional_vars. rewrite E. apply in_or_app. now left.
  - destruct (m_gen_inter m) as [gs|]; [|destruct H]. destruct (m_inter m) as [vs|] eqn:E; [|destruct H].
    apply in_map_iff in H. destruct H as [[[a v] r] [<- H]]. apply in_merge in H. destruct H as [H _].
    apply in_merge in H. destruct H as [_ [H _]]. cbn [l_var]. now apply (inter_ids_lt m vs).
Qed.

Lemma violation_def m k i : In i (violation_vars m k) -> In i (def_ids m).
Proof.
  unfold violation_vars. change (k ++ "_deficit")%string with (deficit_key k).
  destruct (dget (deficit_key k) (m_deficits m)) as [ds|] eqn:D; [|intros []]. cbn [rows_or_nil]. intros H.
  apply in_map_iff in H. destruct H as [d [<- H]]. apply dget_in in D. now apply (in_def_ids m (deficit_key k) ds).
Qed.

(** Only the rows kept for the violations of a group mention its violation variables. *)
Lemma viol_lhs m k l : owned m -> tidy m -> In l (all_lhs m) -> In (l_var l) (violation_vars m k) ->
  exists ls, dget (deficit_key k) (m_lhs m) = Some ls /\ In l ls.
Proof.
  intros [W [f [n O]]] T H V. pose proof (violation_def m k _ V) as Vd. unfold all_lhs in H. rewrite !in_app_iff in H.
  destruct H as [H|[H|[H|H]]].
  - apply in_dconcat in H. destruct H as [key [ls [H1 H2]]]. unfold violation_vars in V.
    change (k ++ "_deficit")%string with (deficit_key k) in V.
    destruct (dget (deficit_key k) (m_deficits m)) as [ds|] eqn:D; [|destruct V]. cbn [rows_or_nil] in V.
    apply in_map_iff in V. destruct V as [d [E V]]. apply dget_in in D.
    assert (key = deficit_key k) as -> by (apply (td_own m T _ ds d _ ls l D V H1 H2); auto).
    exists ls. split; auto. apply in_dget; auto. apply (ow_keys _ _ _ O).
  - now apply generic_plain in H.
  - apply in_regional_lhs in H. destruct H as [c [v [_ [H [_ [_ ->]]]]]]. now apply rv_plain in H.
  - apply in_unit_lhs in H. destruct H as [c [v [_ [H [_ [_ [_ ->]]]]]]]. now apply uv_plain in H.
Qed.

Lemma group_static m k g r : group m k = Some g -> In r g -> In (RRow (cr_id r) (cr_type r) (RNum (cr_rhs r))) (all_rhs m).
Proof.
  unfold group. destruct (dget k (m_mrhs m)) as [g'|] eqn:E.
  - intros H. inversion H; subst. now apply (in_all_rhs_regional m k).
  - apply in_all_rhs_unit.
Qed.

(** A right-hand side with the id of a row of the violations belongs to the group. *)
Lemma viol_group m k ls l r : owned m -> keyed m -> dget (deficit_key k) (m_lhs m) = Some ls -> In l ls ->
  In r (all_rhs m) -> r_id r = l_con l ->
  exists g cr, group m k = Some g /\ In cr g /\ r = RRow (cr_id cr) (cr_type cr) (RNum (cr_rhs cr)).
Proof.
  intros [W [f [n O]]] K D Hl Hr E. apply dget_in in D. destruct (ow_lhs _ _ _ O _ _ _ D Hl) as [Ow _].
  assert (F : f (l_con l) = GRhs k \/ f (l_con l) = GMkt k).
  { destruct Ow as [[k2 [E1 E2]]|[[E1 E2]|[E1 E2]]].
    - apply deficit_key_inj in E1. subst. exact E2.
    - now apply deficit_key_tie in E1.
    - now apply deficit_key_losses in E1. }
  clear Ow. rewrite <- E in F. unfold all_rhs in Hr. rewrite !in_app_iff in Hr. destruct Hr as [Hr|[Hr|Hr]].
  - apply in_map_iff in Hr. destruct Hr as [cr [<- Hr]]. apply in_dconcat in Hr. destruct Hr as [k' [g [H1 H2]]].
    cbn [r_id] in F. destruct (ow_rhs _ _ _ O _ _ _ H1 H2) as [F2 _]. rewrite F2 in F.
    destruct F as [F|F]; inversion F; subst k'. exists g, cr. split; auto.
    apply in_dget in H1; [|apply (ow_keys _ _ _ O)]. unfold group.
    destruct (dget k (m_mrhs m)) eqn:E3; auto. apply (ky_reg _ K) in E3. apply (ky_rhs _ K) in H1. tauto.
  - apply in_map_iff in Hr. destruct Hr as [cr [<- Hr]]. apply in_dconcat in Hr. destruct Hr as [k' [g [H1 H2]]].
    cbn [r_id] in F. destruct (ow_mrhs _ _ _ O _ _ _ H1 H2) as [F2 _]. rewrite F2 in F.
    destruct F as [F|F]; inversion F; subst k'. exists g, cr. split; auto.
    apply in_dget in H1; [|apply (ow_keys _ _ _ O)]. unfold group. now rewrite H1.
  - apply in_map_iff in Hr. destruct Hr as [d [<- Hr]]. cbn [r_id] in F.
    destruct (ow_dyn _ _ _ O _ Hr) as [F2 _]. rewrite F2 in F. destruct F; discriminate.
Qed.

(** ** Masks *)

Definition mask (P : nat -> bool) (x : assignment) : assignment := fun i => if P i then x i else 0.

Lemma linear_filter P ts x : linear (filter (fun t => P (fst t)) ts) x == linear ts (mask P x).
Proof.
  rewrite !linear_sum, sumQ_filter. apply sumQ_ext. intros [i c]. unfold mask. cbn [fst snd].
  destruct (P i); ring.
Qed.

Lemma row_value_ext rows x y i : (forall l, In l rows -> l_con l = i -> x (l_var l) == y (l_var l)) ->
  row_value rows x i == row_value rows y i.
Proof.
  intros H. unfold row_value. apply sumQ_ext_in. intros l Hl. apply filter_In in Hl. destruct Hl as [H1 H2].
  apply Nat.eqb_eq in H2. rewrite (H l) by auto. reflexivity.
Qed.

Lemma row_value_split P rows x i :
  row_value rows x i == row_value rows (mask (fun v => negb (P v)) x) i + row_value rows (mask P x) i.
Proof.
  unfold row_value. rewrite <- sumQ_plus. apply sumQ_ext. intros l. unfold mask. destruct (P (l_var l)); cbn [negb]; ring.
Qed.

Lemma row_value_zero rows x i : (forall l, In l rows -> l_con l = i -> x (l_var l) == 0) -> row_value rows x i == 0.
Proof.
  intros H. rewrite (row_value_ext rows x (fun _ => 0)) by auto. unfold row_value. apply sumQ_zero. intros; ring.
Qed.

Lemma row_value_key key (d : dict (list lrow)) ls x i : NoDup (dkeys d) -> dget key d = Some ls ->
  (forall k' l' r, In (k', l') d -> In r l' -> k' <> key -> x (l_var r) == 0) ->
  row_value (dconcat d) x i == row_value ls x i.
Proof.
  unfold dkeys. induction d as [|[k' l'] t IH]; intros ND D H; [discriminate|].
  cbn in ND, D. inversion ND as [|? ? N1 N2]; subst.
  change (dconcat ((k', l') :: t)) with (l' ++ dconcat t). rewrite row_value_app.
  destruct (String.eqb key k') eqn:E.
  - apply String.eqb_eq in E. inversion D; subst. rewrite (row_value_zero (dconcat t)); [ring|].
    intros l Hl _. apply in_dconcat in Hl. destruct Hl as [k2 [l2 [H1 H2]]]. apply (H k2 l2); auto; [now right|].
    intros ->. apply N1. change k' with (fst (k', l2)). now apply in_map.
  - apply String.eqb_neq in E. rewrite IH; auto; [|intros; eapply H; eauto; now right].
    rewrite (row_value_zero l'); [ring|]. intros l Hl _. apply (H k' l'); auto. now left.
Qed.

Lemma is_violation_in m k i : is_violation m k i = true <-> In i (violation_vars m k).
Proof.
  unfold is_violation. rewrite existsb_exists. split.
  - intros [j [H E]]. apply Nat.eqb_eq in E. now subst.
  - intros H. exists i. split; auto. apply Nat.eqb_refl.
Qed.

(** The terms of a constraint that reached the solver. *)
Lemma con_is m p c r : wf m -> assemble m = Ok p -> In c (p_cons p) -> In r (all_rhs m) -> pc_id c = r_id r ->
  c = PCon (r_id r) (r_type r) (lhs_terms (filter (fun l => Nat.eqb (l_con l) (r_id r)) (all_lhs m))) (r_rhs r)
  /\ mem_str (r_type r) ["<="; ">="; "="] = true.
Proof.
  intros W H Hc Hr E. apply assemble_parts in H. destruct H as [_ [_ [_ [_ [A _]]]]].
  pose proof (wf_rhs_NoDup m W) as ND. unfold add_constraints in A. destruct (no_rhs_tables m) eqn:E0.
  - inversion A as [A']. rewrite <- A' in Hc. destruct Hc.
  - assert (B : build_cons (all_vars m) (all_rhs m) (all_lhs m) (con_ids (all_lhs m)) = Ok (p_cons p)).
    { destruct (all_lhs m); [discriminate|exact A]. }
    apply (build_cons_in _ _ _ _ _ B) in Hc. destruct Hc as [i [_ Hc]]. unfold build_con in Hc.
    destruct (forallb _ _); [|discriminate].
    destruct (find_rhs (all_rhs m) i) as [r'|] eqn:Ef; [|discriminate].
    destruct (mem_str _ _) eqn:Em; [|discriminate]. inversion Hc; subst c. cbn [pc_id] in E. subst i.
    rewrite (find_rhs_unique _ _ ND Hr) in Ef. inversion Ef; subst r'. auto.
Qed.

Lemma con_rhs m p c : wf m -> assemble m = Ok p -> In c (p_cons p) -> exists r, In r (all_rhs m) /\ r_id r = pc_id c.
Proof.
  intros W H Hc. apply assemble_parts in H. destruct H as [_ [_ [_ [_ [A _]]]]].
  unfold add_constraints in A. destruct (no_rhs_tables m) eqn:E0.
  - inversion A as [A']. rewrite <- A' in Hc. destruct Hc.
  - assert (B : build_cons (all_vars m) (all_rhs m) (all_lhs m) (con_ids (all_lhs m)) = Ok (p_cons p)).
    { destruct (all_lhs m); [discriminate|exact A]. }
    apply (build_cons_in _ _ _ _ _ B) in Hc. destruct Hc as [i [_ Hc]]. unfold build_con in Hc.
    destruct (forallb _ _); [|discriminate].
    destruct (find_rhs (all_rhs m) i) as [r'|] eqn:Ef; [|discriminate].
    destruct (mem_str _ _) eqn:Em; [|discriminate]. inversion Hc; subst c. apply find_rhs_in in Ef.
    exists r'. exact Ef.
Qed.

(** ** Picking the violation rows of one constraint *)

Definition drow := (nat * (crow * Q) * Q)%type.
Definition d_id (p : drow) : nat := fst (fst p).
Definition d_row (p : drow) : crow := fst (snd (fst p)).
Definition d_cost (p : drow) : Q := snd (snd (fst p)).
Definition d_coef (p : drow) : Q := snd p.

Lemma pick_save (l : list (crow * Q)) n r c : NoDup (map (fun q => cr_id (fst q)) l) -> In (r, c) l ->
  exists i, filter (fun p : nat * (crow * Q) => Nat.eqb (cr_id (fst (snd p))) (cr_id r)) (save_index n l) = [(i, (r, c))].
Proof.
  unfold save_index. revert n. induction l as [|[r1 c1] t IH]; intros n ND H; [destruct H|].
  cbn [map] in ND. inversion ND as [|? ? N1 N2]; subst. cbn [length seq combine filter snd fst].
  destruct H as [H|H].
  - inversion H; subst. rewrite Nat.eqb_refl. exists n. f_equal.
    clear IH. revert N1. generalize (S n). clear. induction t as [|[r2 c2] t IH]; intros k N; [reflexivity|].
    cbn [length seq combine filter snd fst]. destruct (Nat.eqb (cr_id r2) (cr_id r)) eqn:E.
    + apply Nat.eqb_eq in E. exfalso. apply N. cbn [map fst]. left. now rewrite E.
    + apply IH. intros Hi. apply N. now right.
  - destruct (Nat.eqb (cr_id r1) (cr_id r)) eqn:E; [|now apply IH].
    apply Nat.eqb_eq in E. exfalso. apply N1. cbn [fst]. rewrite E.
    change (cr_id r) with ((fun q : crow * Q => cr_id (fst q)) (r, c)). now apply in_map.
Qed.

Lemma pick_none (l : list (crow * Q)) n i : (forall q, In q l -> cr_id (fst q) <> i) ->
  filter (fun p : nat * (crow * Q) => Nat.eqb (cr_id (fst (snd p))) i) (save_index n l) = [].
Proof.
  intros H. unfold save_index. revert n. induction l as [|q t IH]; intros n; [reflexivity|].
  cbn [length seq combine filter snd fst]. destruct (Nat.eqb (cr_id (fst q)) i) eqn:E.
  - apply Nat.eqb_eq in E. exfalso. apply (H q); auto. now left.
  - apply IH. intros. apply H. now right.
Qed.

Lemma filter_map_swap {A B} (f : A -> B) (P : B -> bool) l : filter P (map f l) = map f (filter (fun a => P (f a)) l).
Proof. induction l as [|a t IH]; cbn; [reflexivity|]. destruct (P (f a)); cbn; now rewrite IH. Qed.

Lemma one_of_ids (rows : list (crow * Q)) r c q : NoDup (map (fun q => cr_id (fst q)) rows) -> In (r, c) rows -> In q rows ->
  cr_id (fst q) = cr_id r -> q = (r, c).
Proof.
  induction rows as [|a t IH]; intros ND H1 H2 E; [destruct H1|]. cbn [map] in ND. inversion ND as [|? ? N1 N2]; subst.
  destruct H1 as [->|H1], H2 as [->|H2]; auto; exfalso; apply N1.
  - cbn [fst]. rewrite <- E. change (cr_id (fst q)) with ((fun q : crow * Q => cr_id (fst q)) q). now apply in_map.
  - rewrite E. change (cr_id r) with ((fun q : crow * Q => cr_id (fst q)) (r, c)). now apply in_map.
Qed.

Definition d_at (i : nat) (p : drow) : bool := Nat.eqb (cr_id (d_row p)) i.

Lemma deficit_pick rows n r c : NoDup (map (fun q => cr_id (fst q)) rows) -> In (r, c) rows ->
  (cr_type r = ">=" -> exists i, filter (d_at (cr_id r)) (deficit_rows rows n) = [((i, (r, c)), 1)])
  /\ (cr_type r = "<=" -> exists i, filter (d_at (cr_id r)) (deficit_rows rows n) = [((i, (r, c)), -(1))])
  /\ (cr_type r = "=" -> exists i j, filter (d_at (cr_id r)) (deficit_rows rows n) = [((i, (r, c)), -(1)); ((j, (r, c)), 1)]).
Proof.
  intros ND H. unfold deficit_rows. rewrite !filter_app, !filter_map_swap.
  assert (NDf : forall P, NoDup (map (fun q : crow * Q => cr_id (fst q)) (filter P rows))).
  { intros P. now apply NoDup_filter_map. }
  assert (NI : cr_type r = "=" -> forall q, In q (inequalities rows) -> cr_id (fst q) <> cr_id r).
  { intros T q Hq E. unfold inequalities in Hq. apply filter_In in Hq. destruct Hq as [Hq1 Hq2].
    rewrite (one_of_ids rows r c q ND H Hq1 E) in Hq2. cbn [fst] in Hq2. rewrite T in Hq2. discriminate. }
  assert (NE : cr_type r <> "=" -> forall q, In q (equalities rows) -> cr_id (fst q) <> cr_id r).
  { intros T q Hq E. unfold equalities in Hq. apply filter_In in Hq. destruct Hq as [Hq1 Hq2].
    rewrite (one_of_ids rows r c q ND H Hq1 E) in Hq2. cbn [fst] in Hq2. apply String.eqb_eq in Hq2. congruence. }
  unfold d_at, d_row. cbn [fst snd].
  repeat split; intros T.
  - rewrite !(pick_none (equalities rows)) by (apply NE; congruence).
    destruct (pick_save (inequalities rows) n r c) as [i E]; [apply NDf| |].
    { unfold inequalities. apply filter_In. cbn [fst]. rewrite T. auto. }
    exists i. rewrite E. cbn [map snd fst]. rewrite T. reflexivity.
  - rewrite !(pick_none (equalities rows)) by (apply NE; congruence).
    destruct (pick_save (inequalities rows) n r c) as [i E]; [apply NDf| |].
    { unfold inequalities. apply filter_In. cbn [fst]. rewrite T. auto. }
    exists i. rewrite E. cbn [map snd fst]. rewrite T. reflexivity.
  - rewrite (pick_none (inequalities rows)) by (apply NI; congruence).
    assert (In (r, c) (equalities rows)) as He.
    { unfold equalities. apply filter_In. cbn [fst]. rewrite T. auto. }
    destruct (pick_save (equalities rows) (n + length (inequalities rows)) r c) as [i E]; [apply NDf|auto|].
    destruct (pick_save (equalities rows) (n + length (inequalities rows) + length (equalities rows)) r c) as [j E2]; [apply NDf|auto|].
    exists i, j. rewrite E, E2. reflexivity.
Qed.

Lemma deficit_row_value rows n x i :
  row_value (deficit_lhs rows n) x i == sumQ (fun p => d_coef p * x (d_id p)) (filter (d_at i) (deficit_rows rows n)).
Proof.
  unfold deficit_lhs. rewrite row_value_map. unfold d_at.
  assert (E : filter (fun a : nat * (crow * Q) * Q => Nat.eqb (l_con (let '(i0, (r, _), k) := a in LRow (cr_id r) i0 k)) i) (deficit_rows rows n)
     = filter (fun p => Nat.eqb (cr_id (d_row p)) i) (deficit_rows rows n)).
  { apply filter_ext. now intros [[j [r c]] k]. }
  rewrite E. apply sumQ_ext. now intros [[j [r c]] k].
Qed.

Lemma deficit_row_ids rows n : map d_id (deficit_rows rows n) = map df_id (deficit_variables rows n).
Proof. unfold deficit_variables. rewrite map_map. apply map_ext. now intros [[j [r c]] k]. Qed.

Lemma deficit_rows_NoDup rows n : NoDup (map d_id (deficit_rows rows n)).
Proof. rewrite deficit_row_ids, deficit_ids. apply seq_NoDup. Qed.

(** ** Rows with their costs *)

Lemma in_set_key r s : in_set r s = true <-> cr_key r = KSet s.
Proof.
  unfold in_set. destruct (cr_key r); try (split; discriminate);
    rewrite ?String.eqb_eq; split; congruence.
Qed.

Lemma costed_in v g r q : In (r, q) (costed v g) <-> In r g /\ cost_of v r q.
Proof.
  destruct v; cbn [costed cost_of].
  - rewrite in_map_iff. split.
    + intros [r' [E H]]. inversion E; subst. auto.
    + intros [H ->]. exists r. auto.
  - rewrite in_map_iff. split.
    + intros [[r' [s q']] [E H]]. cbn [fst snd] in E. inversion E; subst. apply in_merge in H.
      destruct H as [H1 [H2 H3]]. cbn [fst] in H3. apply in_set_key in H3. split; eauto.
    + intros [H [s [H1 H2]]]. exists (r, (s, q)). split; auto. apply in_merge. cbn [fst].
      repeat split; auto. now apply in_set_key.
  - cbn. tauto.
Qed.

Lemma costed_NoDup v g : once v -> NoDup (map cr_id g) -> NoDup (map (fun q => cr_id (fst q)) (costed v g)).
Proof.
  destruct v; cbn [costed once]; intros Ho ND.
  - rewrite map_map. cbn [fst]. exact ND.
  - rewrite map_map. cbn [fst]. unfold merge. induction g as [|r t' IH]; cbn [flat_map]; [constructor|].
    cbn [map] in ND. inversion ND as [|? ? N1 N2]; subst. rewrite map_app. apply NoDup_app_iff. split; [|split].
    + rewrite map_map. cbn [fst]. clear -Ho. 
      assert (L : (length (filter (fun s : string * Q => in_set r (fst s)) t) <= 1)%nat).
      { induction t as [|[s q] t IH]; cbn [filter]; [cbn; lia|]. cbn [map fst] in Ho. inversion Ho as [|? ? N1 N2]; subst.
        cbn [fst]. destruct (in_set r s) eqn:E; [|auto]. cbn [length].
        assert (filter (fun s0 : string * Q => in_set r (fst s0)) t = []) as ->; [|cbn; lia].
        apply in_set_key in E. clear IH Ho N2. induction t as [|[s' q'] t IH]; [reflexivity|].
        cbn [filter fst]. destruct (in_set r s') eqn:E'; [|apply IH; intros X; apply N1; now right].
        apply in_set_key in E'. exfalso. apply N1. cbn [map fst]. left. congruence. }
      destruct (filter _ t) as [|a [|b l]]; cbn in *; [constructor|repeat constructor; auto|lia].
    + now apply IH.
    + intros i H1 H2. apply in_map_iff in H1. destruct H1 as [a [<- H1]]. apply in_map_iff in H1. destruct H1 as [b [<- _]].
      cbn [fst] in H2. apply in_map_iff in H2. destruct H2 as [p [E H2]]. apply in_flat_map in H2.
      destruct H2 as [r' [H2 H3]]. apply in_map_iff in H3. destruct H3 as [s [<- _]]. cbn [fst] in E.
      apply N1. rewrite <- E. now apply in_map.
  - constructor.
Qed.

Lemma dconcat_NoDup {A} (f : A -> nat) k g (d : dict (list A)) : NoDup (map f (dconcat d)) -> In (k, g) d -> NoDup (map f g).
Proof.
  induction d as [|[k' g'] t IH]; intros ND H; [destruct H|]. change (dconcat ((k', g') :: t)) with (g' ++ dconcat t) in ND.
  rewrite map_app in ND. apply NoDup_app_iff in ND. destruct ND as [N1 [N2 _]]. destruct H as [H|H]; [|now apply IH].
  inversion H; subst. exact N1.
Qed.

Lemma group_NoDup m k g : wf m -> group m k = Some g -> NoDup (map cr_id g).
Proof.
  intros W G. pose proof (wf_rhs_NoDup m W) as ND. unfold all_rhs in ND. rewrite !map_app in ND.
  apply NoDup_app_iff in ND. destruct ND as [N1 [N2 _]]. apply NoDup_app_iff in N2. destruct N2 as [N2 _].
  unfold static_rrows in *. rewrite map_map in N1, N2. cbn [r_id] in N1, N2.
  unfold group in G. destruct (dget k (m_mrhs m)) as [g'|] eqn:E.
  - inversion G; subst. apply dget_in in E. now apply (dconcat_NoDup cr_id k g (m_mrhs m)).
  - apply dget_in in G. now apply (dconcat_NoDup cr_id k g (m_rhs m)).
Qed.

Lemma sumQ_key {A} (f : A -> Q) key (d : dict (list A)) l : NoDup (dkeys d) -> dget key d = Some l ->
  (forall k' l' a, In (k', l') d -> In a l' -> k' <> key -> f a == 0) -> sumQ f (dconcat d) == sumQ f l.
Proof.
  unfold dkeys. induction d as [|[k' l'] t IH]; intros ND D H; [discriminate|].
  cbn in ND, D. inversion ND as [|? ? N1 N2]; subst.
  change (dconcat ((k', l') :: t)) with (l' ++ dconcat t). rewrite sumQ_app.
  destruct (String.eqb key k') eqn:E.
  - apply String.eqb_eq in E. inversion D; subst. rewrite (sumQ_zero f (dconcat t)); [ring|].
    intros a Ha. apply in_dconcat in Ha. destruct Ha as [k2 [l2 [H1 H2]]]. apply (H k2 l2); auto; [now right|].
    intros ->. apply N1. change k' with (fst (k', l2)). now apply in_map.
  - apply String.eqb_neq in E. rewrite IH; auto; [|intros; eapply H; eauto; now right].
    rewrite (sumQ_zero f l'); [ring|]. intros a Ha. apply (H k' l'); auto. now left.
Qed.

(** Variables of the special ordered sets are not violations. *)
Lemma sos2_plain m s i : wf m -> In s (sos2_sets (rows_or_nil (m_weights m))) -> In i s -> ~ In i (def_ids m).
Proof.
  intros W H Hi. unfold sos2_sets in H. apply in_map_iff in H. destruct H as [k [<- _]].
  apply in_map_iff in Hi. destruct Hi as [w [<- Hi]]. apply sort_rows_in in Hi. apply filter_In in Hi. destruct Hi as [Hi _].
  destruct (wf_vars m W) as [V _]. unfold var_ids in V. intros Hd.
  apply NoDup_app_iff in V. destruct V as [_ [V _]]. apply NoDup_app_iff in V. destruct V as [_ [V _]].
  apply NoDup_app_iff in V. destruct V as [_ [V _]]. apply NoDup_app_iff in V. destruct V as [_ [_ V]].
  apply (V (wv_id w)); [now apply in_map|]. exact Hd.
Qed.
Lemma sos1_plain m s i : wf m -> In s (sos1_sets (rows_or_nil (m_inter m))) -> In i s -> ~ In i (def_ids m).
Proof.
  intros W H Hi. unfold sos1_sets in H. apply in_map_iff in H. destruct H as [k [<- _]].
  apply in_map_iff in Hi. destruct Hi as [w [<- Hi]]. apply filter_In in Hi. destruct Hi as [Hi _].
  apply filter_In in Hi. destruct Hi as [Hi _]. destruct (m_inter m) as [vs|] eqn:E; [|destruct Hi].
  now apply (inter_ids_lt m vs).
Qed.

Lemma sos2_ext x y s : (forall i, In i s -> x i == y i) -> sos2_ok x s -> sos2_ok y s.
Proof.
  intros E H i j a b L H1 H2 N1 N2. apply (H i j a b L H1 H2).
  - rewrite E; auto. now apply nth_error_In in H1.
  - rewrite E; auto. now apply nth_error_In in H2.
Qed.
Lemma sos1_ext x y s : (forall i, In i s -> x i == y i) -> sos1_ok x s -> sos1_ok y s.
Proof.
  intros E H i j a b L H1 H2 N1 N2. apply (H i j a b L H1 H2).
  - rewrite E; auto. now apply nth_error_In in H1.
  - rewrite E; auto. now apply nth_error_In in H2.
Qed.
