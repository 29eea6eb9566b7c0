(** What a feasible point of the assembled problem satisfies, row by row. *)

From Coq Require Import QArith String List Bool Arith Lia ZArith Permutation.
Import ListNotations.
From Verif Require Import PandasModel TablesModel VariableIdsModel MarketConstraintsModel
  UnitConstraintsModel RampModel FcasModel InterModel ElasticModel MarketModel SolverModel
  SpecLp PandasFacts SpecHistory SpecIds StepFacts InvariantFacts.
Open Scope string_scope.
Open Scope list_scope.

Lemma linear_sum ts x : linear ts x == sumQ (fun t => x (fst t) * snd t) ts.
Proof.
  induction ts as [|[v c] t IH]; cbn [linear]; [reflexivity|].
  rewrite sumQ_cons, IH. cbn. ring.
Qed.

(** Value of the rows of constraint i. *)
Definition row_value (rows : list lrow) (x : assignment) (i : nat) : Q :=
  sumQ (fun l => l_coef l * x (l_var l)) (filter (fun l => Nat.eqb (l_con l) i) rows).

Lemma row_value_app r1 r2 x i : row_value (r1 ++ r2) x i == row_value r1 x i + row_value r2 x i.
Proof. unfold row_value. rewrite filter_app. apply sumQ_app. Qed.

Lemma row_value_none rows x i : (forall l, In l rows -> l_con l <> i) -> row_value rows x i == 0.
Proof.
  intros H. unfold row_value. apply sumQ_zero. intros l Hl. apply filter_In in Hl.
  destruct Hl as [H1 H2]. apply Nat.eqb_eq in H2. now apply H in H1.
Qed.

Lemma row_value_nil x i : row_value [] x i == 0.
Proof. reflexivity. Qed.

Lemma row_value_flat {A} (g : A -> list lrow) l x i :
  row_value (flat_map g l) x i == sumQ (fun a => row_value (g a) x i) l.
Proof.
  induction l as [|a t IH]; cbn [flat_map]; [reflexivity|].
  rewrite row_value_app, sumQ_cons, IH. reflexivity.
Qed.

Lemma row_value_map {A} (g : A -> lrow) l x i :
  row_value (map g l) x i == sumQ (fun a => l_coef (g a) * x (l_var (g a))) (filter (fun a => Nat.eqb (l_con (g a)) i) l).
Proof.
  unfold row_value. induction l as [|a t IH]; cbn [map filter]; [reflexivity|].
  destruct (Nat.eqb (l_con (g a)) i); rewrite ?sumQ_cons, IH; reflexivity.
Qed.

Lemma lhs_terms_value rows x : linear (lhs_terms rows) x == sumQ (fun l => l_coef l * x (l_var l)) rows.
Proof.
  rewrite linear_sum. unfold lhs_terms.
  rewrite (groupby_sum_total Nat.eqb l_var l_coef x rows) by (intros; apply Nat.eqb_eq).
  apply sumQ_ext. intros; ring.
Qed.

Lemma build_cons_in vs rs rows ids cs : build_cons vs rs rows ids = Ok cs ->
  forall c, In c cs <-> exists i, In i ids /\ build_con vs rs rows i = Ok c.
Proof.
  revert cs. induction ids as [|i t IH]; intros cs H; cbn in H.
  - inversion H; subst. intros c. split; [intros []|intros [i [[] _]]].
  - destruct (build_con vs rs rows i) as [c0|e] eqn:E; [|discriminate].
    destruct (build_cons vs rs rows t) as [l|e] eqn:E2; [|discriminate]. inversion H; subst.
    intros c. cbn. rewrite (IH l eq_refl). split.
    + intros [<-|[j [Hj Ej]]]; [exists i; auto|exists j; auto].
    + intros [j [[<-|Hj] Ej]]; [left; congruence|right; exists j; auto].
Qed.

Lemma build_cons_all vs rs rows ids cs : build_cons vs rs rows ids = Ok cs ->
  forall i, In i ids -> exists c, build_con vs rs rows i = Ok c.
Proof.
  revert cs. induction ids as [|i t IH]; intros cs H j Hj; cbn in H; [destruct Hj|].
  destruct (build_con vs rs rows i) as [c0|e] eqn:E; [|discriminate].
  destruct (build_cons vs rs rows t) as [l|e] eqn:E2; [|discriminate].
  destruct Hj as [<-|Hj]; [eauto|]. now apply (IH l).
Qed.

Lemma con_ids_in rows i : In i (con_ids rows) <-> exists l, In l rows /\ l_con l = i.
Proof.
  unfold con_ids. rewrite sort_rows_in, keys_of_in_nat, in_map_iff. firstorder.
Qed.

Lemma find_rhs_in rs i r : find_rhs rs i = Some r -> In r rs /\ r_id r = i.
Proof.
  unfold find_rhs. intros H. apply find_some in H. destruct H as [H1 H2].
  apply in_rev in H1. apply Nat.eqb_eq in H2. auto.
Qed.

Lemma find_rhs_unique rs r : NoDup (map r_id rs) -> In r rs -> find_rhs rs (r_id r) = Some r.
Proof.
  intros ND H. destruct (find_rhs rs (r_id r)) as [r'|] eqn:E.
  - apply find_rhs_in in E. destruct E as [E1 E2]. f_equal.
    clear -ND H E1 E2. induction rs as [|a t IH]; [destruct H|].
    cbn in ND. inversion ND as [|? ? N1 N2]; subst. destruct H as [->|H], E1 as [->|E1]; auto.
    + exfalso. apply N1. rewrite <- E2. now apply in_map.
    + exfalso. apply N1. rewrite E2. now apply in_map.
  - unfold find_rhs in E. apply in_rev in H. eapply find_none in E; [|exact H].
    cbn in E. now rewrite Nat.eqb_refl in E.
Qed.

Lemma no_rhs_tables_nil m : no_rhs_tables m = true -> all_rhs m = [].
Proof.
  unfold no_rhs_tables, all_rhs. destruct (m_rhs m); [|discriminate]. destruct (m_mrhs m); [|discriminate].
  destruct (m_dyn m); [discriminate|]. reflexivity.
Qed.

(** The parts of a successfully built problem. *)
Lemma assemble_parts m p : assemble m = Ok p ->
  p_vars p = all_vars m /\ p_obj p = all_costs m
  /\ p_sos2 p = sos2_sets (rows_or_nil (m_weights m))
  /\ p_sos1 p = sos1_sets (rows_or_nil (m_inter m))
  /\ add_constraints m = Ok (p_cons p)
  /\ (forall c, In c (all_costs m) -> has_var (all_vars m) (fst c) = true)
  /\ (forall d, In d (rows_or_nil (m_dyn m)) -> has_var (all_vars m) (dy_var d) = true)
  /\ check_lhs m = None.
Proof.
  unfold assemble. destruct (check_lhs m); [discriminate|]. destruct (no_variable_tables m); [discriminate|].
  destruct (forallb _ (all_costs m)) eqn:E1; [|discriminate].
  destruct (forallb _ (rows_or_nil (m_dyn m))) eqn:E2; [|discriminate]. cbn.
  destruct (add_constraints m) eqn:E3; [|discriminate]. intros H; inversion H; subst; cbn.
  rewrite forallb_forall in E1, E2. repeat split; auto.
Qed.

(** The constraints of the problem are the right-hand-side rows that have a
    left-hand side. *)
Lemma cons_iff m cs x : NoDup (map r_id (all_rhs m)) -> add_constraints m = Ok cs ->
  ((forall c, In c cs -> con_holds x c) <->
   (forall r, In r (all_rhs m) -> (exists l, In l (all_lhs m) /\ l_con l = r_id r) ->
      relation (r_type r) (row_value (all_lhs m) x (r_id r)) (rhs_value (r_rhs r) x))).
Proof.
  intros ND. unfold add_constraints. destruct (no_rhs_tables m) eqn:E0.
  - intros H; inversion H; subst. rewrite (no_rhs_tables_nil _ E0). split; [intros _ r []|intros _ c []].
  - intros H. assert (B : build_cons (all_vars m) (all_rhs m) (all_lhs m) (con_ids (all_lhs m)) = Ok cs).
    { destruct (all_lhs m); [discriminate|exact H]. } clear H.
    pose proof (build_cons_in _ _ _ _ _ B) as I. pose proof (build_cons_all _ _ _ _ _ B) as A.
    assert (V : forall i c, build_con (all_vars m) (all_rhs m) (all_lhs m) i = Ok c ->
      exists r, In r (all_rhs m) /\ r_id r = i
        /\ (con_holds x c <-> relation (r_type r) (row_value (all_lhs m) x i) (rhs_value (r_rhs r) x))).
    { intros i c Hc. unfold build_con in Hc. destruct (forallb _ _); [|discriminate].
      destruct (find_rhs (all_rhs m) i) as [r|] eqn:E; [|discriminate].
      destruct (mem_str _ _); [|discriminate]. inversion Hc; subst c.
      apply find_rhs_in in E. exists r. split; [tauto|]. split; [tauto|].
      unfold con_holds, relation; cbn [pc_type pc_terms pc_rhs].
      rewrite lhs_terms_value. reflexivity. }
    split.
    + intros H r Hr Hl. assert (Hi : In (r_id r) (con_ids (all_lhs m))) by now apply con_ids_in.
      destruct (A _ Hi) as [c Hc]. destruct (V _ _ Hc) as [r' [Hr' [Ei Hiff]]].
      assert (r' = r). { pose proof (find_rhs_unique _ _ ND Hr). pose proof (find_rhs_unique _ _ ND Hr').
        rewrite Ei in H1. congruence. } subst r'.
      apply Hiff. apply H. apply I. eauto.
    + intros H c Hc. apply I in Hc. destruct Hc as [i [Hi Hc]]. destruct (V _ _ Hc) as [r [Hr [Ei Hiff]]].
      apply Hiff. subst i. apply H; auto. now apply con_ids_in.
Qed.

Lemma wf_rhs_NoDup m : wf m -> NoDup (map r_id (all_rhs m)).
Proof. intros W. rewrite rhs_ids_all. apply (wf_cons m W). Qed.

Lemma wf_vars_NoDup m : wf m -> NoDup (map pv_id (all_vars m)).
Proof. intros W. rewrite var_ids_all. apply (wf_vars m W). Qed.

(** Feasibility in terms of the market's tables. *)
Lemma feasible_iff m p x : wf m -> assemble m = Ok p ->
  (feasible p x <->
   (forall v, In v (all_vars m) -> in_bounds x v)
   /\ (forall r, In r (all_rhs m) -> (exists l, In l (all_lhs m) /\ l_con l = r_id r) ->
        relation (r_type r) (row_value (all_lhs m) x (r_id r)) (rhs_value (r_rhs r) x))
   /\ (forall s, In s (sos2_sets (rows_or_nil (m_weights m))) -> sos2_ok x s)
   /\ (forall s, In s (sos1_sets (rows_or_nil (m_inter m))) -> sos1_ok x s)).
Proof.
  intros W H. apply assemble_parts in H. destruct H as [E1 [E2 [E3 [E4 [E5 _]]]]].
  unfold feasible. rewrite E1, E3, E4, (cons_iff m _ x (wf_rhs_NoDup m W) E5). tauto.
Qed.

(** A constraint of the problem holds when its row does. *)
Lemma con_row m p x c r : wf m -> assemble m = Ok p -> In c (p_cons p) -> In r (all_rhs m) -> pc_id c = r_id r ->
  (con_holds x c <-> relation (r_type r) (row_value (all_lhs m) x (r_id r)) (rhs_value (r_rhs r) x)).
Proof.
  intros W H Hc Hr E. apply assemble_parts in H. destruct H as [_ [_ [_ [_ [A _]]]]].
  pose proof (wf_rhs_NoDup m W) as ND. unfold add_constraints in A. destruct (no_rhs_tables m) eqn:E0.
  - inversion A as [A']. rewrite <- A' in Hc. destruct Hc.
  - assert (B : build_cons (all_vars m) (all_rhs m) (all_lhs m) (con_ids (all_lhs m)) = Ok (p_cons p)).
    { destruct (all_lhs m); [discriminate|exact A]. }
    apply (build_cons_in _ _ _ _ _ B) in Hc. destruct Hc as [i [_ Hc]]. unfold build_con in Hc.
    destruct (forallb _ _); [|discriminate].
    destruct (find_rhs (all_rhs m) i) as [r'|] eqn:Ef; [|discriminate].
    destruct (mem_str _ _); [|discriminate]. inversion Hc; subst c. cbn [pc_id] in E. subst i.
    rewrite (find_rhs_unique _ _ ND Hr) in Ef. inversion Ef; subst r'.
    unfold con_holds, relation; cbn [pc_type pc_terms pc_rhs]. rewrite lhs_terms_value. reflexivity.
Qed.

Lemma feasible_row m p x r : wf m -> assemble m = Ok p -> feasible p x ->
  In r (all_rhs m) -> (exists l, In l (all_lhs m) /\ l_con l = r_id r) ->
  relation (r_type r) (row_value (all_lhs m) x (r_id r)) (rhs_value (r_rhs r) x).
Proof. intros W H F. apply (feasible_iff m p x W H) in F. apply F. Qed.

(** Left-hand side rows only mention existing variables, if there is any
    right-hand side. *)
Lemma lhs_vars m p l : assemble m = Ok p -> no_rhs_tables m = false -> In l (all_lhs m) ->
  has_var (all_vars m) (l_var l) = true /\ exists r, In r (all_rhs m) /\ r_id r = l_con l
    /\ mem_str (r_type r) ["<="; ">="; "="] = true.
Proof.
  intros H E0 Hl. apply assemble_parts in H. destruct H as [_ [_ [_ [_ [E5 _]]]]].
  unfold add_constraints in E5. rewrite E0 in E5.
  assert (B : build_cons (all_vars m) (all_rhs m) (all_lhs m) (con_ids (all_lhs m)) = Ok (p_cons p)).
  { destruct (all_lhs m); [discriminate|exact E5]. }
  assert (Hi : In (l_con l) (con_ids (all_lhs m))) by (apply con_ids_in; eauto).
  destruct (build_cons_all _ _ _ _ _ B _ Hi) as [c Hc]. unfold build_con in Hc.
  destruct (forallb _ _) eqn:F; [|discriminate].
  destruct (find_rhs (all_rhs m) (l_con l)) as [r|] eqn:E; [|discriminate].
  destruct (mem_str (r_type r) _) eqn:M; [|discriminate]. apply find_rhs_in in E. split.
  - rewrite forallb_forall in F.
    assert (K : In (l_var l) (map fst (lhs_terms (filter (fun r0 => Nat.eqb (l_con r0) (l_con l)) (all_lhs m))))).
    { unfold lhs_terms, groupby_sum. rewrite map_map. cbn [fst]. rewrite map_id. apply keys_of_in_nat.
      apply in_map. apply filter_In. split; auto. apply Nat.eqb_refl. }
    apply in_map_iff in K. destruct K as [t [Et Ht]]. rewrite <- Et. now apply F.
  - exists r. tauto.
Qed.

Lemma has_var_in vs i : has_var vs i = true <-> In i (map pv_id vs).
Proof.
  unfold has_var. rewrite existsb_exists, in_map_iff. split.
  - intros [v [H E]]. apply Nat.eqb_eq in E. eauto.
  - intros [v [E H]]. exists v. split; auto. now apply Nat.eqb_eq.
Qed.

(** ** Left-hand sides of mapped groups *)

(** Value contributed by the variables mapped to (unit, service, dispatch type). *)
Definition unit_term (vs : list uvrow) (x : assignment) (u s d : string) : Q :=
  sumQ (fun v => uv_coef v * x (uv_id v))
    (filter (fun v => String.eqb u (uv_unit v) && String.eqb s (uv_service v) && String.eqb d (uv_dt v)) vs).

Lemma unit_lhs_value cs vs x i :
  row_value (unit_lhs cs vs) x i
  == sumQ (fun c => uc_coef c * unit_term vs x (uc_unit c) (uc_service c) (uc_dt c))
          (filter (fun c => Nat.eqb (uc_con c) i) cs).
Proof.
  unfold unit_lhs, merge. rewrite flat_map_concat_map, concat_map, map_map, <- flat_map_concat_map.
  rewrite row_value_flat. rewrite sumQ_filter. apply sumQ_ext. intros c.
  rewrite map_map, row_value_map. cbn [l_con l_coef l_var].
  destruct (Nat.eqb (uc_con c) i).
  - unfold unit_term. rewrite <- sumQ_scale.
    set (F := filter _ vs). assert (E : filter (fun _ : uvrow => true) F = F) by (clear; induction F; cbn; congruence).
    rewrite E. apply sumQ_ext. intros; ring.
  - set (F := filter _ vs). assert (E : filter (fun _ : uvrow => false) F = []) by (clear; induction F; cbn; congruence).
    rewrite E. reflexivity.
Qed.

Definition region_term (vs : list rvrow) (x : assignment) (r s : string) : Q :=
  sumQ (fun v => rv_coef v * x (rv_id v))
    (filter (fun v => String.eqb r (rv_region v) && String.eqb s (rv_service v)) vs).

Lemma regional_lhs_value cs vs x i :
  row_value (regional_lhs cs vs) x i
  == sumQ (fun c => rc_coef c * region_term vs x (rc_region c) (rc_service c))
          (filter (fun c => Nat.eqb (rc_con c) i) cs).
Proof.
  unfold regional_lhs, merge. rewrite flat_map_concat_map, concat_map, map_map, <- flat_map_concat_map.
  rewrite row_value_flat. rewrite sumQ_filter. apply sumQ_ext. intros c.
  rewrite map_map, row_value_map. cbn [l_con l_coef l_var].
  destruct (Nat.eqb (rc_con c) i).
  - unfold region_term. rewrite <- sumQ_scale.
    set (F := filter _ vs). assert (E : filter (fun _ : rvrow => true) F = F) by (clear; induction F; cbn; congruence).
    rewrite E. apply sumQ_ext. intros; ring.
  - set (F := filter _ vs). assert (E : filter (fun _ : rvrow => false) F = []) by (clear; induction F; cbn; congruence).
    rewrite E. reflexivity.
Qed.

Lemma in_unit_lhs cs vs l : In l (unit_lhs cs vs) <->
  exists c v, In c cs /\ In v vs /\ uc_unit c = uv_unit v /\ uc_service c = uv_service v /\ uc_dt c = uv_dt v
    /\ l = LRow (uc_con c) (uv_id v) (uc_coef c * uv_coef v).
Proof.
  unfold unit_lhs. rewrite in_map_iff. split.
  - intros [[c v] [<- H]]. apply in_merge in H. destruct H as [H1 [H2 H3]].
    rewrite !andb_true_iff, !String.eqb_eq in H3. exists c, v. tauto.
  - intros [c [v [H1 [H2 [H3 [H4 [H5 ->]]]]]]]. exists (c, v). split; auto. apply in_merge.
    rewrite !andb_true_iff, !String.eqb_eq. auto.
Qed.

Lemma in_regional_lhs cs vs l : In l (regional_lhs cs vs) <->
  exists c v, In c cs /\ In v vs /\ rc_region c = rv_region v /\ rc_service c = rv_service v
    /\ l = LRow (rc_con c) (rv_id v) (rc_coef c * rv_coef v).
Proof.
  unfold regional_lhs. rewrite in_map_iff. split.
  - intros [[c v] [<- H]]. apply in_merge in H. destruct H as [H1 [H2 H3]].
    rewrite !andb_true_iff, !String.eqb_eq in H3. exists c, v. tauto.
  - intros [c [v [H1 [H2 [H3 [H4 ->]]]]]]. exists (c, v). split; auto. apply in_merge.
    rewrite !andb_true_iff, !String.eqb_eq. auto.
Qed.

Lemma generic_lhs_con m l : In l (generic_lhs m) -> exists r,
  In r (rows_or_nil (dget "generic" (m_rhs m)) ++ rows_or_nil (dget "fcas" (m_mrhs m))) /\ l_con l = cr_id r.
Proof.
  unfold generic_lhs. destruct (generic_ids m) as [ids|] eqn:E; [|intros []].
  assert (Ei : ids = rows_or_nil (dget "generic" (m_rhs m)) ++ rows_or_nil (dget "fcas" (m_mrhs m))).
  { unfold generic_ids in E. destruct (dget "generic" (m_rhs m)), (dget "fcas" (m_mrhs m)); inversion E; auto. }
  rewrite <- Ei. intros H. apply in_app_or in H. destruct H as [H|H]; [|apply in_app_or in H; destruct H as [H|H]].
  - destruct (m_gen_unit m); [|destruct H]. destruct (m_unit_bids m); [|destruct H].
    apply in_map_iff in H. destruct H as [[[g v] r] [<- H]]. apply in_merge in H. exists r. tauto.
  - destruct (m_gen_region m); [|destruct H]. destruct (m_reg_bids m); [|destruct H].
    apply in_map_iff in H. destruct H as [[[g v] r] [<- H]]. apply in_merge in H. exists r. tauto.
  - destruct (m_gen_inter m); [|destruct H]. destruct (m_inter m); [|destruct H].
    apply in_map_iff in H. destruct H as [[[g v] r] [<- H]]. apply in_merge in H. exists r. tauto.
Qed.
