(** Elastic constraints: the main lemmas. *)

From Coq Require Import QArith Qminmax Qabs Lqa String List Bool Arith Lia ZArith Permutation.
Import ListNotations.
From Verif Require Import PandasModel TablesModel VariableIdsModel MarketConstraintsModel
  UnitConstraintsModel RampModel FcasModel InterModel ElasticModel MarketModel SolverModel ReportsModel
  SpecLp PandasFacts SpecHistory SpecIds SpecDispatch SpecElastic StepFacts InvariantFacts OwnerFacts SolverFacts
  MeaningFacts LimitFacts TableFacts BidFacts JointRampFacts BalanceFacts DeficitFacts ElasticStateFacts ElasticFacts ElasticFacts2.
Open Scope string_scope.
Open Scope list_scope.

Lemma elastic_parts c k v m g : made_elastic c k v m -> once v -> group m k = Some g -> g <> [] ->
  (forall r, In r g -> exists q, cost_of v r q) ->
  owned m /\ tidy m /\ keyed m /\ (forall q, In q (costed v g) -> In (fst q) g)
  /\ NoDup (map (fun q => cr_id (fst q)) (costed v g))
  /\ exists n, dget (deficit_key k) (m_lhs m) = Some (deficit_lhs (costed v g) n)
    /\ dget (deficit_key k) (m_deficits m) = Some (deficit_variables (costed v g) n)
    /\ dget (deficit_key k) (m_obj_def m) = Some (deficit_costs (costed v g) n).
Proof.
  intros M Ov G Ne P. apply made_elastic_state in M. destruct M as [R E].
  destruct (reached_owned _ _ R) as [O _]. split; [exact O|]. split; [now apply (reached_tidy c)|].
  split; [now apply (reached_keyed c)|]. split.
  { intros [r q] H. apply costed_in in H. apply H. }
  split. { apply costed_NoDup; auto. destruct O as [W _]. now apply (group_NoDup m k g). }
  destruct (E g G) as [Z|X]; [|exact X]. exfalso. destruct g as [|r t]; [congruence|].
  destruct (P r) as [q Hq]; [now left|]. assert (H : In (r, q) (costed v (r :: t))) by (apply costed_in; split; [now left|auto]).
  rewrite Z in H. destruct H.
Qed.

Lemma relation_same ty a a' b b' : a' == a -> b' == b -> relation ty a b -> relation ty a' b'.
Proof. unfold relation. intros E F H. rewrite E, F. exact H. Qed.

Lemma of_group_dec g c : of_group g c \/ ~ of_group g c.
Proof.
  destruct (of_groupb g c) eqn:E.
  - left. unfold of_groupb in E. apply existsb_exists in E. destruct E as [r [H E]]. apply Nat.eqb_eq in E. exists r. auto.
  - right. intros [r [H E2]]. unfold of_groupb in E. assert (existsb (fun r => Nat.eqb (cr_id r) (pc_id c)) g = true); [|congruence].
    apply existsb_exists. exists r. split; auto. now apply Nat.eqb_eq.
Qed.

Lemma elastic_extends c k v m g x : made_elastic c k v m -> once v -> group m k = Some g -> g <> [] ->
  (forall r, In r g -> exists q, cost_of v r q) ->
  exists y, same_but m k x y /\ forall p, assemble m = Ok p ->
    (forall con, In con (p_cons p) -> of_group g con -> con_holds y con)
    /\ (forall w, In w (p_vars p) -> In (pv_id w) (violation_vars m k) -> in_bounds y w)
    /\ (feasible_but p m k g x -> feasible p y).
Proof.
  intros M Ov G Ne P. destruct (elastic_parts c k v m g M Ov G Ne P) as [O [T [K [Rin [ND [n [HL [HD HC]]]]]]]].
  set (rows := costed v g) in *.
  set (y := fixed m k rows n (fun _ => true) x).
  assert (Sm : same_but m k x y) by (now apply (fixed_same m k rows n HD)).
  exists y. split; [exact Sm|]. intros p A.
  assert (Hg : forall con, In con (p_cons p) -> of_group g con -> con_holds y con).
  { intros con Hc [r [Hr E]]. pose proof (group_static m k g r G Hr) as Ha.
    destruct (con_is m p con _ (proj1 O) A Hc Ha (eq_sym E)) as [_ Ht]. cbn [r_type] in Ht.
    apply (con_row m p y con _ (proj1 O) A Hc Ha (eq_sym E)). cbn [r_id r_type r_rhs rhs_value].
    destruct (P r Hr) as [q Hq].
    apply (fixed_row m k rows n O T ND HL HD (fun _ => true) x r q); auto. apply costed_in. auto. }
  pose proof (assemble_parts m p A) as [E1 [_ [E3 [E4 [E5 _]]]]].
  assert (Hb : forall w, In w (p_vars p) -> In (pv_id w) (violation_vars m k) -> in_bounds y w).
  { intros w Hw V. rewrite E1 in Hw. apply (fixed_bounds m k rows n O HD); auto. tauto. }
  split; [exact Hg|]. split; [exact Hb|]. intros [F1 [F2 [F3 F4]]]. split; [|split; [|split]].
  - intros w Hw. destruct (in_dec Nat.eq_dec (pv_id w) (violation_vars m k)) as [V|N]; [now apply Hb|].
    rewrite E1 in Hw. apply (fixed_bounds m k rows n O HD); auto. intros _. apply F1; auto. now rewrite E1.
  - intros con Hc. destruct (of_group_dec g con) as [I|N]; [now apply Hg|].
    destruct (con_rhs m p con (proj1 O) A Hc) as [r [Hr E]].
    specialize (F2 con Hc N). apply (con_row m p x con r (proj1 O) A Hc Hr (eq_sym E)) in F2.
    apply (con_row m p y con r (proj1 O) A Hc Hr (eq_sym E)).
    eapply relation_same; [| |exact F2]; [|now apply (fixed_rhs m k rows n T HD (fun _ => true) x r Hr)].
    apply (fixed_row_other m k rows n O T HL HD).
    intros q Hq _ Eq. apply N. exists (d_row q). split; [|congruence]. now apply (d_row_in g rows n Rin).
  - rewrite E3 in *. apply (fixed_sos m k rows n O HD). exact F3.
  - rewrite E4 in *. apply (fixed_sos m k rows n O HD). exact F4.
Qed.

(** At an optimum the violations are what they have to be. *)
Lemma elastic_minimal c k v m g p x con r : made_elastic c k v m -> once v -> group m k = Some g -> g <> [] ->
  (forall r, In r g -> exists q, cost_of v r q) -> (forall r q, In r g -> cost_of v r q -> 0 < q) ->
  assemble m = Ok p -> optimal p x -> In con (p_cons p) -> In r g -> cr_id r = pc_id con ->
  violation m k con x == missed (cr_type r) (own_value m k con x) (cr_rhs r).
Proof.
  intros M Ov G Ne P Pos A [F Opt] Hc Hr E.
  destruct (elastic_parts c k v m g M Ov G Ne P) as [O [T [K [Rin [ND [n [HL [HD HC]]]]]]]].
  set (rows := costed v g) in *. pose proof (assemble_parts m p A) as [E1 [E2 [E3 [E4 [E5 _]]]]].
  destruct (P r Hr) as [q Hq]. pose proof (Pos r q Hr Hq) as Hpos.
  assert (Hrow : In (r, q) rows) by (apply costed_in; auto).
  pose proof (group_static m k g r G Hr) as Ha.
  destruct (con_is m p con _ (proj1 O) A Hc Ha (eq_sym E)) as [_ Ht]. cbn [r_type] in Ht.
  destruct (violation_rows m k g rows n O T G HL HD p con r x A Hc Hr (eq_sym E)) as [Ev Eo].
  set (S := Nat.eqb (cr_id r)). set (y := fixed m k rows n S x).
  assert (Fy : feasible p y).
  { destruct F as [F1 [F2 [F3 F4]]]. split; [|split; [|split]].
    - intros w Hw. rewrite E1 in Hw. apply (fixed_bounds m k rows n O HD); auto.
      + right. right. apply F1. now rewrite E1.
      + intros _. apply F1. now rewrite E1.
    - intros con' Hc'. destruct (con_rhs m p con' (proj1 O) A Hc') as [r' [Hr' E']].
      apply (con_row m p y con' r' (proj1 O) A Hc' Hr' (eq_sym E')).
      destruct (Nat.eq_dec (r_id r') (cr_id r)) as [Ei|Ni].
      + assert (Er : r' = RRow (cr_id r) (cr_type r) (RNum (cr_rhs r))).
        { apply (NoDup_map_inj r_id (all_rhs m)); auto. now apply wf_rhs_NoDup; destruct O. }
        rewrite Er. cbn [r_type r_id r_rhs rhs_value].
        apply (fixed_row m k rows n O T ND HL HD S x r q); auto. unfold S. apply Nat.eqb_refl.
      + pose proof (F2 con' Hc') as H. apply (con_row m p x con' r' (proj1 O) A Hc' Hr' (eq_sym E')) in H.
        eapply relation_same; [| |exact H]; [|now apply (fixed_rhs m k rows n T HD S x r' Hr')].
        apply (fixed_row_other m k rows n O T HL HD).
        intros p' _ HS. unfold S in HS. apply Nat.eqb_eq in HS. congruence.
    - rewrite E3 in *. apply (fixed_sos m k rows n O HD). exact F3.
    - rewrite E4 in *. apply (fixed_sos m k rows n O HD). exact F4. }
  pose proof (Opt y Fy) as Le. unfold objective in Le. rewrite E2 in Le.
  pose proof (cost_change m k rows n T HD HC x y (fixed_same m k rows n HD S x)) as Ch.
  assert (Ch2 : sumQ (fun p0 => d_cost p0 * (y (d_id p0) - x (d_id p0))) (deficit_rows rows n)
     == sumQ (fun p0 => d_cost p0 * (canon m k x p0 - x (d_id p0))) (filter (d_at (cr_id r)) (deficit_rows rows n))).
  { rewrite sumQ_filter. apply sumQ_ext_in. intros p0 Hp0. unfold d_at. destruct (Nat.eqb (cr_id (d_row p0)) (cr_id r)) eqn:Ei.
    - apply Nat.eqb_eq in Ei. unfold y. rewrite fixed_in; [reflexivity|auto|]. unfold S. apply Nat.eqb_eq. auto.
    - unfold y. rewrite fixed_out; [ring|]. intros q0 Hq0 HS Eq. unfold S in HS. apply Nat.eqb_eq in HS.
      rewrite (d_inj rows n q0 p0 Hq0 Hp0 Eq) in HS. rewrite HS, Nat.eqb_refl in Ei. discriminate. }
  rewrite Ch2 in Ch. clear Ch2.
  assert (Nn : forall p0, In p0 (deficit_rows rows n) -> 0 <= x (d_id p0)).
  { intros p0 Hp0. destruct F as [F1 _]. rewrite E1 in F1. apply (F1 _ (viol_has m k rows n HD p0 Hp0)). }
  assert (Fr : relation (cr_type r) (row_value (all_lhs m) x (cr_id r)) (cr_rhs r)).
  { destruct F as [_ [F2 _]]. specialize (F2 con Hc). now apply (con_row m p x con _ (proj1 O) A Hc Ha (eq_sym E)) in F2. }
  pose proof (relation_ext (cr_type r) _ _ (cr_rhs r) (elastic_row m k rows n O T HL HD x (cr_id r)) Fr) as Fr'. clear Fr.
  assert (Em : missed (cr_type r) (own_value m k con x) (cr_rhs r) == missed (cr_type r) (own_row m k x (cr_id r)) (cr_rhs r)).
  { unfold missed. destruct (String.eqb _ _); [|destruct (String.eqb _ _)]; rewrite Eo; reflexivity. }
  rewrite Ev, Em. clear Ev Em Eo.
  destruct (deficit_pick rows n r q ND Hrow) as [P1 [P2 P3]].
  set (a := own_row m k x (cr_id r)) in *. unfold missed, relation in *.
  assert (Cn : forall i z, canon m k x ((i, (r, q)), z) = Qmax 0 (z * (cr_rhs r - a))) by reflexivity.
  cbn in Ht. rewrite !orb_true_iff, !String.eqb_eq in Ht.
  destruct Ht as [Ht|[Ht|[Ht|Ht]]]; try discriminate.
  - destruct (P2 Ht) as [i Ei].
    assert (Hi : 0 <= x i).
    { apply (Nn ((i, (r, q)), -(1))). assert (H : In ((i, (r, q)), -(1)) (filter (d_at (cr_id r)) (deficit_rows rows n)))
        by (rewrite Ei; now left). now apply filter_In in H. }
    rewrite Ei in *. unfold sumQ in *. cbn [map qsum fold_right d_coef d_id d_cost snd fst] in *. rewrite Cn in Ch.
    rewrite Ht in *. cbn. destruct Fr' as [[_ Fr]|[[Z _]|[Z _]]]; try discriminate.
    assert (Q1 : 0 <= q * (Qmax 0 (-(1) * (cr_rhs r - a)) - x i)) by lra.
    assert (Q2 : 0 <= Qmax 0 (-(1) * (cr_rhs r - a)) - x i) by nra.
    destruct (Q.max_spec 0 (-(1) * (cr_rhs r - a))) as [[M1 M2]|[M1 M2]]; rewrite M2 in Q2;
      destruct (Q.max_spec 0 (a - cr_rhs r)) as [[M3 M4]|[M3 M4]]; rewrite M4; lra.
  - destruct (P1 Ht) as [i Ei].
    assert (Hi : 0 <= x i).
    { apply (Nn ((i, (r, q)), 1)). assert (H : In ((i, (r, q)), 1) (filter (d_at (cr_id r)) (deficit_rows rows n)))
        by (rewrite Ei; now left). now apply filter_In in H. }
    rewrite Ei in *. unfold sumQ in *. cbn [map qsum fold_right d_coef d_id d_cost snd fst] in *. rewrite Cn in Ch.
    rewrite Ht in *. cbn. destruct Fr' as [[Z _]|[[_ Fr]|[Z _]]]; try discriminate.
    assert (Q1 : 0 <= q * (Qmax 0 (1 * (cr_rhs r - a)) - x i)) by lra.
    assert (Q2 : 0 <= Qmax 0 (1 * (cr_rhs r - a)) - x i) by nra.
    destruct (Q.max_spec 0 (1 * (cr_rhs r - a))) as [[M1 M2]|[M1 M2]]; rewrite M2 in Q2;
      destruct (Q.max_spec 0 (cr_rhs r - a)) as [[M3 M4]|[M3 M4]]; rewrite M4; lra.
  - destruct (P3 Ht) as [i [j Ei]].
    assert (Hi : 0 <= x i).
    { apply (Nn ((i, (r, q)), -(1))). assert (H : In ((i, (r, q)), -(1)) (filter (d_at (cr_id r)) (deficit_rows rows n)))
        by (rewrite Ei; now left). now apply filter_In in H. }
    assert (Hj : 0 <= x j).
    { apply (Nn ((j, (r, q)), 1)). assert (H : In ((j, (r, q)), 1) (filter (d_at (cr_id r)) (deficit_rows rows n)))
        by (rewrite Ei; right; now left). now apply filter_In in H. }
    rewrite Ei in *. unfold sumQ in *. cbn [map qsum fold_right d_coef d_id d_cost snd fst] in *. rewrite !Cn in Ch.
    rewrite Ht in *. cbn. destruct Fr' as [[Z _]|[[Z _]|[_ Fr]]]; try discriminate.
    assert (Q1 : 0 <= q * (Qmax 0 (-(1) * (cr_rhs r - a)) + Qmax 0 (1 * (cr_rhs r - a)) - (x i + x j))) by lra.
    assert (Q2 : 0 <= Qmax 0 (-(1) * (cr_rhs r - a)) + Qmax 0 (1 * (cr_rhs r - a)) - (x i + x j)) by nra.
    destruct (Qlt_le_dec (a - cr_rhs r) 0) as [Lt|Ge].
    + rewrite (Qabs_neg (a - cr_rhs r)) by lra.
      destruct (Q.max_spec 0 (-(1) * (cr_rhs r - a))) as [[M1 M2]|[M1 M2]]; rewrite M2 in Q2;
      destruct (Q.max_spec 0 (1 * (cr_rhs r - a))) as [[M3 M4]|[M3 M4]]; rewrite M4 in Q2; lra.
    + rewrite (Qabs_pos (a - cr_rhs r)) by lra.
      destruct (Q.max_spec 0 (-(1) * (cr_rhs r - a))) as [[M1 M2]|[M1 M2]]; rewrite M2 in Q2;
      destruct (Q.max_spec 0 (1 * (cr_rhs r - a))) as [[M3 M4]|[M3 M4]]; rewrite M4 in Q2; lra.
Qed.

(** The reported degree is the sum of the violations. *)
Lemma cons_ids_NoDup m p : assemble m = Ok p -> NoDup (map pc_id (p_cons p)).
Proof.
  intros A. apply assemble_parts in A. destruct A as [_ [_ [_ [_ [A _]]]]].
  unfold add_constraints in A. destruct (no_rhs_tables m); [inversion A; constructor|].
  assert (B : build_cons (all_vars m) (all_rhs m) (all_lhs m) (con_ids (all_lhs m)) = Ok (p_cons p)).
  { destruct (all_lhs m); [discriminate|exact A]. }
  assert (E : map pc_id (p_cons p) = con_ids (all_lhs m)).
  { revert B. generalize (con_ids (all_lhs m)). generalize (p_cons p). intros cs ids. revert cs.
    induction ids as [|i t IH]; intros cs B; cbn in B; [inversion B; reflexivity|].
    destruct (build_con _ _ _ i) as [c0|] eqn:Ec; [|discriminate]. destruct (build_cons _ _ _ t) as [l|]; [|discriminate].
    inversion B; subst. cbn [map]. f_equal; [|now apply IH]. unfold build_con in Ec.
    destruct (forallb _ _); [|discriminate]. destruct (find_rhs _ _); [|discriminate].
    destruct (mem_str _ _); [|discriminate]. now inversion Ec. }
  rewrite E. unfold con_ids. eapply Permutation_NoDup; [apply sort_rows_perm|]. apply keys_of_NoDup_nat.
Qed.

Lemma lhs_con m p l : assemble m = Ok p -> In l (all_lhs m) -> (exists r, In r (all_rhs m)) ->
  exists c, In c (p_cons p) /\ pc_id c = l_con l.
Proof.
  intros A Hl [r0 Hr0]. apply assemble_parts in A. destruct A as [_ [_ [_ [_ [A _]]]]].
  unfold add_constraints in A. destruct (no_rhs_tables m) eqn:E0.
  { apply no_rhs_tables_nil in E0. rewrite E0 in Hr0. destruct Hr0. }
  assert (B : build_cons (all_vars m) (all_rhs m) (all_lhs m) (con_ids (all_lhs m)) = Ok (p_cons p)).
  { destruct (all_lhs m); [discriminate|exact A]. }
  assert (Hi : In (l_con l) (con_ids (all_lhs m))) by (apply con_ids_in; eauto).
  destruct (build_cons_all _ _ _ _ _ B _ Hi) as [c Ec]. exists c. split.
  - apply (build_cons_in _ _ _ _ _ B). eauto.
  - unfold build_con in Ec. destruct (forallb _ _); [|discriminate]. destruct (find_rhs _ _); [|discriminate].
    destruct (mem_str _ _); [|discriminate]. now inversion Ec.
Qed.

Lemma elastic_degree c k v m g p x : made_elastic c k v m -> once v -> group m k = Some g -> g <> [] ->
  (forall r, In r g -> exists q, cost_of v r q) -> assemble m = Ok p ->
  violation_degree k m x == qsum (map (fun con => violation m k con x) (filter (of_groupb g) (p_cons p))).
Proof.
  intros M Ov G Ne P A.
  destruct (elastic_parts c k v m g M Ov G Ne P) as [O [T [K [Rin [ND [n [HL [HD HC]]]]]]]].
  set (rows := costed v g) in *. unfold violation_degree. rewrite HD.
  change (qsum (map ?f ?l)) with (sumQ f l).
  assert (E1 : sumQ (fun d => x (df_id d)) (deficit_variables rows n) == sumQ (fun q => x (d_id q)) (deficit_rows rows n)).
  { rewrite <- (sumQ_map x d_id), deficit_row_ids, sumQ_map. reflexivity. }
  rewrite E1.
  assert (E2 : sumQ (fun con => violation m k con x) (filter (of_groupb g) (p_cons p))
     == sumQ (fun con => sumQ (fun q => if d_at (pc_id con) q then x (d_id q) else 0) (deficit_rows rows n)) (filter (of_groupb g) (p_cons p))).
  { apply sumQ_ext_in. intros con Hc. apply filter_In in Hc. destruct Hc as [Hc Hg]. unfold of_groupb in Hg.
    apply existsb_exists in Hg. destruct Hg as [r [Hr E]]. apply Nat.eqb_eq in E.
    destruct (violation_rows m k g rows n O T G HL HD p con r x A Hc Hr (eq_sym E)) as [Ev _].
    rewrite Ev, sumQ_filter, E. reflexivity. }
  rewrite E2, sumQ_swap. apply sumQ_ext_in. intros q Hq.
  destruct (lhs_con m p _ A (d_lhs m k rows n HL q Hq)) as [con [Hc Ec]].
  { destruct g as [|r t] eqn:Eg; [congruence|]. eexists. apply (group_static m k g r); [subst; exact G|subst; now left]. }
  cbn [l_con] in Ec. symmetry.
  apply (sumQ_pick (fun _ => x (d_id q)) (fun con => d_at (pc_id con) q) con).
  - apply filter_In. split; auto. unfold of_groupb. apply existsb_exists. exists (d_row q).
    split; [now apply (d_row_in g rows n Rin)|]. apply Nat.eqb_eq. auto.
  - unfold d_at. apply Nat.eqb_eq. auto.
  - intros con' Hc' E'. apply filter_In in Hc'. unfold d_at in E'. apply Nat.eqb_eq in E'.
    apply (NoDup_map_inj pc_id (p_cons p)); [now apply (cons_ids_NoDup m)|tauto|auto|congruence].
  - apply NoDup_filter. apply (NoDup_map_inv pc_id). now apply (cons_ids_NoDup m).
Qed.
