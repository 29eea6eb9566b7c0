(** Making a group elastic: the new problem with zero violations is the old one. *)

From Coq Require Import QArith Qminmax Qabs Lqa String List Bool Arith Lia ZArith Permutation.
Import ListNotations.
From Verif Require Import PandasModel TablesModel VariableIdsModel MarketConstraintsModel
  UnitConstraintsModel RampModel FcasModel InterModel ElasticModel MarketModel SolverModel
  SpecLp PandasFacts SpecHistory SpecIds SpecDispatch SpecElastic StepFacts InvariantFacts OwnerFacts SolverFacts
  MeaningFacts LimitFacts TableFacts BidFacts JointRampFacts BalanceFacts DeficitFacts ElasticStateFacts ElasticFacts
  ElasticFacts2 ElasticTheoremFacts BuildFacts.
Open Scope string_scope.
Open Scope list_scope.

Lemma deficit_rows_type l n p : In p (deficit_rows l n) -> mem_str (cr_type (d_row p)) ["<="; ">="; "="] = true.
Proof.
  unfold deficit_rows. rewrite !in_app_iff, !in_map_iff. unfold mem_str. cbn [existsb]. unfold d_row.
  intros [[q [<- H]]|[[q [<- H]]|[q [<- H]]]]; cbn [fst snd]; apply in_save_index in H; destruct H as [_ H];
    apply filter_In in H; destruct H as [_ H]; cbn [fst snd] in H.
  - apply orb_true_iff in H. destruct H as [H|H]; apply String.eqb_eq in H; rewrite H; reflexivity.
  - apply String.eqb_eq in H; rewrite H; reflexivity.
  - apply String.eqb_eq in H; rewrite H; reflexivity.
Qed.

Lemma make_elastic_eq k v m m' g : group m k = Some g -> make_elastic k v m = (m', None) ->
  add_deficits k (costed v g) m = (m', None).
Proof.
  unfold make_elastic. change (group_rows k m) with (group m k). intros -> H. destruct v; [exact H| |].
  - apply guard_ok in H. destruct H as [_ H]. destruct (has_set_column k); [exact H|discriminate].
  - destruct g; [exact H|discriminate].
Qed.

Lemma added k rows m m' : rows <> [] -> add_deficits k rows m = (m', None) -> inelastic m k ->
  all_vars m' = all_vars m ++ deficit_pvars (deficit_variables rows (m_nv m))
  /\ all_costs m' = all_costs m ++ map (fun c => (co_var c, co_cost c)) (deficit_costs rows (m_nv m))
  /\ (exists a b, all_lhs m = a ++ b /\ all_lhs m' = a ++ deficit_lhs rows (m_nv m) ++ b)
  /\ all_rhs m' = all_rhs m /\ m_dyn m' = m_dyn m /\ m_weights m' = m_weights m /\ m_inter m' = m_inter m
  /\ check_lhs m' = check_lhs m /\ (no_variable_tables m = false -> no_variable_tables m' = false) /\ no_rhs_tables m' = no_rhs_tables m
  /\ violation_vars m' k = map df_id (deficit_variables rows (m_nv m))
  /\ group m' k = group m k.
Proof.
  intros Ne H [I1 [I2 I3]]. unfold add_deficits in H. destruct rows as [|r t]; [congruence|]. set (rows := r :: t) in *. clearbody rows.
  change (k ++ "_deficit")%string with (deficit_key k) in *.
  destruct (next_id _) as [n'|]; inversion H; subst m'. clear H.
  split. { unfold all_vars; fields. rewrite (dconcat_new _ _ _ I1). unfold deficit_pvars. now rewrite map_app, !app_assoc. }
  split. { unfold all_costs; fields. rewrite (dconcat_new _ _ _ I3). now rewrite map_app, !app_assoc. }
  split. { exists (dconcat (m_lhs m)). eexists. split; [reflexivity|]. unfold all_lhs, generic_lhs, generic_ids, regional_vars; fields.
    rewrite (dconcat_new _ _ _ I2). now rewrite <- app_assoc. }
  split; [reflexivity|]. split; [reflexivity|]. split; [reflexivity|]. split; [reflexivity|].
  split; [reflexivity|]. split.
  { unfold no_variable_tables; fields. destruct (m_bids m), (m_inter m), (m_loss m), (m_weights m); auto.
    destruct (m_deficits m) as [|[k' d'] tl]; cbn; [discriminate|]. intros _. destruct (String.eqb (deficit_key k) k'); reflexivity. }
  split; [reflexivity|]. split; [|reflexivity].
  unfold violation_vars; fields. change (k ++ "_deficit")%string with (deficit_key k). now rewrite dget_dset_same.
Qed.

Lemma elastic_step c k v m m' g p : reached c m -> group m k = Some g -> inelastic m k ->
  make_elastic k v m = (m', None) -> assemble m = Ok p ->
  exists p', assemble m' = Ok p'
    /\ (forall x, feasible p' x -> no_violation m' k x -> feasible p x)
    /\ (forall x, feasible p x -> no_violation m' k x -> all_present p g -> feasible p' x)
    /\ (forall x, no_violation m' k x -> objective p' x == objective p x)
    /\ (forall x, feasible p x -> all_present p g -> exists y, same_but m' k x y /\ no_violation m' k y /\ feasible p' y
          /\ objective p' y == objective p x).
Proof.
  intros R G I M A. destruct (reached_owned _ _ R) as [O _]. pose proof (make_elastic_wf k v m (proj1 O)) as W'.
  rewrite M in W'. cbn [fst] in W'. pose proof (proj1 O) as W.
  apply (make_elastic_eq k v m m' g G) in M.
  assert (Ext : forall x, exists y, same_but m' k x y /\ no_violation m' k y).
  { intros x. exists (fun i => if existsb (Nat.eqb i) (violation_vars m' k) then 0 else x i). split.
    - intros i Hi. destruct (existsb (Nat.eqb i) (violation_vars m' k)) eqn:E; [|reflexivity]. exfalso. apply Hi.
      apply existsb_exists in E. destruct E as [j [Hj Ej]]. apply Nat.eqb_eq in Ej. congruence.
    - intros i Hi. replace (existsb (Nat.eqb i) (violation_vars m' k)) with true; [reflexivity|].
      symmetry. apply existsb_exists. exists i. split; auto. apply Nat.eqb_refl. }
  destruct (costed v g) as [|r0 t0] eqn:Ec.
  { cbn in M. inversion M; subst m'. exists p. split; [exact A|]. split; [auto|]. split; [auto|]. split; [reflexivity|].
    intros x F _. assert (Z : violation_vars m k = []). { unfold violation_vars. destruct I as [-> _]. reflexivity. }
    exists x. split; [intros i _; reflexivity|]. split; [intros i Hi; rewrite Z in Hi; destruct Hi|]. split; [exact F|reflexivity]. }
  set (rows := r0 :: t0) in *. assert (Ne : rows <> []) by discriminate. clearbody rows.
  assert (Rin : forall q, In q rows -> In (fst q) g).
  { intros [r q] H. rewrite <- Ec in H. apply costed_in in H. apply H. }
  destruct (added k rows m m' Ne M I) as [B1 [B2 [[a [b [B3a B3]]] [B4 [B5 [B6 [B7 [B8 [B9 [B10 [B11 B12]]]]]]]]]]].
  destruct (assemble_rows m p A) as [R1 [R2 [R3 [R4 R5]]]].
  set (n := m_nv m) in *.
  assert (Vin : forall i, In i (map pv_id (all_vars m)) -> In i (map pv_id (all_vars m'))).
  { intros i Hi. rewrite B1, map_app. apply in_or_app. now left. }
  assert (Dv : map pv_id (deficit_pvars (deficit_variables rows n)) = violation_vars m' k).
  { rewrite B11. unfold deficit_pvars. rewrite map_map. reflexivity. }
  assert (Vn : forall i, In i (map pv_id (all_vars m)) -> ~ In i (violation_vars m' k)).
  { intros i Hi Hv. pose proof (wf_vars_NoDup m' W') as ND. rewrite B1, map_app, Dv in ND.
    apply (NoDup_app_disjoint _ _ i ND Hi Hv). }
  assert (Lin : forall l, In l (all_lhs m') <-> In l (all_lhs m) \/ In l (deficit_lhs rows n)).
  { intros l. rewrite B3, B3a, !in_app_iff. tauto. }
  assert (Drow : forall l, In l (deficit_lhs rows n) -> In (l_var l) (violation_vars m' k) /\ exists r, In r g /\ cr_id r = l_con l /\ mem_str (cr_type r) ["<="; ">="; "="] = true).
  { intros l Hl. unfold deficit_lhs in Hl. apply in_map_iff in Hl. destruct Hl as [q [E Hq]]. split.
    - rewrite B11, <- deficit_row_ids. apply in_map_iff. exists q. split; auto. rewrite <- E. now destruct q as [[u [w z]] s].
    - exists (d_row q). split; [apply (d_row_in g rows n Rin); auto|]. split; [rewrite <- E; now destruct q as [[u [w z]] s]|].
      now apply deficit_rows_type in Hq. }
  assert (Ok' : exists p', assemble m' = Ok p').
  { apply assemble_ok; auto.
    - now rewrite B8.
    - rewrite B2. intros t Ht. apply in_app_or in Ht. destruct Ht as [Ht|Ht]; [auto|].
      rewrite B1, map_app, Dv, B11. apply in_or_app. right. rewrite <- deficit_row_ids.
      apply in_map_iff in Ht. destruct Ht as [cc [<- Ht]]. unfold deficit_costs in Ht. apply in_map_iff in Ht.
      destruct Ht as [q [<- Ht]]. apply in_map_iff. exists q. split; auto. now destruct q as [[u [w z]] s].
    - rewrite B5. auto.
    - rewrite B10. destruct R5 as [R5|[R5 R6]]; [now left|right]. split.
      + intros E. destruct (all_lhs m) as [|l tl] eqn:El; [congruence|]. assert (H : In l (all_lhs m')) by (apply Lin; left; now left).
        rewrite E in H. destruct H.
      + intros l Hl. apply Lin in Hl. destruct Hl as [Hl|Hl].
        * destruct (R6 l Hl) as [X1 X2]. split; [auto|]. now rewrite B4.
        * destruct (Drow l Hl) as [X1 [r [X2 [X3 X4]]]]. split.
          -- rewrite B1, map_app, Dv. apply in_or_app. now right.
          -- rewrite B4. exists (RRow (cr_id r) (cr_type r) (RNum (cr_rhs r))). split; [now apply (group_static m k g)|]. auto. }
  destruct Ok' as [p' A']. exists p'. split; [exact A'|].
  assert (Rv : forall x i, no_violation m' k x -> row_value (all_lhs m') x i == row_value (all_lhs m) x i).
  { intros x i Z. rewrite B3, B3a, !row_value_app.
    rewrite (row_value_zero (deficit_lhs rows n) x i); [ring|]. intros l Hl _. apply Z. now apply Drow. }
  assert (T1 : forall x, feasible p' x -> no_violation m' k x -> feasible p x).
  { intros x F Z. apply (feasible_iff m p x W A). apply (feasible_iff m' p' x W' A') in F. destruct F as [F1 [F2 [F3 F4]]].
    rewrite B6 in F3. rewrite B7 in F4. rewrite B4 in F2. split; [|split; [|split]]; auto.
    - intros w Hw. apply F1. rewrite B1. apply in_or_app. now left.
    - intros r Hr [l [Hl El]]. specialize (F2 r Hr). apply (relation_same _ (row_value (all_lhs m') x (r_id r)) _ (rhs_value (r_rhs r) x) _).
      + symmetry. now apply Rv.
      + reflexivity.
      + apply F2. exists l. split; auto. apply Lin. now left. }
  assert (T2 : forall x, feasible p x -> no_violation m' k x -> all_present p g -> feasible p' x).
  { intros x F Z Pr. apply (feasible_iff m' p' x W' A'). pose proof F as F'. apply (feasible_iff m p x W A) in F. destruct F as [F1 [F2 [F3 F4]]].
    rewrite B6, B7, B4. split; [|split; [|split]]; auto.
    - rewrite B1. intros w Hw. apply in_app_or in Hw. destruct Hw as [Hw|Hw]; [auto|].
      assert (Hz : x (pv_id w) == 0) by (apply Z; rewrite <- Dv; now apply in_map).
      unfold deficit_pvars, deficit_variables in Hw. rewrite map_map in Hw. apply in_map_iff in Hw.
      destruct Hw as [[[u [w' z]] s] [<- _]]. cbn in *. unfold in_bounds. cbn. rewrite Hz. split; [lra|exact Logic.I].
    - intros r Hr [l [Hl El]]. apply (relation_same _ (row_value (all_lhs m) x (r_id r)) _ (rhs_value (r_rhs r) x) _).
      + now apply Rv.
      + reflexivity.
      + apply F2; auto. apply Lin in Hl. destruct Hl as [Hl|Hl]; [eauto|].
        destruct (Drow l Hl) as [_ [r1 [H1 [H2 _]]]]. destruct (Pr r1 H1) as [c1 [C1 C2]].
        assert (X : exists l1, In l1 (all_lhs m) /\ l_con l1 = pc_id c1).
        { clear -A C1. apply assemble_parts in A. destruct A as [_ [_ [_ [_ [A _]]]]]. unfold add_constraints in A.
          destruct (no_rhs_tables m); [inversion A as [A1]; rewrite <- A1 in C1; destruct C1|].
          assert (B : build_cons (all_vars m) (all_rhs m) (all_lhs m) (con_ids (all_lhs m)) = Ok (p_cons p)).
          { destruct (all_lhs m); [discriminate|exact A]. }
          apply (build_cons_in _ _ _ _ _ B) in C1. destruct C1 as [i [Hi Ei]]. apply con_ids_in in Hi.
          unfold build_con in Ei. destruct (forallb _ _); [|discriminate]. destruct (find_rhs _ _); [|discriminate].
          destruct (mem_str _ _); [|discriminate]. inversion Ei. exact Hi. }
        destruct X as [l1 [X1 X2]]. exists l1. split; auto. congruence. }
  assert (T3 : forall x, no_violation m' k x -> objective p' x == objective p x).
  { intros x Z. pose proof (assemble_parts m p A) as [_ [E2 _]]. pose proof (assemble_parts m' p' A') as [_ [E2' _]].
    unfold objective. rewrite E2, E2', B2, !linear_sum, sumQ_app.
    rewrite (sumQ_zero _ (map (fun c0 => (co_var c0, co_cost c0)) (deficit_costs rows n))); [ring|]. intros t Ht. rewrite (Z (fst t)); [ring|]. rewrite B11, <- deficit_row_ids.
    apply in_map_iff in Ht. destruct Ht as [cc [<- Ht]]. unfold deficit_costs in Ht. apply in_map_iff in Ht.
    destruct Ht as [q [<- Ht]]. apply in_map_iff. exists q. split; auto. now destruct q as [[u [w z]] s]. }
  split; [exact T1|]. split; [exact T2|]. split; [exact T3|].
  intros x F Pr. destruct (Ext x) as [y [Y1 Y2]]. exists y. split; [exact Y1|]. split; [exact Y2|].
  assert (E : forall i, In i (map pv_id (all_vars m)) -> x i == y i) by (intros i Hi; symmetry; apply Y1; auto).
  split.
  - apply T2; auto. now apply (feasible_ext m p x y W A E).
  - rewrite (T3 y Y2). symmetry. now apply (objective_ext m p x y A E).
Qed.
