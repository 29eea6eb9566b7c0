(** The over-constrained re-run. *)

From Coq Require Import QArith Qminmax Qabs Lqa String List Bool Arith Lia ZArith Permutation.
Import ListNotations.
From Verif Require Import PandasModel TablesModel VariableIdsModel MarketConstraintsModel
  UnitConstraintsModel RampModel FcasModel InterModel ElasticModel MarketModel SolverModel ReportsModel PricingModel
  SpecLp PandasFacts SpecHistory SpecIds SpecDispatch SpecElastic SpecNetwork SpecPricing StepFacts InvariantFacts OwnerFacts SolverFacts
  MeaningFacts LimitFacts TableFacts BidFacts JointRampFacts BalanceFacts DeficitFacts ElasticStateFacts ElasticFacts ElasticFacts2
  ElasticTheoremFacts.
Open Scope string_scope.
Open Scope list_scope.

Definition drows (m : market) (k : string) : list lrow := rows_or_nil (dget (deficit_key k) (m_lhs m)).
Definition dvars (m : market) (k : string) : list defvar := rows_or_nil (dget (deficit_key k) (m_deficits m)).

Lemma large_abs q : large q = true <-> (1 # 10000) < Qabs q.
Proof.
  unfold large. rewrite orb_true_iff, !negb_true_iff. split.
  - intros [H|H]; apply Qnot_le_lt; intros L.
    + assert (Qle_bool q (1 # 10000) = true); [|congruence]. apply Qle_bool_iff. eapply Qle_trans; [apply Qle_Qabs|exact L].
    + assert (Qle_bool (-(1) # 10000) q = true); [|congruence]. apply Qle_bool_iff.
      apply Qabs_Qle_condition in L. destruct L as [L _]. exact L.
  - intros H. destruct (Qle_bool q (1 # 10000)) eqn:A; [|now left]. destruct (Qle_bool (-(1) # 10000) q) eqn:B; [|now right].
    exfalso. apply Qle_bool_iff in A, B. apply (Qlt_not_le _ _ H). apply Qabs_Qle_condition. split; [exact B|exact A].
Qed.

Lemma violated_relaxed m x k : In k (violated_groups m x) <-> relaxed m x k.
Proof.
  unfold violated_groups, relaxed. rewrite filter_In. cbn [In]. unfold group_violated, violation_vars.
  change (k ++ "_deficit")%string with (deficit_key k). split.
  - intros [H E]. split; [intuition|]. destruct (dget (deficit_key k) (m_deficits m)) as [ds|]; [|discriminate].
    apply existsb_exists in E. destruct E as [d [Hd E]]. exists (df_id d). split; [now apply in_map|]. now apply large_abs.
  - intros [H [i [Hi E]]]. split; [intuition|]. destruct (dget (deficit_key k) (m_deficits m)) as [ds|]; [|destruct Hi].
    cbn [rows_or_nil] in Hi. apply in_map_iff in Hi. destruct Hi as [d [<- Hd]]. apply existsb_exists. exists d. split; auto. now apply large_abs.
Qed.

Lemma violated_NoDup m x : NoDup (violated_groups m x).
Proof. unfold violated_groups. apply NoDup_filter. repeat (constructor; [cbn; intuition discriminate|]). constructor. Qed.

Section Relax.
Variables (c : config) (m : market) (x : assignment).
Variable ks : list string.
Hypothesis NDk : NoDup ks.
Hypothesis El : forall k, In k ks -> exists g, all_elastic c k m g.

Lemma parts k : In k ks -> exists g v n, group m k = Some g /\ g <> [] /\ owned m /\ tidy m /\ keyed m
  /\ (forall r, In r g -> exists q, In (r, q) (costed v g))
  /\ (forall q, In q (costed v g) -> In (fst q) g) /\ NoDup (map (fun q => cr_id (fst q)) (costed v g))
  /\ dget (deficit_key k) (m_lhs m) = Some (deficit_lhs (costed v g) n)
  /\ dget (deficit_key k) (m_deficits m) = Some (deficit_variables (costed v g) n).
Proof.
  intros Hk. destruct (El k Hk) as [g [v [M [Ov [G [Ne P]]]]]].
  destruct (elastic_parts c k v m g M Ov G Ne P) as [O [T [K [Rin [ND [n [HL [HD HC]]]]]]]].
  exists g, v, n. repeat match goal with |- _ /\ _ => split end; auto. intros r Hr. destruct (P r Hr) as [q Hq]. exists q. apply costed_in. auto.
Qed.

(** Rows and variables of a group belong together. *)
Lemma row_var k l : In k ks -> In l (drows m k) -> In (l_var l) (map df_id (dvars m k)).
Proof.
  intros Hk Hl. destruct (parts k Hk) as [g [v [n [G [Ne [O [T [K [P [Rin [ND [HL HD]]]]]]]]]]]].
  unfold drows, dvars in *. rewrite HL in Hl. rewrite HD. cbn [rows_or_nil] in *.
  rewrite <- deficit_row_ids. unfold deficit_lhs in Hl. apply in_map_iff in Hl. destruct Hl as [[[i [r q]] z] [<- Hl]].
  cbn [l_var]. change i with (d_id ((i, (r, q)), z)). now apply in_map.
Qed.
Lemma var_row k d : In k ks -> In d (dvars m k) -> exists l, In l (drows m k) /\ l_var l = df_id d.
Proof.
  intros Hk Hd. destruct (parts k Hk) as [g [v [n [G [Ne [O [T [K [P [Rin [ND [HL HD]]]]]]]]]]]].
  unfold drows, dvars in *. rewrite HL. rewrite HD in Hd. cbn [rows_or_nil] in *.
  unfold deficit_variables in Hd. apply in_map_iff in Hd. destruct Hd as [[[i [r q]] z] [<- Hd]].
  exists (LRow (cr_id r) i z). split; auto. unfold deficit_lhs. apply in_map_iff. exists ((i, (r, q)), z). auto.
Qed.
Lemma dvars_viol k : violation_vars m k = map df_id (dvars m k).
Proof. reflexivity. Qed.

Lemma groups_apart k1 k2 i : In k1 ks -> In k2 ks -> In i (violation_vars m k1) -> In i (violation_vars m k2) -> k1 = k2.
Proof.
  intros H1 H2 I1 I2. rewrite dvars_viol in I1, I2. apply in_map_iff in I1, I2. destruct I1 as [d1 [E1 D1]], I2 as [d2 [E2 D2]].
  destruct (var_row k1 d1 H1 D1) as [l [Hl Ev]].
  destruct (parts k1 H1) as [g [v [n [G [Ne [O [T [K [P [Rin [ND [HL HD]]]]]]]]]]]].
  destruct (parts k2 H2) as [g' [v' [n' [_ [_ [_ [_ [_ [_ [_ [_ [HL' HD']]]]]]]]]]]].
  unfold drows, dvars in *. rewrite HL in Hl. rewrite HD' in D2. cbn [rows_or_nil] in *.
  apply dget_in in HL, HD'. apply deficit_key_inj.
  exact (td_own m T _ _ d2 _ _ l HD' D2 HL Hl (eq_trans Ev (eq_trans E1 (eq_sym E2)))).
Qed.

Lemma dvars_NoDup : NoDup (flat_map (dvars m) ks).
Proof.
  apply (NoDup_map_inv df_id). pose proof parts as Pa0. pose proof groups_apart as Ap0. revert NDk El Pa0 Ap0.
  induction ks as [|k t IH]; intros N E Pa Ap; [constructor|].
  cbn [flat_map]. rewrite map_app. inversion N as [|? ? N1 N2]; subst. apply NoDup_app_iff. split; [|split].
  - destruct (Pa k (or_introl eq_refl)) as [g [v [n [_ [_ [_ [_ [_ [_ [_ [_ [_ HD]]]]]]]]]]]]. unfold dvars. rewrite HD. cbn [rows_or_nil].
    rewrite deficit_ids. apply seq_NoDup.
  - apply IH; auto.
    + intros k' Hk'. apply E. now right.
    + intros k' Hk'. apply Pa. now right.
    + intros k1 k2 i H1 H2. apply Ap; now right.
  - intros i H1 H2. apply in_map_iff in H2. destruct H2 as [d [Ed Hd]]. apply in_flat_map in Hd. destruct Hd as [k' [Hk' Hd]].
    apply N1. rewrite (Ap k k' i); auto; [now left|now right|]. rewrite dvars_viol, <- Ed. now apply in_map.
Qed.

(** The sum of the adjusters of a constraint. *)
Definition pulled (i : nat) (k : string) : Q :=
  sumQ (fun l => if Qeq_bool (x (l_var l)) 0 then 0 else l_coef l * (x (l_var l) + (1 # 100)))
    (filter (fun l => Nat.eqb (l_con l) i) (drows m k)).

Lemma adjuster_sum i : qsum (map snd (filter (fun a : nat * Q => Nat.eqb (fst a) i)
   (map (fun p => let '(d, l) := p in (l_con l, (x (df_id d) + (1 # 100)) * l_coef l * -(1)))
    (merge (fun d l => Nat.eqb (df_id d) (l_var l))
       (filter (fun d => negb (Qeq_bool (x (df_id d)) 0)) (flat_map (dvars m) ks)) (flat_map (drows m) ks)))))
  == - sumQ (pulled i) ks.
Proof.
  change (qsum (map snd ?l)) with (sumQ (fun a : nat * Q => snd a) l). rewrite sumQ_filter, sumQ_map.
  set (h := fun p : defvar * lrow => if Nat.eqb (l_con (snd p)) i then (x (df_id (fst p)) + (1 # 100)) * l_coef (snd p) * -(1) else 0).
  rewrite (sumQ_ext _ h) by (intros [d l]; reflexivity).
  rewrite sumQ_merge, sumQ_filter.
  set (H := fun d l => if negb (Qeq_bool (x (df_id d)) 0) then if Nat.eqb (df_id d) (l_var l) then h (d, l) else 0 else 0).
  rewrite (sumQ_ext _ (fun d => sumQ (H d) (flat_map (drows m) ks))).
  2:{ intros d. unfold H. destruct (negb _); [|symmetry; apply sumQ_zero; reflexivity]. rewrite sumQ_filter. reflexivity. }
  rewrite sumQ_swap, sumQ_flat_map.
  setoid_replace (- sumQ (pulled i) ks) with (sumQ (fun k => -(1) * pulled i k) ks) by (rewrite sumQ_scale; ring).
  apply sumQ_ext_in. intros k Hk. unfold pulled. rewrite <- sumQ_scale, sumQ_filter. apply sumQ_ext_in. intros l Hl.
  pose proof (row_var k l Hk Hl) as Hv. apply in_map_iff in Hv. destruct Hv as [d [Ed Hd]].
  rewrite (sumQ_ext _ (fun d' => if Nat.eqb (df_id d') (l_var l) then (if Qeq_bool (x (df_id d')) 0 then 0 else h (d', l)) else 0)).
  2:{ intros d0. unfold H. destruct (Nat.eqb (df_id d0) (l_var l)); destruct (Qeq_bool (x (df_id d0)) 0); reflexivity. }
  rewrite (sumQ_pick (fun d' => if Qeq_bool (x (df_id d')) 0 then 0 else h (d', l)) (fun d' => Nat.eqb (df_id d') (l_var l)) d).
  - unfold h. cbn [fst snd]. rewrite Ed. destruct (Nat.eqb (l_con l) i); destruct (Qeq_bool (x (l_var l)) 0); ring.
  - apply in_flat_map. eauto.
  - now apply Nat.eqb_eq.
  - intros d' Hd' E'. apply Nat.eqb_eq in E'. apply in_flat_map in Hd'. destruct Hd' as [k' [Hk' Hd']].
    assert (k' = k). { apply (groups_apart k' k (l_var l)); auto; rewrite dvars_viol; [rewrite <- E'|rewrite <- Ed]; now apply in_map. }
    subst k'. destruct (parts k Hk) as [g [v [n [_ [_ [_ [_ [_ [_ [_ [_ [_ HD]]]]]]]]]]]]. unfold dvars in Hd, Hd'. rewrite HD in Hd, Hd'.
    cbn [rows_or_nil] in Hd, Hd'. apply (NoDup_map_inj df_id (deficit_variables (costed v g) n)); auto; [|congruence].
    rewrite deficit_ids. apply seq_NoDup.
  - apply dvars_NoDup.
Qed.

End Relax.

(** Taking the violations of the groups out. *)
Lemma rows_without c m ks : NoDup ks -> (forall k, In k ks -> exists g, all_elastic c k m g) ->
  forall x y i, (forall k j, In k ks -> In j (violation_vars m k) -> y j == 0) ->
    (forall j, (forall k, In k ks -> ~ In j (violation_vars m k)) -> y j == x j) ->
  row_value (all_lhs m) x i == row_value (all_lhs m) y i + sumQ (fun k => row_value (drows m k) x i) ks.
Proof.
  intros ND El. pose proof (groups_apart c m ks El) as Ap. pose proof (row_var c m ks El) as Rv. revert ND El Ap Rv.
  induction ks as [|k t IH]; intros ND El Ap Rv x y i Z S.
  - rewrite sumQ_nil, Qplus_0_r. apply row_value_ext. intros l _ _. symmetry. apply S. intros k [].
  - inversion ND as [|? ? N1 N2]; subst. rewrite sumQ_cons.
    destruct (parts c m (k :: t) El k (or_introl eq_refl)) as [g [v [n [G [Ne [O [T [K [P [Rin [NDr [HL HD]]]]]]]]]]]].
    rewrite (elastic_row m k (costed v g) n O T HL HD x i). rewrite <- deficit_row_value.
    assert (Ek : row_value (drows m k) x i == row_value (deficit_lhs (costed v g) n) x i) by (unfold drows; now rewrite HL).
    rewrite Ek. unfold own_row. set (x1 := mask (fun j => negb (is_violation m k j)) x).
    rewrite (IH N2) with (y := y).
    + rewrite (sumQ_ext_in (fun k' => row_value (drows m k') x1 i) (fun k' => row_value (drows m k') x i)); [ring|].
      intros k' Hk'. apply row_value_ext. intros l Hl _. unfold x1, mask. destruct (is_violation m k (l_var l)) eqn:E; [|reflexivity].
      exfalso. apply is_violation_in in E. apply N1. rewrite (Ap k k' (l_var l)); auto; [now left|now right|]. apply Rv; auto. now right.
    + intros k' H. apply El. now right.
    + intros k1 k2 j H1 H2. apply Ap; now right.
    + intros k' l H. apply Rv. now right.
    + intros k' j H. apply Z. now right.
    + intros j Hj. unfold x1, mask. destruct (is_violation m k j) eqn:E; cbn [negb].
      * apply is_violation_in in E. apply (Z k); auto. now left.
      * apply S. intros k' [<-|H]; [|now apply Hj]. intros V. apply is_violation_in in V. congruence.
Qed.

Lemma sumQ_zero_each {A} (f : A -> Q) l : (forall a, In a l -> 0 <= f a) -> sumQ f l == 0 -> forall a, In a l -> f a == 0.
Proof.
  induction l as [|b t IH]; intros P Z a Ha; [destruct Ha|]. rewrite sumQ_cons in Z.
  assert (0 <= f b) by (apply P; now left). assert (0 <= sumQ f t) by (apply sumQ_nonneg; intros; apply P; now right).
  destruct Ha as [<-|Ha]; [lra|]. apply IH; auto; [intros; apply P; now right|lra].
Qed.

Lemma coef_type rows n p : In p (deficit_rows rows n) ->
  (cr_type (d_row p) = ">=" /\ d_coef p = 1) \/ (cr_type (d_row p) = "=") \/ (cr_type (d_row p) <> ">=" /\ d_coef p = -(1)).
Proof.
  unfold deficit_rows. rewrite !in_app_iff. intros [H|[H|H]]; apply in_map_iff in H; destruct H as [[i [r q]] [<- H]]; apply in_save_index in H;
    cbn [fst snd d_row d_coef] in *.
  - destruct (String.eqb (cr_type r) ">=") eqn:E; [left; split; auto; now apply String.eqb_eq|].
    right. right. split; auto. intros E'. rewrite E' in E. discriminate.
  - destruct H as [_ H]. unfold equalities in H. apply filter_In in H. right. left. now apply String.eqb_eq.
  - destruct H as [_ H]. unfold equalities in H. apply filter_In in H. right. left. now apply String.eqb_eq.
Qed.

(** A row of the violations and the constraint it belongs to. *)
Lemma row_kind c m ks k l r : (forall k, In k ks -> exists g, all_elastic c k m g) -> In k ks -> In l (drows m k) ->
  In r (all_rhs m) -> r_id r = l_con l ->
  exists g cr, group m k = Some g /\ In cr g /\ r = RRow (cr_id cr) (cr_type cr) (RNum (cr_rhs cr))
    /\ ((cr_type cr = ">=" /\ l_coef l = 1) \/ cr_type cr = "=" \/ (cr_type cr <> ">=" /\ l_coef l = -(1))).
Proof.
  intros El Hk Hl Hr E. destruct (parts c m ks El k Hk) as [g [v [n [G [Ne [O [T [K [P [Rin [NDr [HL HD]]]]]]]]]]]].
  unfold drows in Hl. rewrite HL in Hl. cbn [rows_or_nil] in Hl.
  destruct (viol_group m k _ l r O K HL Hl Hr E) as [g' [cr [G' [Hcr Er]]]]. exists g', cr. repeat split; auto.
  assert (g' = g) by congruence. subst g'.
  unfold deficit_lhs in Hl. apply in_map_iff in Hl. destruct Hl as [[[i [r0 q]] z] [<- Hl]]. cbn [l_con l_coef] in *.
  pose proof (coef_type _ _ _ Hl) as CT. cbn [d_row d_coef fst snd] in CT.
  assert (r0 = cr); [|now subst].
  apply deficit_rows_in in Hl. apply Rin in Hl. cbn [fst snd] in Hl.
  apply (NoDup_map_inj cr_id g); auto. { destruct O as [W _]. now apply (group_NoDup m k g). }
  rewrite <- E, Er. reflexivity.
Qed.

Lemma rerun_is a b f prices m x p0 p1 : rerun_problem a b f prices m x p0 = Some p1 -> p1 = relax (adjusters m x) p0.
Proof. unfold rerun_problem. destruct (_ && _); [|discriminate]. intros H. now inversion H. Qed.

(** The new right-hand side of a constraint. *)
Lemma adjusters_sum c m x i : (forall k, relaxed m x k -> exists g, all_elastic c k m g) ->
  qsum (map snd (filter (fun a : nat * Q => Nat.eqb (fst a) i) (adjusters m x)))
  == - sumQ (pulled m x i) (violated_groups m x).
Proof.
  intros El. apply (adjuster_sum c m x (violated_groups m x)); [apply violated_NoDup|].
  intros k Hk. apply El. now apply violated_relaxed.
Qed.

Lemma pricing_cons sort m x p : p_cons (pricing_problem sort m x p) = p_cons p.
Proof. unfold pricing_problem. destruct (m_loss m); reflexivity. Qed.
Lemma pricing_vars sort m x p v : In v (p_vars (pricing_problem sort m x p)) ->
  In v (p_vars p) \/ v = PVar (pv_id v) 0 (Some 0).
Proof.
  unfold pricing_problem. destruct (m_loss m); [|now left]. cbn [disable linear_problem p_vars].
  intros H. apply in_map_iff in H. destruct H as [w [<- H]]. destruct (existsb _ _); [now right|].
  apply in_map_iff in H. destruct H as [u [<- H]]. destruct (existsb _ _); [now right|now left].
Qed.
Lemma pricing_sos sort m x p : p_sos2 (pricing_problem sort m x p) = [] /\ p_sos1 (pricing_problem sort m x p) = [].
Proof. unfold pricing_problem. destruct (m_loss m); split; reflexivity. Qed.

Lemma pulled_diff m x i k :
  pulled m x i k - row_value (drows m k) x i
  == sumQ (fun l => if Qeq_bool (x (l_var l)) 0 then 0 else l_coef l * (1 # 100)) (filter (fun l => Nat.eqb (l_con l) i) (drows m k)).
Proof.
  unfold pulled, row_value. rewrite <- sumQ_sub. apply sumQ_ext. intros l. destruct (Qeq_bool (x (l_var l)) 0) eqn:E; [|ring].
  apply Qeq_bool_iff in E. rewrite E. ring.
Qed.

Lemma rerun_feasible c sort a b f prices m x y p p1 : reached c m -> assemble m = Ok p ->
  let p0 := pricing_problem sort m x p in
  feasible p0 x -> (forall k, relaxed m x k -> exists g, all_elastic c k m g) ->
  rerun_problem a b f prices m x p0 = Some p1 ->
  (forall k g con, relaxed m x k -> group m k = Some g -> In con (p_cons p) -> of_group g con -> pc_type con = "=" ->
     violation m k con x == 0) ->
  without m x y -> feasible p1 y.
Proof.
  intros R A p0 F El Re Eqs [Z S]. apply rerun_is in Re. subst p1.
  destruct (reached_owned _ _ R) as [O _]. pose proof (reached_tidy c m R) as T. pose proof O as [W _].
  set (ks := violated_groups m x).
  assert (El' : forall k, In k ks -> exists g, all_elastic c k m g) by (intros k Hk; apply El; now apply violated_relaxed).
  assert (NDk : NoDup ks) by apply violated_NoDup.
  assert (Z' : forall k j, In k ks -> In j (violation_vars m k) -> y j == 0).
  { intros k j Hk. apply Z. now apply violated_relaxed. }
  assert (S' : forall j, (forall k, In k ks -> ~ In j (violation_vars m k)) -> y j == x j).
  { intros j Hj. apply S. intros k Hk. apply Hj. now apply violated_relaxed. }
  pose proof (rows_without c m ks NDk El') as Rw.
  destruct F as [F1 [F2 _]]. split; [|split].
  - intros v Hv. cbn [relax p_vars] in Hv. specialize (F1 v Hv).
    assert (Dec : (exists k, In k ks /\ In (pv_id v) (violation_vars m k)) \/ (forall k, In k ks -> ~ In (pv_id v) (violation_vars m k))).
    { clear. induction ks as [|k t IH]; [right; intros k []|].
      destruct (in_dec Nat.eq_dec (pv_id v) (violation_vars m k)) as [V|V]; [left; exists k; split; [now left|auto]|].
      destruct IH as [[k' [H1 H2]]|H]; [left; exists k'; split; [now right|auto]|].
      right. intros k' [<-|H']; auto. }
    destruct Dec as [[k [Hk V]]|N].
    + pose proof (Z' k _ Hk V) as E0.
      assert (B : pv_lb v <= 0 /\ match pv_ub v with Some u => 0 <= u | None => True end).
      { destruct (pricing_vars sort m x p v Hv) as [Hp| ->]; [|cbn; split; apply Qle_refl].
        apply assemble_parts in A. destruct A as [Ev _]. rewrite Ev in Hp.
        destruct (parts c m ks El' k Hk) as [g [vc [n [G [Ne [_ [_ [K [P [Rin [NDr [HL HD]]]]]]]]]]]].
        rewrite (viol_var m k (costed vc g) n O HD v Hp V). cbn. split; [apply Qle_refl|exact I]. }
      split; [rewrite E0; apply B|]. destruct (pv_ub v); [rewrite E0; apply B|exact I].
    + pose proof (S' _ N) as E0. destruct F1 as [G1 G2]. split; [now rewrite E0|]. destruct (pv_ub v); [now rewrite E0|exact I].
  - intros con' Hcon. cbn [relax p_cons] in Hcon. apply in_map_iff in Hcon. destruct Hcon as [con [<- Hcon]].
    specialize (F2 con Hcon). unfold p0 in Hcon. rewrite pricing_cons in Hcon.
    destruct (con_rhs m p con W A Hcon) as [r [Hr E]].
    destruct (con_is m p con r W A Hcon Hr (eq_sym E)) as [Ec Mt].
    apply (con_row m p x con r W A Hcon Hr (eq_sym E)) in F2.
    assert (Ly : linear (pc_terms con) y == row_value (all_lhs m) y (r_id r)).
    { rewrite Ec. cbn [pc_terms]. apply lhs_terms_value. }
    assert (Key : forall k l, In k ks -> In l (drows m k) -> l_con l = r_id r ->
        exists g cr, group m k = Some g /\ In cr g /\ r = RRow (cr_id cr) (cr_type cr) (RNum (cr_rhs cr))
        /\ ((cr_type cr = ">=" /\ l_coef l = 1) \/ cr_type cr = "=" \/ (cr_type cr <> ">=" /\ l_coef l = -(1)))).
    { intros k l Hk Hl El0. apply (row_kind c m ks k l r El' Hk Hl Hr). congruence. }
    specialize (Rw x y (r_id r) Z' S').
    destruct (r_rhs r) as [q|j] eqn:Er.
    + assert (Ead : adjust (adjusters m x) con = PCon (pc_id con) (pc_type con) (pc_terms con)
         (RNum (q + qsum (map snd (filter (fun a0 => Nat.eqb (fst a0) (pc_id con)) (adjusters m x)))))).
      { unfold adjust. rewrite Ec. cbn [pc_rhs]. reflexivity. }
      rewrite Ead. unfold con_holds. cbn [pc_type pc_terms pc_rhs rhs_value].
      pose proof (adjusters_sum c m x (pc_id con) El) as As. fold ks in As. rewrite <- E in As |- *.
      set (adj := qsum (map snd (filter (fun a0 => Nat.eqb (fst a0) (r_id r)) (adjusters m x)))) in *.
      assert (Et : pc_type con = r_type r) by (rewrite Ec; reflexivity). rewrite Et.
      cbn [rhs_value] in F2.
      set (W0 := sumQ (fun k => sumQ (fun l => if Qeq_bool (x (l_var l)) 0 then 0 else l_coef l * (1 # 100))
                 (filter (fun l => Nat.eqb (l_con l) (r_id r)) (drows m k))) ks).
      assert (EW : sumQ (pulled m x (r_id r)) ks == sumQ (fun k => row_value (drows m k) x (r_id r)) ks + W0).
      { unfold W0. rewrite <- sumQ_plus. apply sumQ_ext. intros k. rewrite <- pulled_diff. ring. }
      rewrite EW in As. set (s := sumQ (fun k => row_value (drows m k) x (r_id r)) ks) in *.
      set (lx := row_value (all_lhs m) x (r_id r)) in *. set (ly := row_value (all_lhs m) y (r_id r)) in *.
      assert (Sg : (r_type r = ">=" -> 0 <= W0) /\ (r_type r = "<=" -> W0 <= 0) /\ (r_type r = "=" -> W0 == 0)).
      { split; [|split]; intros Ty.
        - apply sumQ_nonneg. intros k Hk. apply sumQ_nonneg. intros l Hl. apply filter_In in Hl. destruct Hl as [Hl El0]. apply Nat.eqb_eq in El0.
          destruct (Key k l Hk Hl El0) as [g [cr [_ [_ [Err CT]]]]]. rewrite Err in Ty. cbn [r_type] in Ty.
          destruct (Qeq_bool _ _); [apply Qle_refl|]. destruct CT as [[_ ->]|[CT|[CT _]]]; [lra|congruence|congruence].
        - setoid_replace W0 with (- sumQ (fun k => sumQ (fun l => - (if Qeq_bool (x (l_var l)) 0 then 0 else l_coef l * (1 # 100)))
                 (filter (fun l => Nat.eqb (l_con l) (r_id r)) (drows m k))) ks).
          2:{ unfold W0. clear. induction ks as [|k t IH]; [reflexivity|]. rewrite !sumQ_cons, IH.
              set (L := filter _ _). assert (EL : sumQ (fun l => if Qeq_bool (x (l_var l)) 0 then 0 else l_coef l * (1 # 100)) L
                == - sumQ (fun l => - (if Qeq_bool (x (l_var l)) 0 then 0 else l_coef l * (1 # 100))) L).
              { induction L as [|l L' IHL]; [reflexivity|]. rewrite !sumQ_cons, IHL. ring. }
              rewrite EL. ring. }
          apply (Qopp_le_compat 0). apply sumQ_nonneg. intros k Hk. apply sumQ_nonneg. intros l Hl. apply filter_In in Hl. destruct Hl as [Hl El0]. apply Nat.eqb_eq in El0.
          destruct (Key k l Hk Hl El0) as [g [cr [_ [_ [Err CT]]]]]. rewrite Err in Ty. cbn [r_type] in Ty.
          destruct (Qeq_bool _ _); [discriminate|]. destruct CT as [[CT _]|[CT|[_ ->]]]; [congruence|congruence|discriminate].
        - apply sumQ_zero. intros k Hk. apply sumQ_zero. intros l Hl. apply filter_In in Hl. destruct Hl as [Hl El0]. apply Nat.eqb_eq in El0.
          destruct (Key k l Hk Hl El0) as [g [cr [G [Hcr [Err CT]]]]].
          assert (X0 : x (l_var l) == 0).
          { assert (Og : of_group g con) by (exists cr; split; auto; rewrite <- E, Err; reflexivity).
            assert (Hrel : relaxed m x k) by (now apply violated_relaxed).
            pose proof (Eqs k g con Hrel G Hcon Og (eq_trans Et Ty)) as V0.
            destruct (parts c m ks El' k Hk) as [g' [vc [n [G' [Ne [_ [_ [K [P [Rin [NDr [HL HD]]]]]]]]]]]].
            assert (g' = g) by congruence. subst g'.
            assert (Eid : pc_id con = cr_id cr) by (rewrite <- E, Err; reflexivity).
            destruct (violation_rows m k g (costed vc g) n O T G HL HD p con cr x A Hcon Hcr Eid) as [V1 _]. rewrite V1 in V0.
            assert (Nn : forall q0, In q0 (deficit_rows (costed vc g) n) -> 0 <= x (d_id q0)).
            { intros q0 Hq0. pose proof (viol_has m k (costed vc g) n HD q0 Hq0) as Hv.
              assert (Ev : p_vars p = all_vars m) by (apply assemble_parts in A; apply A). rewrite <- Ev in Hv.
              unfold p0 in F1.
              assert (Hb : forall v, In v (p_vars p) -> pv_ub v = None -> pv_lb v = 0 -> 0 <= x (pv_id v)).
              { intros v Hv0 Hu Hl0. revert F1. unfold pricing_problem. destruct (m_loss m).
                - intros F1. cbn [disable linear_problem p_vars] in F1.
                  set (ids1 := unused_weights _ _ _ _) in F1. set (ids2 := unused_links _ _) in F1.
                  set (w1 := if existsb (Nat.eqb (pv_id v)) ids1 then PVar (pv_id v) 0 (Some 0) else v).
                  set (w2 := if existsb (Nat.eqb (pv_id w1)) ids2 then PVar (pv_id w1) 0 (Some 0) else w1).
                  assert (B : in_bounds x w2).
                  { apply F1. apply in_map_iff. exists w1. split; [reflexivity|]. apply in_map_iff. exists v. split; [reflexivity|exact Hv0]. }
                  assert (I2 : pv_id w2 = pv_id v /\ pv_lb w2 = 0).
                  { unfold w2, w1. destruct (existsb _ ids1); cbn [pv_id]; destruct (existsb _ ids2); cbn; auto. }
                  destruct B as [B _]. destruct I2 as [Ia Ib]. rewrite Ia, Ib in B. exact B.
                - intros F1. destruct (F1 v Hv0) as [B _]. rewrite Hl0 in B. exact B. }
              apply (Hb _ Hv); reflexivity. }
            unfold drows in Hl. rewrite HL in Hl. cbn [rows_or_nil] in Hl. unfold deficit_lhs in Hl.
            apply in_map_iff in Hl. destruct Hl as [q0 [El1 Hq0]].
            assert (Ev0 : l_var l = d_id q0 /\ l_con l = cr_id (d_row q0)).
            { rewrite <- El1. destruct q0 as [[i0 [r0 c0]] z0]. split; reflexivity. }
            destruct Ev0 as [-> Ecn].
            assert (Hf0 : In q0 (filter (d_at (cr_id cr)) (deficit_rows (costed vc g) n))).
            { apply filter_In. split; auto. unfold d_at. apply Nat.eqb_eq. rewrite <- Ecn, El0, Err. reflexivity. }
            apply (sumQ_zero_each (fun q1 => x (d_id q1)) (filter (d_at (cr_id cr)) (deficit_rows (costed vc g) n))); auto.
            intros q1 Hq1. apply filter_In in Hq1. apply Nn, Hq1. }
          destruct (Qeq_bool (x (l_var l)) 0) eqn:Eb; [reflexivity|]. apply Qeq_bool_iff in X0. congruence. }
      destruct Sg as [Sg1 [Sg2 Sg3]]. apply (relation_same _ ly _ (q - (s + W0)) _ Ly); [rewrite As; ring|]. revert F2. unfold relation.
      intros [[Ty F2]|[[Ty F2]|[Ty F2]]]; [left|right; left|right; right]; (split; [exact Ty|]).
      * specialize (Sg2 Ty). lra.
      * specialize (Sg1 Ty). lra.
      * specialize (Sg3 Ty). lra.
    + assert (Ead : adjust (adjusters m x) con = con) by (unfold adjust; rewrite Ec; reflexivity).
      rewrite Ead. unfold con_holds. apply (relation_same _ _ _ (rhs_value (pc_rhs con) y) _ Ly); [reflexivity|].
      assert (Ez : sumQ (fun k => row_value (drows m k) x (r_id r)) ks == 0).
      { apply sumQ_zero. intros k Hk. apply sumQ_zero. intros l Hl. apply filter_In in Hl. destruct Hl as [Hl El0]. apply Nat.eqb_eq in El0.
        destruct (Key k l Hk Hl El0) as [g [cr [_ [_ [Err _]]]]]. rewrite Err in Er. discriminate. }
      assert (Ej : y j == x j).
      { apply S'. intros k Hk V. apply violation_def in V. revert V. apply (td_vars m T).
        unfold table_vars. rewrite !in_app_iff. right. left.
        unfold all_rhs in Hr. rewrite !in_app_iff in Hr. destruct Hr as [Hr|[Hr|Hr]];
          apply in_map_iff in Hr; destruct Hr as [d [Ed Hd]]; rewrite <- Ed in Er; cbn [r_rhs] in Er; try discriminate.
        inversion Er. now apply in_map. }
      rewrite Ec. cbn [pc_type pc_rhs rhs_value]. cbn [rhs_value] in F2.
      eapply relation_same; [| |exact F2]; [|rewrite ?Er; exact Ej]. rewrite Rw, Ez. ring.
  - destruct (pricing_sos sort m x p) as [E1 E2]. cbn [relax p_sos2 p_sos1]. fold p0 in E1, E2. rewrite E1, E2. split; intros s [].
Qed.

(** ** How far each constraint is relaxed *)

Lemma row_owner m k k' g ls l r : owned m -> dget (deficit_key k) (m_lhs m) = Some ls -> In l ls ->
  group m k' = Some g -> In r g -> cr_id r = l_con l -> k = k'.
Proof.
  intros [W [f [n O]]] D Hl G Hr E. apply dget_in in D. destruct (ow_lhs _ _ _ O _ _ _ D Hl) as [Ow _].
  assert (F : f (l_con l) = GRhs k \/ f (l_con l) = GMkt k).
  { destruct Ow as [[k2 [E1 E2]]|[[E1 E2]|[E1 E2]]].
    - apply deficit_key_inj in E1. subst. exact E2.
    - now apply deficit_key_tie in E1.
    - now apply deficit_key_losses in E1. }
  rewrite <- E in F. unfold group in G. destruct (dget k' (m_mrhs m)) as [g'|] eqn:D1.
  - apply dget_in in D1. assert (g' = g) by congruence. subst g'. destruct (ow_mrhs _ _ _ O _ _ _ D1 Hr) as [F2 _]. rewrite F2 in F.
    destruct F as [F|F]; congruence.
  - apply dget_in in G. destruct (ow_rhs _ _ _ O _ _ _ G Hr) as [F2 _]. rewrite F2 in F. destruct F as [F|F]; congruence.
Qed.

Lemma sum_deficit_lhs (h : lrow -> Q) rows n i :
  sumQ h (filter (fun l => Nat.eqb (l_con l) i) (deficit_lhs rows n))
  == sumQ (fun p => h (LRow (cr_id (d_row p)) (d_id p) (d_coef p))) (filter (d_at i) (deficit_rows rows n)).
Proof.
  unfold deficit_lhs. rewrite filter_map_swap, sumQ_map.
  assert (E : filter (fun a : nat * (crow * Q) * Q => Nat.eqb (l_con (let '(i0, (r, _), k) := a in LRow (cr_id r) i0 k)) i) (deficit_rows rows n)
     = filter (d_at i) (deficit_rows rows n)).
  { apply filter_ext. now intros [[j [r c]] k]. }
  rewrite E. apply sumQ_ext. now intros [[j [r c]] k].
Qed.

Lemma rerun_amount c sort a b f prices m x p p1 k g con : reached c m -> assemble m = Ok p ->
  (forall k, relaxed m x k -> exists g, all_elastic c k m g) ->
  rerun_problem a b f prices m x (pricing_problem sort m x p) = Some p1 ->
  relaxed m x k -> group m k = Some g -> In con (p_cons p) -> of_group g con ->
  exists con' q q', In con' (p_cons p1) /\ same_lhs con' con /\ pc_rhs con = RNum q /\ pc_rhs con' = RNum q'
    /\ (pc_type con = ">=" -> q' == q - allowance (violation m k con x))
    /\ (pc_type con = "<=" -> q' == q + allowance (violation m k con x)).
Proof.
  intros R A El Re Hk G Hcon [r [Hr E]]. apply rerun_is in Re. subst p1.
  destruct (reached_owned _ _ R) as [O _]. pose proof (reached_tidy c m R) as T. pose proof O as [W _].
  pose proof (group_static m k g r G Hr) as Hs.
  destruct (con_is m p con _ W A Hcon Hs (eq_sym E)) as [Ec Mt]. cbn [r_id r_type r_rhs] in Ec, Mt.
  set (ks := violated_groups m x).
  assert (El' : forall k, In k ks -> exists g, all_elastic c k m g) by (intros k' Hk'; apply El; now apply violated_relaxed).
  assert (Hk' : In k ks) by (now apply violated_relaxed).
  exists (adjust (adjusters m x) con), (cr_rhs r), (cr_rhs r + qsum (map snd (filter (fun a0 => Nat.eqb (fst a0) (pc_id con)) (adjusters m x)))).
  split. { cbn [relax p_cons]. rewrite pricing_cons. now apply in_map. }
  split. { unfold adjust, same_lhs. destruct (pc_rhs con); repeat split; reflexivity. }
  split. { rewrite Ec. reflexivity. }
  split. { unfold adjust. rewrite Ec. reflexivity. }
  pose proof (adjusters_sum c m x (pc_id con) El) as As. fold ks in As.
  destruct (parts c m ks El' k Hk') as [g' [vc [n [G' [Ne [_ [_ [K [P [Rin [NDr [HL HD]]]]]]]]]]]].
  assert (g' = g) by congruence. subst g'. destruct (P r Hr) as [cost Hrow].
  assert (Sum : sumQ (pulled m x (pc_id con)) ks == pulled m x (cr_id r) k).
  { rewrite <- E. rewrite (sumQ_ext_in _ (fun k' => if String.eqb k' k then pulled m x (cr_id r) k' else 0)).
    - apply (sumQ_pick (pulled m x (cr_id r)) (fun k' => String.eqb k' k) k); auto.
      + apply String.eqb_refl.
      + intros k' _ E'. now apply String.eqb_eq.
      + apply violated_NoDup.
    - intros k' Hk2. destruct (String.eqb k' k) eqn:E'; [reflexivity|]. apply sumQ_zero. intros l Hl.
      apply filter_In in Hl. destruct Hl as [Hl El0]. apply Nat.eqb_eq in El0. exfalso.
      destruct (parts c m ks El' k' Hk2) as [g2 [vc2 [n2 [_ [_ [_ [_ [_ [_ [_ [_ [HL2 _]]]]]]]]]]]].
      unfold drows in Hl. rewrite HL2 in Hl. cbn [rows_or_nil] in Hl.
      rewrite (row_owner m k' k g _ l r O HL2 Hl G Hr (eq_sym El0)), String.eqb_refl in E'. discriminate. }
  rewrite Sum in As. unfold pulled, drows in As. rewrite HL in As. cbn [rows_or_nil] in As. rewrite sum_deficit_lhs in As.
  cbn [l_var l_coef] in As.
  destruct (violation_rows m k g (costed vc g) n O T G HL HD p con r x A Hcon Hr (eq_sym E)) as [V1 _].
  destruct (deficit_pick (costed vc g) n r cost NDr Hrow) as [P1 [P2 _]].
  assert (Et : pc_type con = cr_type r) by (rewrite Ec; reflexivity). rewrite Et.
  assert (Ea : forall q1 q2, q1 == q2 -> allowance q1 == allowance q2).
  { intros q1 q2 Eq. unfold allowance. destruct (Qeq_bool q1 0) eqn:B1, (Qeq_bool q2 0) eqn:B2; try reflexivity; try (rewrite Eq; reflexivity).
    - apply Qeq_bool_iff in B1. rewrite Eq in B1. apply Qeq_bool_iff in B1. congruence.
    - apply Qeq_bool_iff in B2. rewrite <- Eq in B2. apply Qeq_bool_iff in B2. congruence. }
  split; intros Ty.
  - destruct (P1 Ty) as [i Ef]. rewrite Ef in As, V1. rewrite sumQ_cons, sumQ_nil in As, V1. cbn [d_id d_coef fst snd] in As, V1.
    rewrite As, (Ea _ (x i)) by (rewrite V1; ring). unfold allowance. destruct (Qeq_bool (x i) 0); ring.
  - destruct (P2 Ty) as [i Ef]. rewrite Ef in As, V1. rewrite sumQ_cons, sumQ_nil in As, V1. cbn [d_id d_coef fst snd] in As, V1.
    rewrite As, (Ea _ (x i)) by (rewrite V1; ring). unfold allowance. destruct (Qeq_bool (x i) 0); ring.
Qed.

Lemma rerun_others c sort a b f prices m x p p1 con : reached c m -> assemble m = Ok p ->
  (forall k, relaxed m x k -> exists g, all_elastic c k m g) ->
  rerun_problem a b f prices m x (pricing_problem sort m x p) = Some p1 ->
  In con (p_cons p) -> (forall k g, relaxed m x k -> group m k = Some g -> ~ of_group g con) ->
  exists con', In con' (p_cons p1) /\ same_lhs con' con /\ forall z, rhs_value (pc_rhs con') z == rhs_value (pc_rhs con) z.
Proof.
  intros R A El Re Hcon N. apply rerun_is in Re. subst p1.
  destruct (reached_owned _ _ R) as [O _]. pose proof O as [W _].
  exists (adjust (adjusters m x) con).
  split. { cbn [relax p_cons]. rewrite pricing_cons. now apply in_map. }
  split. { unfold adjust, same_lhs. destruct (pc_rhs con); repeat split; reflexivity. }
  intros z. unfold adjust. destruct (pc_rhs con) as [q|j] eqn:Er; [|rewrite Er; reflexivity]. cbn [pc_rhs rhs_value].
  rewrite (adjusters_sum c m x (pc_id con) El).
  setoid_replace (sumQ (pulled m x (pc_id con)) (violated_groups m x)) with 0; [ring|].
  destruct (con_rhs m p con W A Hcon) as [r [Hr E]].
  apply sumQ_zero. intros k Hk. apply sumQ_zero. intros l Hl. apply filter_In in Hl. destruct Hl as [Hl El0]. apply Nat.eqb_eq in El0. exfalso.
  assert (El' : forall k, In k (violated_groups m x) -> exists g, all_elastic c k m g) by (intros k' Hk'; apply El; now apply violated_relaxed).
  destruct (row_kind c m _ k l r El' Hk Hl Hr) as [g [cr [G [Hcr [Err _]]]]]; [congruence|].
  apply (N k g); auto; [now apply violated_relaxed|]. exists cr. split; auto. rewrite <- E, Err. reflexivity.
Qed.
