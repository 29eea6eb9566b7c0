(** Two markets that differ only in the numbering of constraints and violation
    variables are dispatched alike. *)

From Coq Require Import QArith Lqa String List Bool Arith Lia ZArith Permutation.
Import ListNotations.
From Verif Require Import PandasModel TablesModel MarketModel SolverModel
  SpecLp PandasFacts InvariantFacts SolverFacts ElasticFacts BuildFacts JointRampFacts.
Open Scope string_scope.
Open Scope list_scope.

(** ** Dictionaries with the same groups *)

Definition ren_dict {A} (f : A -> A) (d : dict (list A)) : dict (list A) := map (fun p => (fst p, map f (snd p))) d.

Lemma dget_ren {A} (f : A -> A) k (d : dict (list A)) : dget k (ren_dict f d) = option_map (map f) (dget k d).
Proof.
  induction d as [|[k' v] t IH]; cbn; [reflexivity|]. now destruct (String.eqb k k').
Qed.

Lemma dget_in_iff {A} k (d : dict A) v : NoDup (dkeys d) -> (dget k d = Some v <-> In (k, v) d).
Proof.
  intros ND. split; [|now apply in_dget].
  clear ND. induction d as [|[k' v'] t IH]; cbn; [discriminate|].
  destruct (String.eqb k k') eqn:E; [|auto]. apply String.eqb_eq in E. intros [= ->]. subst. now left.
Qed.

Lemma dict_perm {A} (d d' : dict A) : NoDup (dkeys d) -> NoDup (dkeys d') -> (forall k, dget k d = dget k d') -> Permutation d d'.
Proof.
  intros N N' H. apply NoDup_Permutation.
  - now apply NoDup_map_inv in N.
  - now apply NoDup_map_inv in N'.
  - intros [k v]. rewrite <- !dget_in_iff by auto. now rewrite H.
Qed.

Lemma dconcat_perm {A} (f : A -> A) (d d' : dict (list A)) : NoDup (dkeys d) -> NoDup (dkeys d') ->
  (forall k, dget k d' = option_map (map f) (dget k d)) -> Permutation (dconcat d') (map f (dconcat d)).
Proof.
  intros N N' H.
  assert (P : Permutation d' (ren_dict f d)).
  { apply dict_perm; auto.
    - unfold dkeys, ren_dict. rewrite map_map. exact N.
    - intros k. now rewrite dget_ren. }
  unfold dconcat. eapply Permutation_trans; [apply Permutation_flat_map; exact P|].
  unfold ren_dict. clear. induction d as [|[k v] t IH]; cbn; [constructor|]. rewrite map_app. now apply Permutation_app_head.
Qed.

Lemma dict_empty {A B} (d : dict A) (d' : dict B) (g : A -> B) : (forall k, dget k d' = option_map g (dget k d)) ->
  (d = [] <-> d' = []).
Proof.
  intros H. split; intros E; subst.
  - destruct d' as [|[k v] t]; [reflexivity|]. specialize (H k). cbn in H. rewrite String.eqb_refl in H. discriminate.
  - destruct d as [|[k v] t]; [reflexivity|]. specialize (H k). cbn in H. rewrite String.eqb_refl in H. discriminate.
Qed.

(** ** Renumbering *)

Section Renumber.
  Variables rho sigma : nat -> nat.
  Hypothesis rho_inj : forall i j, rho i = rho j -> i = j.
  Hypothesis sigma_inj : forall i j, sigma i = sigma j -> i = j.

  Definition ren_c (r : crow) : crow := CRow (rho (cr_id r)) (cr_type r) (cr_rhs r) (cr_key r).
  Definition ren_uc (r : ucrow) : ucrow := UC (rho (uc_con r)) (uc_unit r) (uc_service r) (uc_dt r) (uc_coef r).
  Definition ren_rc (r : rcrow) : rcrow := RC (rho (rc_con r)) (rc_region r) (rc_service r) (rc_coef r).
  Definition ren_l (r : lrow) : lrow := LRow (rho (l_con r)) (sigma (l_var r)) (l_coef r).
  Definition ren_d (d : defvar) : defvar := Def (sigma (df_id d)) (df_lb d) (df_ub d).
  Definition ren_k (c : costrow) : costrow := Cost (sigma (co_var c)) (co_cost c).
  Definition ren_r (r : rrow) : rrow := RRow (rho (r_id r)) (r_type r) (r_rhs r).
  Definition ren_v (v : pvar) : pvar := PVar (sigma (pv_id v)) (pv_lb v) (pv_ub v).
  Definition ren_t (t : nat * Q) : nat * Q := (sigma (fst t), snd t).

  (** [m'] is [m] renumbered; variables and dynamic rows keep their numbers. *)
  Record alike (m' m : market) : Prop := {
    al_bids : m_bids m' = m_bids m; al_inter : m_inter m' = m_inter m; al_loss : m_loss m' = m_loss m;
    al_weights : m_weights m' = m_weights m; al_reg_bids : m_reg_bids m' = m_reg_bids m;
    al_reg_inter : m_reg_inter m' = m_reg_inter m; al_reg_loss : m_reg_loss m' = m_reg_loss m;
    al_unit_bids : m_unit_bids m' = m_unit_bids m; al_gen_unit : m_gen_unit m' = m_gen_unit m;
    al_gen_region : m_gen_region m' = m_gen_region m; al_gen_inter : m_gen_inter m' = m_gen_inter m;
    al_dyn : m_dyn m' = m_dyn m; al_obj_bids : m_obj_bids m' = m_obj_bids m;
    al_rhs : forall k, dget k (m_rhs m') = option_map (map ren_c) (dget k (m_rhs m));
    al_mrhs : forall k, dget k (m_mrhs m') = option_map (map ren_c) (dget k (m_mrhs m));
    al_unit : forall k, dget k (m_c2v_unit m') = option_map (map ren_uc) (dget k (m_c2v_unit m));
    al_reg : forall k, dget k (m_c2v_reg m') = option_map (map ren_rc) (dget k (m_c2v_reg m));
    al_lhs : forall k, dget k (m_lhs m') = option_map (map ren_l) (dget k (m_lhs m));
    al_def : forall k, dget k (m_deficits m') = option_map (map ren_d) (dget k (m_deficits m));
    al_cost : forall k, dget k (m_obj_def m') = option_map (map ren_k) (dget k (m_obj_def m)) }.

  Record keys_once (m : market) : Prop := {
    ko_rhs : NoDup (dkeys (m_rhs m)); ko_mrhs : NoDup (dkeys (m_mrhs m)); ko_unit : NoDup (dkeys (m_c2v_unit m));
    ko_reg : NoDup (dkeys (m_c2v_reg m)); ko_lhs : NoDup (dkeys (m_lhs m)); ko_def : NoDup (dkeys (m_deficits m));
    ko_cost : NoDup (dkeys (m_obj_def m)) }.

  (** The variables that keep their numbers. *)
  Record fixed (m : market) : Prop := {
    fx_bids : forall v, In v (rows_or_nil (m_bids m)) -> sigma (bv_id v) = bv_id v;
    fx_inter : forall v, In v (rows_or_nil (m_inter m)) -> sigma (iv_id v) = iv_id v;
    fx_loss : forall v, In v (rows_or_nil (m_loss m)) -> sigma (lv_id v) = lv_id v;
    fx_weights : forall v, In v (rows_or_nil (m_weights m)) -> sigma (wv_id v) = wv_id v;
    fx_reg : forall v, In v (regional_vars m) -> sigma (rv_id v) = rv_id v;
    fx_unit : forall v, In v (rows_or_nil (m_unit_bids m)) -> sigma (uv_id v) = uv_id v;
    fx_dyn : forall d, In d (rows_or_nil (m_dyn m)) -> rho (dy_id d) = dy_id d /\ sigma (dy_var d) = dy_var d;
    fx_obj : forall o, In o (rows_or_nil (m_obj_bids m)) -> sigma (ob_var o) = ob_var o }.

  Variables m' m : market.
  Hypothesis A : alike m' m.
  Hypothesis K' : keys_once m'.
  Hypothesis K : keys_once m.
  Hypothesis F : fixed m.

  Lemma ren_all_rhs : Permutation (all_rhs m') (map ren_r (all_rhs m)).
  Proof.
    unfold all_rhs. rewrite !map_app. apply Permutation_app; [|apply Permutation_app].
    - unfold static_rrows. eapply Permutation_trans; [apply Permutation_map, (dconcat_perm ren_c (m_rhs m))|].
      + apply K. + apply K'. + apply A.
      + rewrite !map_map. apply Permutation_refl.
    - unfold static_rrows. eapply Permutation_trans; [apply Permutation_map, (dconcat_perm ren_c (m_mrhs m))|].
      + apply K. + apply K'. + apply A.
      + rewrite !map_map. apply Permutation_refl.
    - rewrite (al_dyn _ _ A). unfold dyn_rrows. rewrite map_map.
      rewrite (map_ext_in (fun d => RRow (dy_id d) (dy_type d) (RVar (dy_var d))) (fun d => ren_r (RRow (dy_id d) (dy_type d) (RVar (dy_var d))))); [apply Permutation_refl|].
      intros d Hd. unfold ren_r. cbn. now rewrite (proj1 (fx_dyn _ F d Hd)).
  Qed.

  Lemma merge_ren {X Y} (f : X -> X) (on : X -> Y -> bool) l r : (forall x y, on (f x) y = on x y) ->
    merge on (map f l) r = map (fun p => (f (fst p), snd p)) (merge on l r).
  Proof.
    intros H. unfold merge. induction l as [|a t IH]; cbn; [reflexivity|]. rewrite map_app, <- IH, map_map. f_equal.
    replace (filter (on (f a)) r) with (filter (on a) r) by (apply filter_ext; auto). reflexivity.
  Qed.

  Lemma merge_ren_r {X Y} (f : Y -> Y) (on : X -> Y -> bool) l r : (forall x y, on x (f y) = on x y) ->
    merge on l (map f r) = map (fun p => (fst p, f (snd p))) (merge on l r).
  Proof.
    intros H. unfold merge. induction l as [|a t IH]; cbn; [reflexivity|]. rewrite map_app, <- IH, map_map. f_equal.
    clear IH. induction r as [|b r IHr]; cbn; [reflexivity|]. rewrite H. destruct (on a b); cbn; rewrite IHr; reflexivity.
  Qed.

  Lemma merge_perm {X Y} (on : X -> Y -> bool) l l' r : Permutation l l' -> Permutation (merge on l r) (merge on l' r).
  Proof. intros H. unfold merge. now apply Permutation_flat_map. Qed.

  Lemma ren_ids : generic_ids m' = option_map (map ren_c) (generic_ids m).
  Proof.
    unfold generic_ids. rewrite (al_rhs _ _ A "generic"), (al_mrhs _ _ A "fcas").
    destruct (dget "generic" (m_rhs m)), (dget "fcas" (m_mrhs m)); cbn; rewrite ?map_app, ?app_nil_r; reflexivity.
  Qed.

  Lemma in_set_ren s r : in_set (ren_c r) s = in_set r s.
  Proof. reflexivity. Qed.

  Lemma ren_generic_unit gs ids : generic_unit_lhs gs (map ren_c ids) (rows_or_nil (m_unit_bids m)) = map ren_l (generic_unit_lhs gs ids (rows_or_nil (m_unit_bids m))).
  Proof.
    unfold generic_unit_lhs. rewrite merge_ren_r by reflexivity. rewrite !map_map. apply map_ext_in.
    intros [[g v] r] H. unfold ren_l. cbn. apply in_merge in H. destruct H as [H _]. apply in_merge in H.
    now rewrite (fx_unit _ F) by tauto.
  Qed.

  Lemma ren_generic_region gs ids : generic_region_lhs gs (map ren_c ids) (rows_or_nil (m_reg_bids m)) = map ren_l (generic_region_lhs gs ids (rows_or_nil (m_reg_bids m))).
  Proof.
    unfold generic_region_lhs. rewrite merge_ren_r by reflexivity. rewrite !map_map. apply map_ext_in.
    intros [[g v] r] H. unfold ren_l. cbn. apply in_merge in H. destruct H as [H _]. apply in_merge in H.
    rewrite (fx_reg _ F); [reflexivity|]. unfold regional_vars. apply in_app_iff. left. tauto.
  Qed.

  Lemma ren_generic_inter gs ids : generic_inter_lhs gs (map ren_c ids) (rows_or_nil (m_inter m)) = map ren_l (generic_inter_lhs gs ids (rows_or_nil (m_inter m))).
  Proof.
    unfold generic_inter_lhs. rewrite merge_ren_r by reflexivity. rewrite !map_map. apply map_ext_in.
    intros [[g v] r] H. unfold ren_l. cbn. apply in_merge in H. destruct H as [H _]. apply in_merge in H.
    now rewrite (fx_inter _ F) by tauto.
  Qed.

  Lemma ren_generic : generic_lhs m' = map ren_l (generic_lhs m).
  Proof.
    unfold generic_lhs. rewrite ren_ids, (al_gen_unit _ _ A), (al_gen_region _ _ A), (al_gen_inter _ _ A), (al_unit_bids _ _ A), (al_reg_bids _ _ A), (al_inter _ _ A).
    destruct (generic_ids m) as [ids|]; cbn [option_map]; [|reflexivity]. rewrite !map_app. f_equal; [|f_equal].
    - destruct (m_gen_unit m); [|reflexivity]. destruct (m_unit_bids m) as [vs|] eqn:E; [|reflexivity]. pose proof (ren_generic_unit l ids) as X. rewrite E in X. exact X.
    - destruct (m_gen_region m); [|reflexivity]. destruct (m_reg_bids m) as [vs|] eqn:E; [|reflexivity]. pose proof (ren_generic_region l ids) as X. rewrite E in X. exact X.
    - destruct (m_gen_inter m); [|reflexivity]. destruct (m_inter m) as [vs|] eqn:E; [|reflexivity]. pose proof (ren_generic_inter l ids) as X. rewrite E in X. exact X.
  Qed.

  Lemma ren_regional_vars : regional_vars m' = regional_vars m.
  Proof. unfold regional_vars. now rewrite (al_reg_bids _ _ A), (al_reg_inter _ _ A), (al_reg_loss _ _ A). Qed.

  Lemma ren_all_lhs : Permutation (all_lhs m') (map ren_l (all_lhs m)).
  Proof.
    unfold all_lhs. rewrite !map_app. apply Permutation_app; [|apply Permutation_app; [|apply Permutation_app]].
    - apply dconcat_perm; [apply K|apply K'|apply A].
    - rewrite ren_generic. apply Permutation_refl.
    - rewrite ren_regional_vars. unfold regional_lhs.
      eapply Permutation_trans; [apply Permutation_map, merge_perm; apply (dconcat_perm ren_rc (m_c2v_reg m)); [apply K|apply K'|apply A]|].
      rewrite merge_ren by reflexivity. rewrite !map_map.
      match goal with |- Permutation (map ?f ?l) (map ?g ?l) => replace (map f l) with (map g l); [apply Permutation_refl|] end.
      apply map_ext_in. intros [c v] H. unfold ren_l. cbn. apply in_merge in H. now rewrite (fx_reg _ F) by tauto.
    - rewrite (al_unit_bids _ _ A). unfold unit_lhs.
      eapply Permutation_trans; [apply Permutation_map, merge_perm; apply (dconcat_perm ren_uc (m_c2v_unit m)); [apply K|apply K'|apply A]|].
      rewrite merge_ren by reflexivity. rewrite !map_map.
      match goal with |- Permutation (map ?f ?l) (map ?g ?l) => replace (map f l) with (map g l); [apply Permutation_refl|] end.
      apply map_ext_in. intros [c v] H. unfold ren_l. cbn. apply in_merge in H. now rewrite (fx_unit _ F) by tauto.
  Qed.

  Lemma map_fixed {X} (f g : X -> pvar) l : (forall a, In a l -> f a = g a) -> Permutation (map f l) (map g l).
  Proof. intros H. rewrite (map_ext_in f g) by auto. apply Permutation_refl. Qed.

  Lemma ren_all_vars : Permutation (all_vars m') (map ren_v (all_vars m)).
  Proof.
    unfold all_vars. rewrite (al_bids _ _ A), (al_inter _ _ A), (al_loss _ _ A), (al_weights _ _ A), !map_app.
    apply Permutation_app; [|apply Permutation_app; [|apply Permutation_app; [|apply Permutation_app]]].
    - unfold bid_pvars. rewrite map_map. apply map_fixed. intros v Hv. unfold ren_v. cbn. now rewrite (fx_bids _ F).
    - unfold inter_pvars. rewrite map_map. apply map_fixed. intros v Hv. unfold ren_v. cbn. now rewrite (fx_inter _ F).
    - unfold loss_pvars. rewrite map_map. apply map_fixed. intros v Hv. unfold ren_v. cbn. now rewrite (fx_loss _ F).
    - unfold weight_pvars. rewrite map_map. apply map_fixed. intros v Hv. unfold ren_v. cbn. now rewrite (fx_weights _ F).
    - unfold deficit_pvars. eapply Permutation_trans; [apply Permutation_map, (dconcat_perm ren_d (m_deficits m)); [apply K|apply K'|apply A]|].
      rewrite !map_map. apply Permutation_refl.
  Qed.

  Lemma ren_all_costs : Permutation (all_costs m') (map ren_t (all_costs m)).
  Proof.
    unfold all_costs. rewrite (al_obj_bids _ _ A), map_app. apply Permutation_app.
    - rewrite map_map. rewrite (map_ext_in (fun o => (ob_var o, ob_cost o)) (fun o => ren_t (ob_var o, ob_cost o))); [apply Permutation_refl|].
      intros o Ho. unfold ren_t. cbn. now rewrite (fx_obj _ F).
    - eapply Permutation_trans; [apply Permutation_map, (dconcat_perm ren_k (m_obj_def m)); [apply K|apply K'|apply A]|].
      rewrite !map_map. apply Permutation_refl.
  Qed.

  Lemma ren_row_value x i : row_value (all_lhs m') x (rho i) == row_value (all_lhs m) (fun j => x (sigma j)) i.
  Proof.
    assert (E : row_value (all_lhs m') x (rho i) == row_value (map ren_l (all_lhs m)) x (rho i)).
    { unfold row_value. apply sumQ_permutation. 
      assert (PF : forall (p : lrow -> bool) l l', Permutation l l' -> Permutation (filter p l) (filter p l')).
      { intros p l l' H. induction H; cbn; [constructor|destruct (p x0); auto|destruct (p x0), (p y); auto using perm_swap, Permutation_refl|eapply Permutation_trans; eauto]. }
      apply PF. apply ren_all_lhs. }
    rewrite E, row_value_map. unfold row_value.
    rewrite (filter_ext (fun a => Nat.eqb (l_con (ren_l a)) (rho i)) (fun l => Nat.eqb (l_con l) i)).
    - apply sumQ_ext. intros a. reflexivity.
    - intros a. cbn. destruct (Nat.eqb (l_con a) i) eqn:E1.
      + apply Nat.eqb_eq in E1. subst. apply Nat.eqb_refl.
      + apply Nat.eqb_neq in E1. apply Nat.eqb_neq. intros E2. apply E1. now apply rho_inj.
  Qed.

  Lemma ren_check_lhs : check_lhs m' = check_lhs m.
  Proof.
    unfold check_lhs, no_regional_vars. rewrite (al_reg_bids _ _ A), (al_reg_inter _ _ A), (al_reg_loss _ _ A), (al_unit_bids _ _ A).
    pose proof (dict_empty _ _ _ (al_reg _ _ A)) as E1. pose proof (dict_empty _ _ _ (al_unit _ _ A)) as E2.
    destruct (m_c2v_reg m), (m_c2v_reg m'), (m_c2v_unit m), (m_c2v_unit m'); try reflexivity;
      exfalso; destruct E1 as [E1 E1'], E2 as [E2 E2']; (discriminate (E1 eq_refl) || discriminate (E2 eq_refl) || discriminate (E1' eq_refl) || discriminate (E2' eq_refl)).
  Qed.

  Lemma ren_no_variable_tables : no_variable_tables m' = no_variable_tables m.
  Proof.
    unfold no_variable_tables. rewrite (al_bids _ _ A), (al_inter _ _ A), (al_loss _ _ A), (al_weights _ _ A).
    destruct (dict_empty _ _ _ (al_def _ _ A)) as [E1 E1'].
    destruct (m_deficits m), (m_deficits m'); try reflexivity; (discriminate (E1 eq_refl) || discriminate (E1' eq_refl)).
  Qed.

  Lemma ren_no_rhs_tables : no_rhs_tables m' = no_rhs_tables m.
  Proof.
    unfold no_rhs_tables. rewrite (al_dyn _ _ A).
    pose proof (dict_empty _ _ _ (al_rhs _ _ A)) as E1. pose proof (dict_empty _ _ _ (al_mrhs _ _ A)) as E2.
    destruct (m_rhs m), (m_rhs m'), (m_mrhs m), (m_mrhs m'); try reflexivity;
      exfalso; destruct E1 as [E1 E1'], E2 as [E2 E2']; (discriminate (E1 eq_refl) || discriminate (E2 eq_refl) || discriminate (E1' eq_refl) || discriminate (E2' eq_refl)).
  Qed.

  Lemma var_in_ren i : In i (map pv_id (all_vars m)) <-> In (sigma i) (map pv_id (all_vars m')).
  Proof.
    split; intros H; apply in_map_iff in H; destruct H as [v [E H]].
    - apply in_map_iff. exists (ren_v v). split; [cbn; congruence|]. eapply Permutation_in; [symmetry; apply ren_all_vars|]. now apply in_map.
    - eapply Permutation_in in H; [|apply ren_all_vars]. apply in_map_iff in H. destruct H as [w [<- H]]. cbn in E.
      apply sigma_inj in E. subst. now apply in_map.
  Qed.

  Lemma row_ok_ren l : row_ok m l <-> row_ok m' (ren_l l).
  Proof.
    unfold row_ok. cbn. rewrite <- var_in_ren. split; intros [H1 [r [H2 [H3 H4]]]]; (split; [exact H1|]).
    - exists (ren_r r). repeat split; auto; [|cbn; congruence]. eapply Permutation_in; [symmetry; apply ren_all_rhs|]. now apply in_map.
    - eapply Permutation_in in H2; [|apply ren_all_rhs]. apply in_map_iff in H2. destruct H2 as [r0 [<- H2]]. cbn in *.
      exists r0. repeat split; auto.
  Qed.

  Lemma ren_assembles : wf m -> wf m' -> ((exists p, assemble m = Ok p) <-> (exists p, assemble m' = Ok p)).
  Proof.
    intros W W'. split; intros [p H]; apply assemble_rows in H; destruct H as [H1 [H2 [H3 [H4 H5]]]]; apply assemble_ok; auto.
    - now rewrite ren_check_lhs.
    - now rewrite ren_no_variable_tables.
    - intros t Ht. eapply Permutation_in in Ht; [|apply ren_all_costs]. apply in_map_iff in Ht. destruct Ht as [t0 [<- Ht]].
      cbn. apply -> var_in_ren. auto.
    - intros d Hd. rewrite (al_dyn _ _ A) in Hd. rewrite <- (proj2 (fx_dyn _ F d Hd)). apply -> var_in_ren. auto.
    - rewrite ren_no_rhs_tables. destruct H5 as [H5|[H5 H6]]; [now left|right]. split.
      + intros E. pose proof ren_all_lhs as P. rewrite E in P. apply Permutation_nil in P. apply map_eq_nil in P. auto.
      + intros l Hl. eapply Permutation_in in Hl; [|apply ren_all_lhs]. apply in_map_iff in Hl. destruct Hl as [l0 [<- Hl]].
        apply -> row_ok_ren. auto.
    - now rewrite <- ren_check_lhs.
    - now rewrite <- ren_no_variable_tables.
    - intros t Ht. apply <- var_in_ren. change (sigma (fst t)) with (fst (ren_t t)). apply H3.
      eapply Permutation_in; [symmetry; apply ren_all_costs|]. now apply in_map.
    - intros d Hd. apply <- var_in_ren. rewrite (proj2 (fx_dyn _ F d Hd)). apply H4. now rewrite (al_dyn _ _ A).
    - rewrite <- ren_no_rhs_tables. destruct H5 as [H5|[H5 H6]]; [now left|right]. split.
      + intros E. pose proof ren_all_lhs as P. rewrite E in P. cbn in P. apply Permutation_sym, Permutation_nil in P. auto.
      + intros l Hl. apply <- row_ok_ren. apply H6. eapply Permutation_in; [symmetry; apply ren_all_lhs|]. now apply in_map.
  Qed.

  Lemma ren_feasible p p' x : wf m -> wf m' -> assemble m = Ok p -> assemble m' = Ok p' ->
    (feasible p' x <-> feasible p (fun i => x (sigma i))).
  Proof.
    intros W W' E E'. rewrite (feasible_iff m' p' x W' E'), (feasible_iff m p _ W E).
    assert (V : (forall v, In v (all_vars m') -> in_bounds x v) <-> (forall v, In v (all_vars m) -> in_bounds (fun i => x (sigma i)) v)).
    { split; intros H v Hv.
      - assert (X : in_bounds x (ren_v v)) by (apply H; eapply Permutation_in; [symmetry; apply ren_all_vars|]; now apply in_map). exact X.
      - eapply Permutation_in in Hv; [|apply ren_all_vars]. apply in_map_iff in Hv. destruct Hv as [w [<- Hv]]. exact (H w Hv). }
    assert (R : forall r, In r (all_rhs m) -> rhs_value (r_rhs r) x = rhs_value (r_rhs r) (fun i => x (sigma i))).
    { intros r Hr. unfold all_rhs in Hr. rewrite !in_app_iff in Hr. destruct Hr as [Hr|[Hr|Hr]]; apply in_map_iff in Hr; destruct Hr as [d [<- Hd]]; cbn; [reflexivity..|].
      now rewrite (proj2 (fx_dyn _ F d Hd)). }
    assert (S2 : forall s, In s (sos2_sets (rows_or_nil (m_weights m))) -> forall i, In i s -> sigma i = i).
    { intros s Hs i Hi. unfold sos2_sets in Hs. apply in_map_iff in Hs. destruct Hs as [k [<- _]]. apply in_map_iff in Hi. destruct Hi as [w [<- Hi]].
      apply sort_rows_in in Hi. apply filter_In in Hi. apply (fx_weights _ F). tauto. }
    assert (S1 : forall s, In s (sos1_sets (rows_or_nil (m_inter m))) -> forall i, In i s -> sigma i = i).
    { intros s Hs i Hi. unfold sos1_sets in Hs. apply in_map_iff in Hs. destruct Hs as [k [<- _]]. apply in_map_iff in Hi. destruct Hi as [w [<- Hi]].
      apply filter_In in Hi. destruct Hi as [Hi _]. apply filter_In in Hi. apply (fx_inter _ F). tauto. }
    rewrite V, (al_weights _ _ A), (al_inter _ _ A).
    assert (B : (forall r, In r (all_rhs m') -> (exists l, In l (all_lhs m') /\ l_con l = r_id r) -> relation (r_type r) (row_value (all_lhs m') x (r_id r)) (rhs_value (r_rhs r) x))
      <-> (forall r, In r (all_rhs m) -> (exists l, In l (all_lhs m) /\ l_con l = r_id r) -> relation (r_type r) (row_value (all_lhs m) (fun i => x (sigma i)) (r_id r)) (rhs_value (r_rhs r) (fun i => x (sigma i))))).
    { split; intros H r Hr [l [Hl El]].
      - rewrite <- R by auto. assert (X : relation (r_type r) (row_value (all_lhs m') x (rho (r_id r))) (rhs_value (r_rhs r) x)).
        { apply (H (ren_r r)).
          - eapply Permutation_in; [symmetry; apply ren_all_rhs|]. now apply in_map.
          - exists (ren_l l). split; [|cbn; congruence]. eapply Permutation_in; [symmetry; apply ren_all_lhs|]. now apply in_map. }
        unfold relation in *. rewrite ren_row_value in X. exact X.
      - eapply Permutation_in in Hr; [|apply ren_all_rhs]. apply in_map_iff in Hr. destruct Hr as [r0 [<- Hr]]. cbn [r_id r_type r_rhs ren_r] in *.
        eapply Permutation_in in Hl; [|apply ren_all_lhs]. apply in_map_iff in Hl. destruct Hl as [l0 [<- Hl]]. cbn [l_con ren_l] in El. apply rho_inj in El.
        rewrite R by auto. specialize (H r0 Hr (ex_intro _ l0 (conj Hl El))). unfold relation in *. rewrite ren_row_value. exact H. }
    rewrite B.
    assert (C2 : (forall s, In s (sos2_sets (rows_or_nil (m_weights m))) -> sos2_ok x s) <-> (forall s, In s (sos2_sets (rows_or_nil (m_weights m))) -> sos2_ok (fun i => x (sigma i)) s)).
    { split; intros H s Hs; eapply sos2_ext; [| apply (H s Hs)| | apply (H s Hs)]; intros i Hi; cbv beta; rewrite (S2 s Hs i Hi); reflexivity. }
    assert (C1 : (forall s, In s (sos1_sets (rows_or_nil (m_inter m))) -> sos1_ok x s) <-> (forall s, In s (sos1_sets (rows_or_nil (m_inter m))) -> sos1_ok (fun i => x (sigma i)) s)).
    { split; intros H s Hs; eapply sos1_ext; [| apply (H s Hs)| | apply (H s Hs)]; intros i Hi; cbv beta; rewrite (S1 s Hs i Hi); reflexivity. }
    rewrite C2, C1. reflexivity.
  Qed.

  Lemma ren_objective p p' x : assemble m = Ok p -> assemble m' = Ok p' -> objective p' x == objective p (fun i => x (sigma i)).
  Proof.
    intros E E'. apply assemble_parts in E. apply assemble_parts in E'. destruct E as [_ [E _]], E' as [_ [E' _]].
    unfold objective. rewrite E, E', !linear_sum. rewrite (sumQ_permutation _ _ _ ren_all_costs). rewrite sumQ_map. reflexivity.
  Qed.
End Renumber.
