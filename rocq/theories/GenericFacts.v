(** Generic constraints and FCAS requirement sets. *)

From Coq Require Import QArith Lqa String List Bool Arith Lia ZArith.
Import ListNotations.
From Verif Require Import PandasModel TablesModel VariableIdsModel MarketConstraintsModel
  UnitConstraintsModel RampModel FcasModel InterModel ElasticModel MarketModel SolverModel
  SpecLp PandasFacts SpecHistory SpecIds SpecDispatch SpecNetwork SpecElastic StepFacts InvariantFacts OwnerFacts SolverFacts
  MeaningFacts LimitFacts TableFacts BidFacts JointRampFacts BalanceFacts.
Open Scope string_scope.
Open Scope list_scope.

(** ** Keys of the unit level maps *)

Definition unit_map_keys (m : market) : Prop := forall k l, In (k, l) (m_c2v_unit m) -> In k unit_keys.

Lemma step_unit_map_keys o m : unit_map_keys m -> unit_map_keys (fst (step o m)).
Proof.
  apply (step_preserves unit_map_keys (fun _ => True)) with (ok := fun _ _ => True); auto.
  - intros t m0 H. unfold set_volume_bids. repeat (apply guard_fst; [exact H|intros _]).
    destruct (next_id _); exact H.
  - intros t m0 H. unfold set_price_bids. destruct (m_bids m0); [|exact H].
    repeat (apply guard_fst; [exact H|intros _]). exact H.
  - intros k mr mm m0 Hk _ _ H.
    assert (D : forall l, unit_map_keys (set_m_c2v_unit (dset k l (m_c2v_unit m0)) m0)).
    { intros l k' l'. fields. intros Hi. apply in_dset in Hi. destruct Hi as [[-> _]|Hi]; [auto|now apply H in Hi]. }
    unfold new_unit_group, put_unit. destruct (m_nc m0).
    + destruct (next_id _); apply D.
    + destruct (mr 0%nat); apply D.
  - intros k mr mm m0 _ _ _ H. unfold new_regional_group. destruct (m_nc m0).
    + destruct (next_id _); exact H.
    + destruct (mr 0%nat); exact H.
  - intros k v m0 _ H. unfold make_elastic. destruct (group_rows k m0); [|exact H].
    assert (A : forall rows m1, unit_map_keys m1 -> unit_map_keys (fst (add_deficits k rows m1))).
    { intros rows m1 H1. unfold add_deficits. destruct rows; [exact H1|]. destruct (next_id _); exact H1. }
    destruct v; auto.
    + apply guard_fst; [exact H|]. intros _. destruct (has_set_column k); auto.
    + destruct l; exact H.
  - intros m0 _ H. unfold remove_fast_start. fields.
    destruct (dhas "fast_start" (m_rhs m0)); fields; destruct (dhas "fast_start_deficit" (m_deficits m0));
      intros k l; fields; intros Hi; try (apply in_ddel in Hi); now apply H in Hi.
  - intros l m0 H. unfold set_interconnectors. apply guard_fst; [exact H|]. intros _.
    destruct (next_id _); exact H.
  - intros pairs m0 _ _ H. unfold put_tie. destruct (m_nc m0); exact H.
  - intros lf bps m0 _ _ H. destruct (set_losses_cases lf bps m0) as [[e E]|[[e E]|[p [_ E]]]]; rewrite E; exact H.
  - intros l v m0 _ _ H. unfold put_generic. destruct (m_nc m0); exact H.
Qed.

Lemma reached_unit_keys c m : reached c m -> unit_map_keys m.
Proof.
  intros [m0 [ops [H0 [_ ->]]]]. apply run_preserves; [intros; now apply step_unit_map_keys|].
  unfold new_market in H0. destruct (check_unit_info c); inversion H0. intros k l [].
Qed.

(** ** Values of linked terms *)

Lemma dconcat_NoDup_part {A B} (f : A -> B) k l (d : dict (list A)) :
  NoDup (map f (dconcat d)) -> In (k, l) d -> NoDup (map f l).
Proof.
  induction d as [|[k' l'] t IH]; intros ND H; [destruct H|].
  change (dconcat ((k', l') :: t)) with (l' ++ dconcat t) in ND. rewrite map_app in ND.
  apply NoDup_app_iff in ND. destruct H as [H|H]; [inversion H; subst; tauto|]. apply IH; tauto.
Qed.

Lemma generic_ids_NoDup m : wf m ->
  NoDup (map cr_id (rows_or_nil (dget "generic" (m_rhs m)) ++ rows_or_nil (dget "fcas" (m_mrhs m)))).
Proof.
  intros W. pose proof (wf_rhs_NoDup m W) as ND. unfold all_rhs in ND. rewrite !map_app in ND.
  unfold static_rrows in ND. rewrite !map_map in ND. cbn [r_id] in ND. rewrite map_app.
  apply NoDup_app_iff in ND. destruct ND as [N1 [N2 N3]]. apply NoDup_app_iff in N2. destruct N2 as [N2 [_ _]].
  apply NoDup_app_iff. repeat split.
  - destruct (dget "generic" (m_rhs m)) as [l|] eqn:E; [|constructor]. apply dget_in in E.
    now apply (dconcat_NoDup_part cr_id) in E.
  - destruct (dget "fcas" (m_mrhs m)) as [l|] eqn:E; [|constructor]. apply dget_in in E.
    now apply (dconcat_NoDup_part cr_id) in E.
  - intros i H1 H2. apply (N3 i).
    + destruct (dget "generic" (m_rhs m)) as [l|] eqn:E; [|destruct H1]. apply dget_in in E.
      cbn [rows_or_nil] in H1. apply in_map_iff in H1. destruct H1 as [r [<- H1]]. apply (in_map (fun r => cr_id r)).
      apply in_dconcat. eauto.
    + destruct (dget "fcas" (m_mrhs m)) as [l|] eqn:E; [|destruct H2]. apply dget_in in E.
      cbn [rows_or_nil] in H2. apply in_map_iff in H2. destruct H2 as [r [<- H2]]. apply in_or_app. left.
      apply (in_map (fun r => cr_id r)). apply in_dconcat. eauto.
Qed.

Lemma pick_id ids r s' q : NoDup (map cr_id ids) -> In r ids ->
  sumQ (fun r' => if Nat.eqb (cr_id r') (cr_id r) then q else 0) (filter (fun r' => in_set r' s') ids)
  == if in_set r s' then q else 0.
Proof.
  intros ND Hr. rewrite sumQ_filter.
  transitivity (sumQ (fun r' => if Nat.eqb (cr_id r') (cr_id r) then (if in_set r' s' then q else 0) else 0) ids).
  - apply sumQ_ext. intros r'. destruct (in_set r' s'), (Nat.eqb (cr_id r') (cr_id r)); reflexivity.
  - rewrite (sumQ_pick (fun r' => if in_set r' s' then q else 0) _ r); auto.
    + reflexivity.
    + apply Nat.eqb_refl.
    + intros b Hb E. apply Nat.eqb_eq in E. now apply (NoDup_map_inj cr_id ids).
    + now apply NoDup_map_inv in ND.
Qed.

(** Three nested joins: links, variables, constraint rows. *)
Lemma linked_rows_value {G V} (on : G -> V -> bool) (gset : G -> string) (coef : G -> V -> Q) (vid : V -> nat)
  (gs : list G) (vs : list V) ids r s x :
  NoDup (map cr_id ids) -> In r ids -> cr_key r = KSet s ->
  row_value (map (fun p => let '((g, v), r) := p in LRow (cr_id r) (vid v) (coef g v))
      (merge (fun (p : G * V) r => in_set r (gset (fst p))) (merge on gs vs) ids)) x (cr_id r)
  == sumQ (fun g => sumQ (fun v => coef g v * x (vid v)) (filter (on g) vs)) (filter (fun g => String.eqb s (gset g)) gs).
Proof.
  intros ND Hr Ek. rewrite row_value_map, sumQ_filter, sumQ_merge, sumQ_merge, sumQ_filter.
  apply sumQ_ext. intros g. cbn [fst snd].
  transitivity (sumQ (fun v => if String.eqb s (gset g) then coef g v * x (vid v) else 0) (filter (on g) vs)).
  - apply sumQ_ext. intros v. cbn [l_con l_coef l_var].
    rewrite (pick_id ids r (gset g) (coef g v * x (vid v)) ND Hr). unfold in_set. rewrite Ek. reflexivity.
  - destruct (String.eqb s (gset g)); [reflexivity|]. now apply sumQ_zero.
Qed.

Lemma has_side_registered c u d : has_side c u d = true <-> registered c u d.
Proof.
  unfold has_side, registered. rewrite existsb_exists. split.
  - intros [r [Hr E]]. apply andb_true_iff in E. rewrite !String.eqb_eq in E. exists r. tauto.
  - intros [r [Hr [E1 E2]]]. exists r. rewrite E1, E2, !String.eqb_refl. auto.
Qed.

Lemma uv_registered m v : wf m -> In v (rows_or_nil (m_unit_bids m)) -> registered (m_cfg m) (uv_unit v) (uv_dt v).
Proof.
  intros W H. destruct (bids_tables m W) as [vs [_ [_ E]]]. rewrite E in H. unfold bid_unit_map in H.
  apply in_map_iff in H. destruct H as [[b u] [<- H]]. apply in_merge in H. destruct H as [_ [H1 H2]].
  apply andb_true_iff in H2. rewrite !String.eqb_eq in H2. exists u. cbn. intuition.
Qed.

Lemma unit_term_side m x u s d : wf m ->
  unit_term (rows_or_nil (m_unit_bids m)) x u s d
  == if has_side (m_cfg m) u d then load_sign m u s d * dispatch m x u s d else 0.
Proof.
  intros W. destruct (has_side (m_cfg m) u d) eqn:E.
  - apply has_side_registered in E. now apply unit_term_dispatch.
  - unfold unit_term. apply sumQ_zero. intros v Hv. apply filter_In in Hv. destruct Hv as [H1 H2].
    apply (uv_registered m v W) in H1. rewrite !andb_true_iff, !String.eqb_eq in H2. destruct H2 as [[E1 _] E2].
    rewrite <- E1, <- E2 in H1. apply has_side_registered in H1. congruence.
Qed.

Lemma unit_output_value m x u s : wf m ->
  sumQ (fun v => uv_coef v * x (uv_id v))
    (filter (fun v => String.eqb u (uv_unit v) && String.eqb s (uv_service v)) (rows_or_nil (m_unit_bids m)))
  == unit_output m x u s.
Proof.
  intros W.
  transitivity (unit_term (rows_or_nil (m_unit_bids m)) x u s "generator" + unit_term (rows_or_nil (m_unit_bids m)) x u s "load").
  - unfold unit_term. rewrite !sumQ_filter, <- sumQ_plus. apply sumQ_ext_in. intros v Hv.
    apply (uv_registered m v W) in Hv. apply registered_dt in Hv; [|apply W].
    destruct (String.eqb u (uv_unit v)); cbn [andb]; [|ring]. destruct (String.eqb s (uv_service v)); cbn [andb]; [|ring].
    destruct Hv as [-> | ->]; cbn; ring.
  - rewrite !(unit_term_side m x u s _ W). unfold unit_output, load_sign.
    change (String.eqb "generator" "load") with false. change (String.eqb "load" "load") with true.
    rewrite !andb_false_r, !andb_true_r.
    destruct (String.eqb s "energy"); cbn [andb]; rewrite ?andb_false_r, ?andb_true_r.
    + destruct (has_side (m_cfg m) u "generator") eqn:G; destruct (has_side (m_cfg m) u "load") eqn:L; cbn [andb].
      * rewrite (bdu_true (m_cfg m) u m W eq_refl); [ring|]. split; now apply has_side_registered.
      * ring.
      * rewrite (bdu_false (m_cfg m) u m W eq_refl); [ring|]. intros [T _]. apply has_side_registered in T. congruence.
      * ring.
    + destruct (has_side (m_cfg m) u "generator"), (has_side (m_cfg m) u "load"); ring.
Qed.

Lemma region_dispatch_value m x r s : wf m ->
  sumQ (fun v => x (rv_id v))
    (filter (fun v => String.eqb r (rv_region v) && String.eqb s (rv_service v)) (rows_or_nil (m_reg_bids m)))
  == region_dispatch m x r s.
Proof.
  intros W. destruct (bids_tables m W) as [vs [E1 [E2 _]]]. rewrite E2.
  change (region_dispatch m x r s) with (sumQ (fun u => dispatch m x (ui_unit u) s (ui_dt u))
    (filter (fun u => String.eqb r (ui_region u)) (c_ui (m_cfg m)))).
  unfold bid_regional_map, bid_constraint_map. rewrite sumQ_filter, sumQ_map, sumQ_merge.
  transitivity (sumQ (fun v => sumQ (fun u => if String.eqb r (ui_region u) then (if
      String.eqb (ui_unit u) (bv_unit v) && String.eqb s (bv_service v) && String.eqb (ui_dt u) (bv_dt v)
      then x (bv_id v) else 0) else 0) (c_ui (m_cfg m))) vs).
  - apply sumQ_ext. intros v. rewrite sumQ_filter. apply sumQ_ext. intros u.
    cbn [rv_region rv_service rv_coef rv_id].
    rewrite (String.eqb_sym (bv_unit v)), (String.eqb_sym (bv_dt v)).
    destruct (String.eqb (ui_unit u) (bv_unit v)); cbn [andb]; [|destruct (String.eqb r (ui_region u)); ring].
    destruct (String.eqb (ui_dt u) (bv_dt v)); cbn [andb]; [rewrite andb_true_r|rewrite andb_false_r];
      destruct (String.eqb r (ui_region u)); cbn [andb]; reflexivity.
  - rewrite sumQ_swap, sumQ_filter. apply sumQ_ext. intros u. destruct (String.eqb r (ui_region u)).
    + rewrite dispatch_sum, E1, sumQ_filter. reflexivity.
    + apply sumQ_zero. reflexivity.
Qed.

Definition link_tables (gu : list gunit_row) (gr : list gregion_row) (gi : list ginter_row) (m : market) : Prop :=
  rows_or_nil (m_gen_unit m) = gu /\ rows_or_nil (m_gen_region m) = gr /\ rows_or_nil (m_gen_inter m) = gi.

Lemma merge_nil_l {A B} (on : A -> B -> bool) (r : list B) : merge on [] r = [].
Proof. reflexivity. Qed.

Lemma generic_value m x gu gr gi r s : wf m -> link_tables gu gr gi m ->
  In r (rows_or_nil (dget "generic" (m_rhs m)) ++ rows_or_nil (dget "fcas" (m_mrhs m))) -> cr_key r = KSet s ->
  row_value (generic_lhs m) x (cr_id r) == linked m x gu gr gi s.
Proof.
  intros W [T1 [T2 T3]] Hr Ek. pose proof (generic_ids_NoDup m W) as ND.
  assert (EI : generic_ids m = Some (rows_or_nil (dget "generic" (m_rhs m)) ++ rows_or_nil (dget "fcas" (m_mrhs m)))).
  { unfold generic_ids. destruct (dget "generic" (m_rhs m)); [reflexivity|]. destruct (dget "fcas" (m_mrhs m)); [reflexivity|destruct Hr]. }
  unfold generic_lhs. rewrite EI. set (ids := rows_or_nil (dget "generic" (m_rhs m)) ++ _) in *.
  assert (U : match m_gen_unit m, m_unit_bids m with Some gs, Some vs => generic_unit_lhs gs ids vs | _, _ => [] end
    = generic_unit_lhs gu ids (rows_or_nil (m_unit_bids m))).
  { rewrite <- T1. destruct (m_gen_unit m); cbn [rows_or_nil]; [|reflexivity].
    destruct (m_unit_bids m); cbn [rows_or_nil]; [reflexivity|]. unfold generic_unit_lhs. now rewrite merge_nil_r, merge_nil_l. }
  assert (R : match m_gen_region m, m_reg_bids m with Some gs, Some vs => generic_region_lhs gs ids vs | _, _ => [] end
    = generic_region_lhs gr ids (rows_or_nil (m_reg_bids m))).
  { rewrite <- T2. destruct (m_gen_region m); cbn [rows_or_nil]; [|reflexivity].
    destruct (m_reg_bids m); cbn [rows_or_nil]; [reflexivity|]. unfold generic_region_lhs. now rewrite merge_nil_r, merge_nil_l. }
  assert (In' : match m_gen_inter m, m_inter m with Some gs, Some vs => generic_inter_lhs gs ids vs | _, _ => [] end
    = generic_inter_lhs gi ids (rows_or_nil (m_inter m))).
  { rewrite <- T3. destruct (m_gen_inter m); cbn [rows_or_nil]; [|reflexivity].
    destruct (m_inter m); cbn [rows_or_nil]; [reflexivity|]. unfold generic_inter_lhs. now rewrite merge_nil_r, merge_nil_l. }
  rewrite U, R, In', !row_value_app. unfold generic_unit_lhs, generic_region_lhs, generic_inter_lhs.
  rewrite (linked_rows_value (fun g v => String.eqb (gu_unit g) (uv_unit v) && String.eqb (gu_service g) (uv_service v))
    gu_set (fun g v => gu_coef g * uv_coef v) uv_id gu _ ids r s x ND Hr Ek).
  rewrite (linked_rows_value (fun g v => String.eqb (gr_region g) (rv_region v) && String.eqb (gr_service g) (rv_service v))
    gr_set (fun g v => gr_coef g) rv_id gr _ ids r s x ND Hr Ek).
  rewrite (linked_rows_value (fun g v => String.eqb (gi_inter g) (iv_inter v))
    gi_set (fun g v => gi_coef g * inject_Z (iv_gcf v)) iv_id gi _ ids r s x ND Hr Ek).
  unfold linked. rewrite Qplus_assoc. apply Qplus_comp; [apply Qplus_comp|].
  - apply (sumQ_ext (fun g => _)). intros g. rewrite <- (unit_output_value m x (gu_unit g) (gu_service g) W), <- sumQ_scale.
    apply sumQ_ext. intros v. ring.
  - apply (sumQ_ext (fun g => _)). intros g. rewrite <- (region_dispatch_value m x (gr_region g) (gr_service g) W), <- sumQ_scale.
    reflexivity.
  - apply (sumQ_ext (fun g => _)). intros g.
    change (interconnector_flow m x (gi_inter g)) with (sumQ (fun v => inject_Z (iv_gcf v) * x (iv_id v))
      (filter (fun v => String.eqb (gi_inter g) (iv_inter v)) (rows_or_nil (m_inter m)))).
    rewrite <- sumQ_scale. apply sumQ_ext. intros v. ring.
Qed.

(** ** The link tables in force *)

Lemma links_inv c gu gr gi m : links c gu gr gi m -> link_tables gu gr gi m.
Proof.
  intros [m0 [ops [H0 [_ [-> [S1 [S2 S3]]]]]]].
  assert (N : m_gen_unit m0 = None /\ m_gen_region m0 = None /\ m_gen_inter m0 = None).
  { unfold new_market in H0. destruct (check_unit_info c); inversion H0. cbn. auto. }
  destruct N as [N1 [N2 N3]]. repeat split.
  - destruct S1 as [[pre [post [-> [A L]]]]|[-> L]].
    + rewrite run_app, run_cons. destruct (run_same_table "unit links" post (fst (step (OpLinkUnits gu) (run pre m0)))
        (L _ ltac:(cbn; auto))) as [_ [_ [_ [_ [T _]]]]]. rewrite (T eq_refl).
      cbn [step]. unfold link_units. cbn [step] in A. unfold link_units in A.
      destruct (check_gunit (run pre m0) gu); [discriminate|]. reflexivity.
    + destruct (run_same_table "unit links" ops m0 (L _ ltac:(cbn; auto))) as [_ [_ [_ [_ [T _]]]]].
      now rewrite (T eq_refl), N1.
  - destruct S2 as [[pre [post [-> [A L]]]]|[-> L]].
    + rewrite run_app, run_cons. destruct (run_same_table "region links" post (fst (step (OpLinkRegions gr) (run pre m0)))
        (L _ ltac:(cbn; auto))) as [_ [_ [_ [_ [_ [T _]]]]]]. rewrite (T eq_refl).
      cbn [step]. unfold link_regions. cbn [step] in A. unfold link_regions in A.
      destruct (check_gregion (run pre m0) gr); [discriminate|]. reflexivity.
    + destruct (run_same_table "region links" ops m0 (L _ ltac:(cbn; auto))) as [_ [_ [_ [_ [_ [T _]]]]]].
      now rewrite (T eq_refl), N2.
  - destruct S3 as [[pre [post [-> [A L]]]]|[-> L]].
    + rewrite run_app, run_cons. destruct (run_same_table "interconnector links" post (fst (step (OpLinkInters gi) (run pre m0)))
        (L _ ltac:(cbn; auto))) as [_ [_ [_ [_ [_ [_ [T _]]]]]]]. rewrite (T eq_refl).
      cbn [step]. unfold link_inters. cbn [step] in A. unfold link_inters in A.
      destruct (check_ginter gi); [discriminate|]. reflexivity.
    + destruct (run_same_table "interconnector links" ops m0 (L _ ltac:(cbn; auto))) as [_ [_ [_ [_ [_ [_ [T _]]]]]]].
      now rewrite (T eq_refl), N3.
Qed.

(** A linked variable gives the constraint a left-hand side. *)
Lemma some_linked_row m gu gr gi r s : wf m -> link_tables gu gr gi m ->
  In r (rows_or_nil (dget "generic" (m_rhs m)) ++ rows_or_nil (dget "fcas" (m_mrhs m))) -> cr_key r = KSet s ->
  some_linked m gu gr gi s -> exists l, In l (generic_lhs m) /\ l_con l = cr_id r.
Proof.
  intros W [T1 [T2 T3]] Hr Ek H.
  assert (EI : generic_ids m = Some (rows_or_nil (dget "generic" (m_rhs m)) ++ rows_or_nil (dget "fcas" (m_mrhs m)))).
  { unfold generic_ids. destruct (dget "generic" (m_rhs m)); [reflexivity|]. destruct (dget "fcas" (m_mrhs m)); [reflexivity|destruct Hr]. }
  unfold generic_lhs. rewrite EI. set (ids := rows_or_nil (dget "generic" (m_rhs m)) ++ _) in *.
  assert (Es : in_set r s = true) by (unfold in_set; rewrite Ek; apply String.eqb_refl).
  destruct H as [[g [d [Hg [Eg [R Of]]]]]|[[g [Hg [Eg [u [Hu [Er Of]]]]]]|[g [v [Hg [Eg [Hv Ev]]]]]]].
  - destruct (offers_uv m _ _ _ W R Of) as [v [Hv [V1 [V2 V3]]]].
    exists (LRow (cr_id r) (uv_id v) (gu_coef g * uv_coef v)). split; [|reflexivity].
    apply in_or_app. left. destruct (m_gen_unit m) as [gs|]; cbn [rows_or_nil] in T1; [subst gs|subst gu; destruct Hg].
    destruct (m_unit_bids m) as [vs|]; [|destruct Hv]. cbn [rows_or_nil] in Hv.
    unfold generic_unit_lhs. apply in_map_iff. exists ((g, v), r). split; [reflexivity|]. apply in_merge. cbn [fst].
    rewrite Eg. repeat split; auto. apply in_merge. rewrite V1, V2, !String.eqb_refl. auto.
  - destruct Of as [b [Hb [B1 [B2 B3]]]]. destruct (bids_tables m W) as [vs [F1 [F2 _]]].
    set (v := RV (bv_id b) (ui_region u) (bv_service b)
            (if String.eqb (bv_dt b) "load" && String.eqb (bv_service b) "energy" then -(1) else 1)).
    assert (Hv : In v (rows_or_nil (m_reg_bids m))).
    { rewrite F2. unfold bid_regional_map, bid_constraint_map. apply in_map_iff. exists (b, u). split; [reflexivity|].
      apply in_merge. rewrite F1 in Hb. rewrite B1, B3, !String.eqb_refl. auto. }
    exists (LRow (cr_id r) (rv_id v) (gr_coef g)). split; [|reflexivity].
    apply in_or_app. right. apply in_or_app. left.
    destruct (m_gen_region m) as [gs|]; cbn [rows_or_nil] in T2; [subst gs|subst gr; destruct Hg].
    destruct (m_reg_bids m) as [ws|]; [|destruct Hv]. cbn [rows_or_nil] in Hv.
    unfold generic_region_lhs. apply in_map_iff. exists ((g, v), r). split; [reflexivity|]. apply in_merge. cbn [fst].
    rewrite Eg. repeat split; auto. apply in_merge. cbn [rv_region rv_service v]. rewrite Er, B2, !String.eqb_refl. auto.
  - exists (LRow (cr_id r) (iv_id v) (gi_coef g * inject_Z (iv_gcf v))). split; [|reflexivity].
    apply in_or_app. right. apply in_or_app. right.
    destruct (m_gen_inter m) as [gs|]; cbn [rows_or_nil] in T3; [subst gs|subst gi; destruct Hg].
    destruct (m_inter m) as [ws|]; [|destruct Hv]. cbn [rows_or_nil] in Hv.
    unfold generic_inter_lhs. apply in_map_iff. exists ((g, v), r). split; [reflexivity|]. apply in_merge. cbn [fst].
    rewrite Eg. repeat split; auto. apply in_merge. rewrite Ev, !String.eqb_refl. auto.
Qed.

(** ** The generic group *)

Definition generic_group_at (rows : list crow) (m : market) (x : assignment) : Prop :=
  dget "generic" (m_rhs m) = Some rows /\ silent "generic" rows m x.

Lemma generic_inv c l v m x : upheld c (OpGeneric l v) m x ->
  owned m /\ m_cfg m = c /\ exists n, generic_group_at (generic_rhs l n) m x.
Proof.
  intros I. apply upheld_inv in I. destruct I as [O [C [m' [m1 [O' [C' [St K]]]]]]]. split; [exact O|]. split; [exact C|].
  cbn [step] in St. unfold set_generic in St. apply guard_ok in St. destruct St as [_ St].
  destruct O' as [W' [f [n Ow]]]. rewrite (ow_nc _ _ _ Ow) in St. cbv zeta in St. exists n.
  match type of St with maybe_elastic _ _ ?M = _ => set (m2 := M) in St end.
  apply (proj2 (proj2 (K "generic" m2 ltac:(cbn; auto) (maybe_settled (OpGeneric l v) _ _ _ St)))).
  - unfold m2. fields. apply dget_dset_same.
  - unfold free_of, m2. fields. intros lr r Hl Hr E.
    destruct (dget (deficit_key "generic") (m_lhs m')) as [ls|] eqn:D; [|destruct Hl].
    cbn [rows_or_nil] in Hl. apply dget_in in D. destruct (ow_lhs _ _ _ Ow _ _ _ D Hl) as [_ L].
    unfold generic_rhs in Hr. apply in_map_iff in Hr. destruct Hr as [[i g] [<- Hr]]. cbn [cr_id] in E.
    apply in_save_index in Hr. cbn in Hr. lia.
Qed.

Lemma generic_row_value m rows r x : owned m -> unit_map_keys m -> generic_group_at rows m x -> In r rows ->
  row_value (all_lhs m) x (cr_id r) == row_value (generic_lhs m) x (cr_id r).
Proof.
  intros [W [f [n O]]] UK [G1 G3] Hr.
  assert (Fr : f (cr_id r) = GRhs "generic") by (apply dget_in in G1; apply (ow_rhs _ _ _ O _ _ _ G1 Hr)).
  unfold all_lhs. rewrite !row_value_app.
  assert (L : row_value (dconcat (m_lhs m)) x (cr_id r) == 0).
  { apply (lhs_part f n m "generic" _ _ O).
    - left. split; [exact Fr|]. split; discriminate.
    - intros l Hl E. exact (G3 l r Hl Hr E). }
  rewrite L, (regional_part_none f n m "generic") by auto.
  rewrite (row_value_none (unit_lhs _ _)); [ring|].
  intros l Hl E2. apply in_unit_lhs in Hl. destruct Hl as [c [v [H1 [_ [_ [_ [_ ->]]]]]]]. cbn in E2.
  apply in_dconcat in H1. destruct H1 as [k' [cs [H1 H2]]].
  destruct (ow_unit _ _ _ O _ _ _ H1 H2) as [E _]. rewrite E2, Fr in E. inversion E; subst k'.
  apply UK in H1. now apply unit_key_ok in H1.
Qed.

Lemma generic_upheld c l v gu gr gi m x : upheld c (OpGeneric l v) m x -> links c gu gr gi m -> solution m x ->
  forall g, In g l -> some_linked m gu gr gi (ge_set g) ->
  relation (ge_type g) (linked m x gu gr gi (ge_set g)) (ge_rhs g).
Proof.
  intros I L [p [A F]] g Hg So. pose proof (reached_unit_keys c m (upheld_reached _ _ _ _ I)) as UK.
  apply links_inv in L. apply generic_inv in I. destruct I as [O [C [n G]]].
  pose proof (save_index_in n _ _ Hg) as [i Hi].
  set (r := CRow i (ge_type g) (ge_rhs g) (KSet (ge_set g))).
  assert (Hr : In r (generic_rhs l n)) by (unfold generic_rhs; apply in_map_iff; exists (i, g); auto).
  assert (Hr2 : In r (rows_or_nil (dget "generic" (m_rhs m)) ++ rows_or_nil (dget "fcas" (m_mrhs m)))).
  { apply in_or_app. left. rewrite (proj1 G). exact Hr. }
  destruct (some_linked_row m gu gr gi r (ge_set g) (proj1 O) L Hr2 eq_refl So) as [lr [Hl El]].
  pose proof (feasible_row m p x _ (proj1 O) A F (in_all_rhs_unit m "generic" _ r (proj1 G) Hr)) as R.
  cbn [r_type r_id r_rhs rhs_value] in R.
  eapply relation_ext; [|apply R].
  - rewrite (generic_row_value m _ r x O UK G Hr). exact (generic_value m x gu gr gi r _ (proj1 O) L Hr2 eq_refl).
  - exists lr. split; [|exact El]. unfold all_lhs. apply in_or_app. right. apply in_or_app. left. exact Hl.
Qed.

Lemma generic_respected c l gu gr gi m x : in_force c (OpGeneric l None) m -> links c gu gr gi m -> solution m x ->
  forall g, In g l -> some_linked m gu gr gi (ge_set g) ->
  relation (ge_type g) (linked m x gu gr gi (ge_set g)) (ge_rhs g).
Proof. intros I. exact (generic_upheld c l None gu gr gi m x (in_force_upheld _ _ _ _ I eq_refl)). Qed.

(** ** FCAS requirement sets *)

Definition set_regions (l : list fcas_req_row) (s : string) : list fcas_req_row :=
  filter (fun r => String.eqb s (fq_set r)) l.

Lemma fcas_inv c l v m x : upheld c (OpFcasReq l v) m x ->
  owned m /\ m_cfg m = c /\ exists n, regional_group_at "fcas" (fcas_rhs l n) (fcas_map l n) m x.
Proof.
  intros I. apply upheld_inv in I. destruct I as [O [C [m' [m1 [O' [C' [St K]]]]]]]. split; [exact O|]. split; [exact C|].
  cbn [step] in St. unfold set_fcas_req in St. apply guard_ok in St. destruct St as [_ St].
  apply andthen_ok in St. destruct St as [m2 [St E]].
  destruct (new_regional_group_is "fcas" _ _ m' m2 O' (fcas_ok l) St) as [n [_ G]]. exists n.
  apply (K "fcas" m2); [cbn; auto|exact (maybe_settled (OpFcasReq l v) _ _ _ E)|exact G].
Qed.

Lemma drop_head {A} (same : A -> A -> bool) l1 a l2 :
  (forall b, In b l1 -> same b a = false) -> In a (drop_duplicates same (l1 ++ a :: l2)).
Proof.
  induction l1 as [|b t IH]; intros H; cbn; [now left|]. right. apply filter_In.
  split; [apply IH; intros; apply H; now right|]. rewrite H by now left. reflexivity.
Qed.

Definition energy_only (m : market) : Prop :=
  (forall a, In a (rows_or_nil (m_reg_inter m)) -> rv_service (ir_rv a) = "energy")
  /\ (forall v, In v (rows_or_nil (m_reg_loss m)) -> rv_service v = "energy").

Lemma step_energy_only o m : energy_only m -> energy_only (fst (step o m)).
Proof.
  apply (step_preserves energy_only (fun _ => True)) with (ok := fun _ _ => True); auto.
  - intros t m0 H. unfold set_volume_bids. repeat (apply guard_fst; [exact H|intros _]).
    destruct (next_id _); exact H.
  - intros t m0 H. unfold set_price_bids. destruct (m_bids m0); [|exact H].
    repeat (apply guard_fst; [exact H|intros _]). exact H.
  - intros k mr mm m0 Hk _ _ H. unfold new_unit_group, put_unit. destruct (m_nc m0).
    + destruct (next_id _); exact H.
    + destruct (mr 0%nat); exact H.
  - intros k mr mm m0 _ _ _ H. unfold new_regional_group. destruct (m_nc m0).
    + destruct (next_id _); exact H.
    + destruct (mr 0%nat); exact H.
  - intros k v m0 _ H. unfold make_elastic. destruct (group_rows k m0); [|exact H].
    assert (A : forall rows m1, energy_only m1 -> energy_only (fst (add_deficits k rows m1))).
    { intros rows m1 H1. unfold add_deficits. destruct rows; [exact H1|]. destruct (next_id _); exact H1. }
    destruct v; auto.
    + apply guard_fst; [exact H|]. intros _. destruct (has_set_column k); auto.
    + destruct l; exact H.
  - intros m0 _ H. unfold remove_fast_start. fields.
    destruct (dhas "fast_start" (m_rhs m0)); fields; destruct (dhas "fast_start_deficit" (m_deficits m0)); exact H.
  - intros l m0 H. unfold set_interconnectors. apply guard_fst; [exact H|]. intros _.
    destruct (next_id _).
    + split; fields; [intros a; apply inter_map_energy|apply H].
    + split; fields; [intros a; apply inter_map_energy|apply H].
  - intros pairs m0 _ _ H. unfold put_tie. destruct (m_nc m0); exact H.
  - intros lf bps m0 _ _ H. destruct (set_losses_cases lf bps m0) as [[e E]|[[e E]|[p [Hp E]]]]; rewrite E; try exact H.
    split; [apply H|]. fields. unfold put_losses. fields. intros v Hv.
    apply in_map_iff in Hv. destruct Hv as [[[[i w] [f from]] a] [<- Ha]]. apply in_merge in Ha. destruct Ha as [_ [Ha _]].
    cbn. apply (proj1 H). destruct Hp as [_ [_ [_ [Hp _]]]]. rewrite Hp. exact Ha.
  - intros l v m0 _ _ H. unfold put_generic. destruct (m_nc m0); exact H.
Qed.

Lemma reached_energy_only c m : reached c m -> energy_only m.
Proof.
  intros [m0 [ops [H0 [_ ->]]]]. apply run_preserves; [intros; now apply step_energy_only|].
  unfold new_market in H0. destruct (check_unit_info c); inversion H0. split; intros k [].
Qed.

Lemma ancillary_value m x r s : wf m -> energy_only m -> s <> "energy" ->
  region_term (regional_vars m) x r s == region_supply m x r s.
Proof.
  intros W [E1 E2] N. unfold regional_vars.
  rewrite !region_term_app, (region_bids_value m x r s W), (region_flow_other _ x r s E1 N).
  assert (Z : region_term (rows_or_nil (m_reg_loss m)) x r s == 0).
  { unfold region_term. apply sumQ_zero. intros v Hv. apply filter_In in Hv. destruct Hv as [H1 H2].
    rewrite (E2 v H1) in H2. apply andb_true_iff in H2. destruct H2 as [_ H2]. apply String.eqb_eq in H2. congruence. }
  rewrite Z. ring.
Qed.

Lemma set_map_value l n i s (f : string -> string -> Q) b :
  In (i, b) (fcas_ids l n) -> fq_set b = s ->
  sumQ (fun c => rc_coef c * f (rc_region c) (rc_service c)) (filter (fun c => Nat.eqb (rc_con c) i) (fcas_map l n))
  == sumQ (fun r => f (fq_region r) (fq_service r)) (filter (fun r => String.eqb s (fq_set r)) l).
Proof.
  intros Hb Es.
  assert (ND : NoDup (map fst (fcas_ids l n))).
  { unfold fcas_ids. rewrite save_index_fst. apply seq_NoDup. }
  assert (NP : NoDup (fcas_ids l n)) by now apply NoDup_map_inv in ND.
  unfold fcas_map. rewrite sumQ_filter, sumQ_map, sumQ_merge, sumQ_filter.
  apply sumQ_ext_in. intros r Hr. rewrite sumQ_filter.
  transitivity (sumQ (fun p : nat * fcas_req_row => if Nat.eqb (fst p) i then
     (if String.eqb (fq_set r) (fq_set (snd p)) then f (fq_region r) (fq_service r) else 0) else 0) (fcas_ids l n)).
  - apply sumQ_ext. intros [j a]. cbn [fst snd rc_con rc_coef rc_region rc_service].
    destruct (String.eqb (fq_set r) (fq_set a)), (Nat.eqb j i); cbn; ring.
  - rewrite (sumQ_pick (fun p : nat * fcas_req_row => if String.eqb (fq_set r) (fq_set (snd p)) then f (fq_region r) (fq_service r) else 0) _ (i, b)); auto.
    + cbn [snd]. rewrite Es, String.eqb_sym. reflexivity.
    + cbn. apply Nat.eqb_refl.
    + intros [j a] Ha E. cbn in E. apply Nat.eqb_eq in E. subst j. now apply (NoDup_map_inj fst (fcas_ids l n)).
Qed.

Lemma fcas_upheld c l v gu gr gi m x : upheld c (OpFcasReq l v) m x -> links c gu gr gi m -> solution m x ->
  (forall r, In r l -> fq_service r <> "energy") ->
  forall pre b post, l = pre ++ b :: post -> (forall r, In r pre -> fq_set r <> fq_set b) ->
  (exists r, In r l /\ fq_set r = fq_set b /\ region_offers m (fq_region r) (fq_service r))
  \/ some_linked m gu gr gi (fq_set b) ->
  relation (fq_type b) (set_supply m x l (fq_set b) + linked m x gu gr gi (fq_set b)) (fq_volume b).
Proof.
  intros I L [p [A F]] Sv pre b post El Hpre So.
  pose proof (reached_energy_only c m (upheld_reached _ _ _ _ I)) as EO.
  apply links_inv in L. apply fcas_inv in I. destruct I as [O [C [n G]]].
  assert (Hb : In b (drop_duplicates (fun a b => String.eqb (fq_set a) (fq_set b)) l)).
  { rewrite El. apply drop_head. intros r Hr. apply String.eqb_neq. auto. }
  pose proof (save_index_in n _ _ Hb) as [i Hi]. fold (fcas_ids l n) in Hi.
  set (r := CRow i (fq_type b) (fq_volume b) (KSet (fq_set b))).
  assert (Hr : In r (fcas_rhs l n)) by (unfold fcas_rhs; apply in_map_iff; exists (i, b); auto).
  assert (Hr2 : In r (rows_or_nil (dget "generic" (m_rhs m)) ++ rows_or_nil (dget "fcas" (m_mrhs m)))).
  { apply in_or_app. right. rewrite (proj1 G). exact Hr. }
  assert (HL : exists lr, In lr (all_lhs m) /\ l_con lr = cr_id r).
  { destruct So as [[q [Hq [Eq Of]]]|So].
    - destruct Of as [u [Hu [Er [w [Hv [V1 [V2 V3]]]]]]].
      destruct (bids_tables m (proj1 O)) as [vs [F1 [F2 _]]].
      apply (regional_row_lhs m "fcas" (fcas_rhs l n) (fcas_map l n) r (RC i (fq_region q) (fq_service q) 1)
        (RV (bv_id w) (ui_region u) (bv_service w)
            (if String.eqb (bv_dt w) "load" && String.eqb (bv_service w) "energy" then -(1) else 1))); auto; [exact (proj1 (proj2 G))|..].
      + unfold fcas_map. apply in_map_iff. exists (q, (i, b)). split; [reflexivity|]. apply in_merge. cbn [snd].
        rewrite Eq, String.eqb_refl. auto.
      + unfold regional_vars. apply in_or_app. left. rewrite F2. unfold bid_regional_map, bid_constraint_map.
        apply in_map_iff. exists (w, u). split; [reflexivity|]. apply in_merge. rewrite F1 in Hv.
        rewrite V1, V3, !String.eqb_refl. auto.
    - destruct (some_linked_row m gu gr gi r (fq_set b) (proj1 O) L Hr2 eq_refl So) as [lr [Hl Ell]].
      exists lr. split; [|exact Ell]. unfold all_lhs. apply in_or_app. right. apply in_or_app. left. exact Hl. }
  pose proof (feasible_row m p x _ (proj1 O) A F (in_all_rhs_regional m "fcas" _ r (proj1 G) Hr) HL) as R.
  cbn [r_type r_id r_rhs rhs_value] in R.
  eapply relation_ext; [|exact R].
  change i with (cr_id r). rewrite (fcas_row_value m _ _ r x O G Hr), (generic_value m x gu gr gi r _ (proj1 O) L Hr2 eq_refl).
  rewrite Qplus_comm. apply Qplus_comp; [|reflexivity]. unfold regional_value.
  eapply Qeq_trans; [exact (set_map_value l n i (fq_set b) (fun a s => region_term (regional_vars m) x a s) b Hi eq_refl)|].
  change (set_supply m x l (fq_set b)) with (sumQ (fun r => region_supply m x (fq_region r) (fq_service r))
    (filter (fun r => String.eqb (fq_set b) (fq_set r)) l)). apply sumQ_ext_in. intros q Hq. apply filter_In in Hq.
  apply ancillary_value; [apply O|exact EO|]. apply Sv. tauto.
Qed.

Lemma fcas_respected c l gu gr gi m x : in_force c (OpFcasReq l None) m -> links c gu gr gi m -> solution m x ->
  (forall r, In r l -> fq_service r <> "energy") ->
  forall pre b post, l = pre ++ b :: post -> (forall r, In r pre -> fq_set r <> fq_set b) ->
  (exists r, In r l /\ fq_set r = fq_set b /\ region_offers m (fq_region r) (fq_service r))
  \/ some_linked m gu gr gi (fq_set b) ->
  relation (fq_type b) (set_supply m x l (fq_set b) + linked m x gu gr gi (fq_set b)) (fq_volume b).
Proof. intros I. exact (fcas_upheld c l None gu gr gi m x (in_force_upheld _ _ _ _ I eq_refl)). Qed.

Lemma filter_none {A} (p : A -> bool) l : (forall a, In a l -> p a = false) -> filter p l = [].
Proof. induction l; intros H; cbn; auto. rewrite (H a) by now left. apply IHl. intros b Hb. apply H. now right. Qed.

Lemma fcas_unlinked_upheld c l v gu gr gi m x : upheld c (OpFcasReq l v) m x -> links c gu gr gi m -> solution m x ->
  (forall r, In r l -> fq_service r <> "energy") ->
  forall pre b post, l = pre ++ b :: post -> (forall r, In r pre -> fq_set r <> fq_set b) ->
  (exists r, In r l /\ fq_set r = fq_set b /\ region_offers m (fq_region r) (fq_service r)) ->
  (forall g, In g gu -> gu_set g <> fq_set b) -> (forall g, In g gr -> gr_set g <> fq_set b) ->
  (forall g, In g gi -> gi_set g <> fq_set b) ->
  relation (fq_type b) (set_supply m x l (fq_set b)) (fq_volume b).
Proof.
  intros I L Sx NE pre b post El Hp Ho N1 N2 N3.
  pose proof (fcas_upheld c l _ gu gr gi m x I L Sx NE pre b post El Hp (or_introl Ho)) as R.
  assert (Z : linked m x gu gr gi (fq_set b) == 0).
  { unfold linked. rewrite !filter_none; [reflexivity| | |]; intros g Hg; apply String.eqb_neq; intros E;
        symmetry in E; [exact (N3 _ Hg E)|exact (N2 _ Hg E)|exact (N1 _ Hg E)]. }
  eapply relation_ext; [|exact R]. rewrite Z. ring.
Qed.

Lemma fcas_respected_unlinked c l gu gr gi m x : in_force c (OpFcasReq l None) m -> links c gu gr gi m -> solution m x ->
  (forall r, In r l -> fq_service r <> "energy") ->
  forall pre b post, l = pre ++ b :: post -> (forall r, In r pre -> fq_set r <> fq_set b) ->
  (exists r, In r l /\ fq_set r = fq_set b /\ region_offers m (fq_region r) (fq_service r)) ->
  (forall g, In g gu -> gu_set g <> fq_set b) -> (forall g, In g gr -> gr_set g <> fq_set b) ->
  (forall g, In g gi -> gi_set g <> fq_set b) ->
  relation (fq_type b) (set_supply m x l (fq_set b)) (fq_volume b).
Proof. intros I. exact (fcas_unlinked_upheld c l None gu gr gi m x (in_force_upheld _ _ _ _ I eq_refl)). Qed.

Lemma generic_interconnectors c l gi m x : in_force c (OpGeneric l None) m -> links c [] [] gi m -> solution m x ->
  forall g, In g l -> some_linked m [] [] gi (ge_set g) ->
  relation (ge_type g)
    (qsum (map (fun k => gi_coef k * qsum (map (fun v => inject_Z (iv_gcf v) * x (iv_id v))
                   (filter (fun v => String.eqb (gi_inter k) (iv_inter v)) (rows_or_nil (m_inter m)))))
          (filter (fun k => String.eqb (ge_set g) (gi_set k)) gi)))
    (ge_rhs g).
Proof.
  intros I L Sx g Hg So. pose proof (generic_respected c l [] [] gi m x I L Sx g Hg So) as R.
  eapply relation_ext; [|exact R]. unfold linked. cbn [filter map qsum fold_right].
  fold (interconnector_flow m x). unfold interconnector_flow. rewrite !Qplus_0_l. reflexivity.
Qed.
