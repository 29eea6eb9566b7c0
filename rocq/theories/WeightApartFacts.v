(** Interpolation weights appear only in the constraints that tie losses to flows. *)

From Coq Require Import QArith Lqa String List Bool Arith Lia ZArith.
Import ListNotations.
From Verif Require Import PandasModel TablesModel VariableIdsModel MarketConstraintsModel
  UnitConstraintsModel RampModel FcasModel InterModel ElasticModel MarketModel SolverModel
  SpecLp PandasFacts SpecHistory SpecIds SpecDispatch SpecElastic SpecSoft SpecLosses StepFacts InvariantFacts OwnerFacts SolverFacts
  MeaningFacts LimitFacts TableFacts BidFacts DeficitFacts ElasticStateFacts ElasticFacts BalanceFacts SoftFacts.
Open Scope string_scope.
Open Scope list_scope.

Definition wids (m : market) : list nat := map wv_id (rows_or_nil (m_weights m)).

Record apart (m : market) : Prop := {
  ap_price : forall o, In o (rows_or_nil (m_obj_bids m)) -> ~ In (ob_var o) (wids m);
  ap_cost : forall key cs c, In (key, cs) (m_obj_def m) -> In c cs -> ~ In (co_var c) (wids m);
  ap_lhs : forall key l r, In (key, l) (m_lhs m) -> In r l -> key <> "interconnector_losses" -> ~ In (l_var r) (wids m) }.

Lemma apart_same m m' : apart m -> m_weights m' = m_weights m -> m_obj_bids m' = m_obj_bids m -> m_obj_def m' = m_obj_def m ->
  m_lhs m' = m_lhs m -> apart m'.
Proof. intros [A B C] E1 E2 E3 E4. constructor; unfold wids in *; rewrite ?E1, ?E2, ?E3, ?E4; auto. Qed.

Lemma wid_lt m i : wf m -> In i (wids m) -> (i < m_nv m)%nat.
Proof. intros W H. apply (wf_vars m W). unfold var_ids. rewrite !in_app_iff. right. right. right. now left. Qed.
Lemma wid_bid m v : wf m -> In v (rows_or_nil (m_bids m)) -> ~ In (bv_id v) (wids m).
Proof.
  intros W Hv H. destruct (wf_vars m W) as [ND _]. unfold var_ids in ND. apply (NoDup_app_disjoint _ _ (bv_id v) ND); [now apply in_map|].
  rewrite !in_app_iff. right. right. now left.
Qed.
Lemma wid_inter m v : wf m -> In v (rows_or_nil (m_inter m)) -> ~ In (iv_id v) (wids m).
Proof.
  intros W Hv H. destruct (wf_vars m W) as [ND _]. unfold var_ids in ND. apply NoDup_app_iff in ND. destruct ND as [_ [ND _]].
  apply (NoDup_app_disjoint _ _ (iv_id v) ND); [now apply in_map|]. rewrite !in_app_iff. right. now left.
Qed.
Lemma wid_loss m i : wf m -> In i (map lv_id (rows_or_nil (m_loss m))) -> ~ In i (wids m).
Proof.
  intros W Hv H. destruct (wf_vars m W) as [ND _]. unfold var_ids in ND. apply NoDup_app_iff in ND. destruct ND as [_ [ND _]].
  apply NoDup_app_iff in ND. destruct ND as [_ [ND _]].
  apply (NoDup_app_disjoint _ _ i ND); [exact Hv|]. rewrite !in_app_iff. now left.
Qed.

(** ** Steps *)
Lemma add_deficits_apart k rows m : wf m -> apart m -> apart (fst (add_deficits k rows m)).
Proof.
  intros W T. unfold add_deficits. destruct rows as [|r0 t]; [exact T|]. set (rows := r0 :: t).
  set (ids := map df_id (deficit_variables rows (m_nv m))).
  assert (A3 : forall i, In i ids -> (m_nv m <= i)%nat).
  { unfold ids. rewrite deficit_ids. intros i Hi. apply in_seq in Hi. lia. }
  destruct T as [T1 T2 T3].
  assert (L1 : forall r, In r (deficit_lhs rows (m_nv m)) -> In (l_var r) ids).
  { intros r Hr. unfold ids. rewrite <- deficit_lhs_vars. now apply in_map. }
  assert (L2 : forall c, In c (deficit_costs rows (m_nv m)) -> In (co_var c) ids).
  { intros c Hc. unfold ids. rewrite <- deficit_costs_vars. now apply in_map. }
  fold ids. destruct (next_id ids); fields; constructor; unfold wids in *; fields; auto.
  - intros key cs c H1 H2. apply in_dset in H1. destruct H1 as [[-> ->]|H1]; [|eauto]. apply L2, A3 in H2. intros X. apply wid_lt in X; auto. lia.
  - intros key l r H1 H2 N. apply in_dset in H1. destruct H1 as [[-> ->]|H1]; [|eauto]. apply L1, A3 in H2. intros X. apply wid_lt in X; auto. lia.
  - intros key cs c H1 H2. apply in_dset in H1. destruct H1 as [[-> ->]|H1]; [|eauto]. apply L2, A3 in H2. intros X. apply wid_lt in X; auto. lia.
  - intros key l r H1 H2 N. apply in_dset in H1. destruct H1 as [[-> ->]|H1]; [|eauto]. apply L1, A3 in H2. intros X. apply wid_lt in X; auto. lia.
Qed.

Lemma make_elastic_apart k v m : wf m -> apart m -> apart (fst (make_elastic k v m)).
Proof.
  intros W H. unfold make_elastic. destruct (group_rows k m) as [g|]; [|exact H]. destruct v.
  - now apply add_deficits_apart.
  - apply guard_fst; [exact H|]. intros _. destruct (has_set_column k); [|exact H]. now apply add_deficits_apart.
  - destruct g; exact H.
Qed.

Lemma put_tie_apart prices vs m : apart m -> m_obj_bids m = Some prices ->
  apart (put_tie (tie_pairs (tie_rows prices vs (c_ui (m_cfg m)))) m).
Proof.
  intros T E. set (pairs := tie_pairs _). pose proof T as [T1 T2 T3].
  assert (Hp : forall n r, In r (tie_lhs pairs n) -> ~ In (l_var r) (wids m)).
  { intros n r Hr. destruct (tie_lhs_vars _ _ _ Hr) as [p [Hp Hv]]. apply tie_pairs_rows in Hp. destruct Hp as [P1 P2].
    assert (G : forall i, In i (map ob_var prices) -> ~ In i (wids m)).
    { intros i Hi. apply in_map_iff in Hi. destruct Hi as [o [<- Ho]]. apply T1. now rewrite E. }
    destruct Hv as [-> | ->]; apply G; eapply tie_rows_vars; eauto. }
  unfold put_tie. destruct (m_nc m) as [n|]; constructor; unfold wids in *; fields; auto.
  - intros key l r H1 H2 N. apply in_dset in H1. destruct H1 as [[-> ->]|H1]; [|eauto]. now apply (Hp n).
  - intros key l r H1 H2 N. apply in_dset in H1. destruct H1 as [[-> ->]|H1]; [destruct H2|eauto].
Qed.

Lemma set_price_bids_apart t m : wf m -> apart m -> apart (fst (set_price_bids t m)).
Proof.
  intros W T. unfold set_price_bids. destruct (m_bids m) as [vs|] eqn:Eb; [|exact T].
  repeat (apply guard_fst; [exact T|intros _]). destruct T as [T1 T2 T3].
  constructor; unfold wids in *; fields; auto. cbn [rows_or_nil].
  intros o Ho. unfold scale_by_loss_factors in Ho.
  apply in_map_iff in Ho. destruct Ho as [[o' u] [<- Ho]]. apply in_merge_p in Ho. destruct Ho as [Ho _].
  unfold objective_bids in Ho. cbn [fst] in Ho. apply in_map_iff in Ho. destruct Ho as [[v [z c]] [<- Hv]].
  apply in_merge_p in Hv. destruct Hv as [Hv _]. cbn in *. apply (wid_bid m v W). now rewrite Eb.
Qed.

Lemma remove_fast_start_apart m : apart m -> apart (fst (remove_fast_start m)).
Proof.
  intros T. unfold remove_fast_start.
  assert (T' : apart (if dhas "fast_start" (m_rhs m)
           then set_m_c2v_unit (ddel "fast_start" (m_c2v_unit m)) (set_m_rhs (ddel "fast_start" (m_rhs m)) m) else m)).
  { destruct (dhas _ _); [|exact T]. apply (apart_same m); fields; auto. }
  set (m1 := if dhas "fast_start" (m_rhs m) then _ else m) in *. clearbody m1. clear T.
  destruct (dhas "fast_start_deficit" (m_deficits m1)); [|exact T'].
  destruct T' as [T1 T2 T3]. constructor; unfold wids in *; fields; auto.
  - intros key l r H1. apply in_ddel in H1. eauto.
  - intros key l r H1. apply in_ddel in H1. eauto.
Qed.

Lemma set_losses_apart lf bps m : wf m -> tidy m -> apart m -> apart (fst (set_losses lf bps m)).
Proof.
  intros W Ti T. destruct (set_losses_cases lf bps m) as [[e ->]|[[e ->]|[p [P ->]]]]; fields; auto.
  { apply (apart_same m); fields; auto. }
  destruct P as [C [ED [EI [ER [Els [Elv [Env [Ews _]]]]]]]].
  assert (Lws : forall i, In i (wids (put_losses lf p m)) -> (m_nv m <= i)%nat).
  { intros i Hi. unfold wids, put_losses in Hi. cbn [m_weights rows_or_nil] in Hi. rewrite Ews, weight_variables_ids in Hi. apply in_seq in Hi.
    destruct (next_id_in _ _ Env) as [j [Hj Ej]].
    rewrite Elv in Hj. apply in_map_iff in Hj. destruct Hj as [v [<- Hv]]. unfold loss_variables in Hv.
    apply in_map_iff in Hv. destruct Hv as [[[j v'] q] [<- Hv]]. apply in_merge_p in Hv. destruct Hv as [Hv _].
    apply in_save_index in Hv. cbn in *. lia. }
  constructor.
  - intros o Ho X. apply Lws in X. destruct (td_vars m Ti (ob_var o)); [|lia]. unfold table_vars. rewrite in_app_iff. left. now apply in_map.
  - intros key cs c H1 H2 X. apply Lws in X. pose proof (td_cost m Ti _ _ _ H1 H2). lia.
  - intros key l r H1 H2 N X. apply Lws in X. cbn [put_losses m_lhs] in H1. apply in_dset in H1. destruct H1 as [[-> _]|H1]; [now elim N|].
    pose proof (td_lhs m Ti _ _ _ H1 H2). lia.
Qed.

Lemma step_apart o m : wf m -> tidy m -> apart m -> apart (fst (step o m)).
Proof.
  intros W Ti T.
  assert (G : (forall k, In k (touches o) -> k <> "tie_break") -> (wf (fst (step o m)) /\ tidy (fst (step o m))) /\ apart (fst (step o m))).
  { intros HK. apply (step_preserves_all (fun m => (wf m /\ tidy m) /\ apart m) (fun k => k <> "tie_break")) with (ok := fun _ _ => True); auto.
    - intros t m1 _ [[W1 T1] A1]. split; [split; [now apply set_volume_bids_wf|now apply set_volume_bids_tidy]|].
      unfold set_volume_bids. repeat (apply guard_fst; [exact A1|intros _]). destruct (next_id _); fields; apply (apart_same m1); fields; auto.
    - intros t m1 _ [[W1 T1] A1]. split; [split; [now apply set_price_bids_wf|now apply set_price_bids_tidy]|now apply set_price_bids_apart].
    - intros k mr mm m1 _ _ Hg [[W1 T1] A1]. split; [split; [now apply new_unit_group_wf|]|];
      unfold new_unit_group, put_unit; destruct (m_nc m1); [destruct (next_id _)|destruct (mr 0%nat)|destruct (next_id _)|destruct (mr 0%nat)]; fields;
        try (apply (tidy_grow m1); fields; auto; fail); apply (apart_same m1); fields; auto.
    - intros k mr mm m1 _ _ Hg [[W1 T1] A1]. split; [split; [now apply new_regional_group_wf|]|];
      unfold new_regional_group, put_regional; destruct (m_nc m1); [destruct (next_id _)|destruct (mr 0%nat)|destruct (next_id _)|destruct (mr 0%nat)]; fields;
        try (apply (tidy_grow m1); fields; auto; fail); apply (apart_same m1); fields; auto.
    - intros k v m1 _ [[W1 T1] A1]. split; [split; [now apply make_elastic_wf|now apply make_elastic_tidy]|now apply make_elastic_apart].
    - intros m1 _ [[W1 T1] A1]. split; [split; [now apply remove_fast_start_wf|now apply remove_fast_start_tidy]|now apply remove_fast_start_apart].
    - intros l m1 _ [[W1 T1] A1]. split; [split; [now apply set_interconnectors_wf|now apply set_interconnectors_tidy]|].
      unfold set_interconnectors. apply guard_fst; [exact A1|intros _]. destruct (next_id _); fields; apply (apart_same m1); fields; auto.
    - intros l m1 _ [[W1 T1] A1]. split; [split; [|apply (tidy_grow m1); fields; auto]|apply (apart_same m1); fields; auto].
      destruct W1; constructor; fields; auto.
    - intros l m1 _ [[W1 T1] A1]. split; [split; [|apply (tidy_grow m1); fields; auto]|apply (apart_same m1); fields; auto].
      destruct W1; constructor; fields; auto.
    - intros l m1 _ [[W1 T1] A1]. split; [split; [|apply (tidy_grow m1); fields; auto]|apply (apart_same m1); fields; auto].
      destruct W1; constructor; fields; auto.
    - intros pairs m1 N. congruence.
    - intros lf bps m1 _ _ _ [[W1 T1] A1]. split; [split; [now apply set_losses_wf|now apply set_losses_tidy]|now apply set_losses_apart].
    - intros l v m1 _ _ [[W1 T1] A1]. split; [split; [now apply put_generic_wf|]|];
      unfold put_generic; destruct (m_nc m1); fields; try (apply (tidy_grow m1); fields; auto; fail); apply (apart_same m1); fields; auto. }
  destruct o; try (apply G; intros k Hk E; subst k; cbn in Hk; intuition discriminate).
  - cbn. now apply make_elastic_apart.
  - cbn. unfold set_tie_break. destruct (m_obj_bids m) as [prices|] eqn:Eo; [|exact T].
    destruct (m_bids m) as [vs|] eqn:Eb; [|exact T].
    destruct (tie_pairs _) as [|q qs] eqn:E; [exact T|].
    change (apart (fst (make_elastic "tie_break" cost (put_tie (q :: qs) m)))).
    apply make_elastic_apart; [now apply put_tie_wf|]. rewrite <- E. now apply put_tie_apart.
Qed.

Lemma reached_apart c m : reached c m -> apart m.
Proof.
  intros [m0 [ops [H [_ ->]]]]. apply (run_preserves (fun m => (wf m /\ tidy m) /\ apart m)).
  - intros o m _ [[W T] A]. split; [split; [now apply step_wf|now apply step_tidy]|now apply step_apart].
  - unfold new_market in H. destruct (check_unit_info c) eqn:E; [discriminate|]. inversion H; subst.
    split; [split; [now apply empty_market_wf|apply empty_tidy]|]. constructor; cbn; intros; contradiction.
Qed.

(** ** Left-hand sides *)
Lemma uv_apart m v : wf m -> In v (rows_or_nil (m_unit_bids m)) -> ~ In (uv_id v) (wids m).
Proof.
  intros W H. destruct (bids_tables m W) as [vs [E1 [_ E2]]]. rewrite E2 in H. unfold bid_unit_map in H.
  apply in_map_iff in H. destruct H as [[b u] [<- H]]. cbn.
  apply in_merge in H. destruct H as [H _]. rewrite <- E1 in H. now apply wid_bid.
Qed.

Lemma rv_apart m v : wf m -> tidy m -> In v (regional_vars m) -> ~ In (rv_id v) (wids m).
Proof.
  intros W T H. unfold regional_vars in H. rewrite !in_app_iff in H. destruct H as [H|[H|H]].
  - destruct (bids_tables m W) as [vs [E1 [E2 _]]]. rewrite E2 in H. unfold bid_regional_map in H.
    apply in_map_iff in H. destruct H as [[b u] [<- H]]. cbn.
    apply in_merge in H. destruct H as [H _]. rewrite <- E1 in H. now apply wid_bid.
  - apply in_map_iff in H. destruct H as [r [<- H]].
    pose proof (wf_inter m W) as I. unfold inter_wf in I. destruct (m_directions m) as [l|].
    + destruct I as [_ [n [E1 E2]]]. rewrite E2 in H. cbn [rows_or_nil] in H.
      assert (exists v, In v (inter_variables l n) /\ iv_id v = rv_id (ir_rv r)) as [v [Hv <-]].
      { unfold inter_regional_map in H. apply in_app_or in H.
        destruct H as [H|H]; apply in_map_iff in H; destruct H as [[i d] [<- H]];
          (exists (InterVar (in_inter d) (in_link d) i (in_min d) (in_max d) (in_gcf d)); split;
           [apply in_map_iff; exists (i, d); auto|reflexivity]). }
      apply wid_inter; auto. now rewrite E1.
    + destruct I as [_ E]. rewrite E in H. destruct H.
  - apply wid_loss; auto. apply (td_loss m T). now apply in_map.
Qed.

Lemma generic_apart m l : wf m -> tidy m -> In l (generic_lhs m) -> ~ In (l_var l) (wids m).
Proof.
  intros W T H. unfold generic_lhs in H. destruct (generic_ids m) as [ids|]; [|destruct H].
  rewrite !in_app_iff in H. destruct H as [H|[H|H]].
  - destruct (m_gen_unit m) as [gs|]; [|destruct H]. destruct (m_unit_bids m) as [vs|] eqn:E; [|destruct H].
    apply in_map_iff in H. destruct H as [[[a v] r] [<- H]]. apply in_merge in H. destruct H as [H _].
    apply in_merge in H. destruct H as [_ [H _]]. cbn [l_var]. apply uv_apart; auto. rewrite E. exact H.
  - destruct (m_gen_region m) as [gs|]; [|destruct H]. destruct (m_reg_bids m) as [vs|] eqn:E; [|destruct H].
    apply in_map_iff in H. destruct H as [[[a v] r] [<- H]]. apply in_merge in H. destruct H as [H _].
    apply in_merge in H. destruct H as [_ [H _]]. cbn [l_var]. apply rv_apart; auto.
    unfold regional_vars. rewrite E. apply in_or_app. now left.
  - destruct (m_gen_inter m) as [gs|]; [|destruct H]. destruct (m_inter m) as [vs|] eqn:E; [|destruct H].
    apply in_map_iff in H. destruct H as [[[a v] r] [<- H]]. apply in_merge in H. destruct H as [H _].
    apply in_merge in H. destruct H as [_ [H _]]. cbn [l_var]. apply wid_inter; auto. now rewrite E.
Qed.

(** A row over a weight belongs to the constraints that tie losses to flows. *)
Lemma weight_row m f n l : wf m -> own f n m -> tidy m -> apart m -> In l (all_lhs m) -> In (l_var l) (wids m) ->
  f (l_con l) = GRhs "interpolation_weights" \/ f (l_con l) = GDyn.
Proof.
  intros W O T A H V. unfold all_lhs in H. rewrite !in_app_iff in H. destruct H as [H|[H|[H|H]]].
  - apply in_dconcat in H. destruct H as [key [ls [H1 H2]]]. destruct (string_dec key "interconnector_losses") as [->|N].
    + destruct (ow_lhs _ _ _ O _ _ _ H1 H2) as [[[k [E _]]|[[E _]|[_ E]]] _]; [|discriminate E|exact E].
      symmetry in E. now apply deficit_key_losses in E.
    + elim (ap_lhs m A _ _ _ H1 H2 N V).
  - now apply generic_apart in H.
  - apply in_regional_lhs in H. destruct H as [c [v [_ [H [_ [_ E]]]]]]. rewrite E in V. now apply rv_apart in H.
  - apply in_unit_lhs in H. destruct H as [c [v [_ [H [_ [_ [_ E]]]]]]]. rewrite E in V. now apply uv_apart in H.
Qed.

(** What dispatch weighs does not depend on the weights. *)
Lemma weighed_same c m p ss x y : reached c m -> assemble m = Ok p -> all_softened c m ss ->
  ~ In "interpolation_weights" (map so_key ss) -> same_but_weights m x y -> weighed p m ss y == weighed p m ss x.
Proof.
  intros R A So Nw S. pose proof (reached_apart c m R) as Ap. pose proof (reached_tidy c m R) as Ti.
  destruct (reached_owned c m R) as [[W [f [n O]]] _].
  assert (Ag : forall i, ~ In i (wids m) -> y i == x i).
  { intros i Hi. apply S. intros w Hw E. apply Hi. rewrite <- E. now apply (in_map wv_id). }
  unfold weighed. apply Qplus_comp.
  - unfold plain_cost. apply linear_ext_in. intros t Ht. apply filter_In in Ht. destruct Ht as [Ht _]. apply Ag.
    destruct (assemble_parts m p A) as [_ [Eo _]]. rewrite Eo in Ht. unfold all_costs in Ht. apply in_app_or in Ht. destruct Ht as [Ht|Ht]; apply in_map_iff in Ht; destruct Ht as [o [<- Ho]]; cbn [fst].
    + now apply (ap_price m Ap).
    + apply in_dconcat in Ho. destruct Ho as [key [cs [H1 H2]]]. now apply (ap_cost m Ap key cs).
  - change (qsum (map ?f ?l)) with (sumQ f l). apply sumQ_ext_in. intros s Hs. unfold penalty. change (qsum (map ?f ?l)) with (sumQ f l).
    apply sumQ_ext_in. intros r Hr. unfold shortfall. destruct (find _ (p_cons p)) as [con|] eqn:E; [|reflexivity].
    apply find_some in E. destruct E as [Hc Ec]. apply Nat.eqb_eq in Ec.
    destruct So as [_ So]. destruct (So s Hs) as [_ [_ [G _]]].
    assert (Ov : own_value m (so_key s) con y == own_value m (so_key s) con x).
    { unfold own_value. rewrite !(linear_filter (fun i => negb (is_violation m (so_key s) i))).
      rewrite !(con_value m p con (RRow (cr_id r) (cr_type r) (RNum (cr_rhs r))) _ W A Hc (group_static _ _ _ _ G Hr) Ec eq_refl).
      apply row_value_ext. intros l Hl El. cbn [r_id] in El. unfold mask. destruct (negb _); [|reflexivity]. apply Ag. intros V.
      pose proof (weight_row m f n l W O Ti Ap Hl V) as F. rewrite El in F.
      assert (F' : f (cr_id r) = GRhs (so_key s) \/ f (cr_id r) = GMkt (so_key s)).
      { unfold group in G. destruct (dget (so_key s) (m_mrhs m)) as [g'|] eqn:D.
        - inversion G; subst g'. right. apply dget_in in D. apply (ow_mrhs _ _ _ O _ _ _ D Hr).
        - left. apply dget_in in G. apply (ow_rhs _ _ _ O _ _ _ G Hr). }
      apply Nw. replace "interpolation_weights" with (so_key s); [now apply in_map|]. destruct F as [F|F], F' as [F'|F']; congruence. }
    now rewrite (missed_comp _ _ _ _ Ov).
Qed.
