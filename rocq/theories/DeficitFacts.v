(** Violation variables belong to one constraint group: nothing else mentions them. *)

From Coq Require Import QArith Lqa String List Bool Arith Lia ZArith.
Import ListNotations.
From Verif Require Import PandasModel TablesModel VariableIdsModel MarketConstraintsModel
  UnitConstraintsModel RampModel FcasModel InterModel ElasticModel MarketModel SolverModel
  SpecLp PandasFacts SpecHistory SpecIds SpecDispatch StepFacts InvariantFacts OwnerFacts SolverFacts
  MeaningFacts LimitFacts TableFacts.
Open Scope string_scope.
Open Scope list_scope.

Definition def_ids (m : market) : list nat := map df_id (dconcat (m_deficits m)).

(** Variables that the tables of prices, dynamic right-hand sides and regional
    losses mention. *)
Definition table_vars (m : market) : list nat :=
  map ob_var (rows_or_nil (m_obj_bids m)) ++ map dy_var (rows_or_nil (m_dyn m))
  ++ map rv_id (rows_or_nil (m_reg_loss m)).

Record tidy (m : market) : Prop := {
  td_vars : forall i, In i (table_vars m) -> (i < m_nv m)%nat /\ ~ In i (def_ids m);
  td_loss : forall i, In i (map rv_id (rows_or_nil (m_reg_loss m))) -> In i (map lv_id (rows_or_nil (m_loss m)));
  td_lhs : forall key l r, In (key, l) (m_lhs m) -> In r l -> (l_var r < m_nv m)%nat;
  td_own : forall key ds d key' l r, In (key, ds) (m_deficits m) -> In d ds -> In (key', l) (m_lhs m) -> In r l ->
    l_var r = df_id d -> key' = key;
  td_cost : forall key cs c, In (key, cs) (m_obj_def m) -> In c cs -> (co_var c < m_nv m)%nat;
  td_cown : forall key ds d key' cs c, In (key, ds) (m_deficits m) -> In d ds -> In (key', cs) (m_obj_def m) ->
    In c cs -> co_var c = df_id d -> key' = key;
  td_keys : NoDup (dkeys (m_deficits m)) /\ NoDup (dkeys (m_obj_def m)) }.

(** A state with the same tables and a higher counter. *)
Lemma tidy_grow m m' : tidy m -> (m_nv m <= m_nv m')%nat ->
  m_deficits m' = m_deficits m -> m_lhs m' = m_lhs m -> m_obj_def m' = m_obj_def m -> m_obj_bids m' = m_obj_bids m ->
  m_dyn m' = m_dyn m -> m_reg_loss m' = m_reg_loss m -> m_loss m' = m_loss m -> tidy m'.
Proof.
  intros [A B C D E F G] Hn E1 E2 E3 E4 E5 E6 E7. constructor; unfold table_vars, def_ids in *;
    rewrite ?E1, ?E2, ?E3, ?E4, ?E5, ?E6, ?E7; auto.
  - intros i Hi. destruct (A i Hi). split; [lia|auto].
  - intros key l r H1 H2. specialize (C key l r H1 H2). lia.
  - intros key l r H1 H2. specialize (E key l r H1 H2). lia.
Qed.

Lemma bid_ids_lt m vs v : wf m -> m_bids m = Some vs -> In v vs -> (bv_id v < m_nv m)%nat /\ ~ In (bv_id v) (def_ids m).
Proof.
  intros W E Hv. destruct (wf_vars m W) as [V1 V2]. unfold var_ids in *. rewrite E in *.
  assert (H : In (bv_id v) (map bv_id vs)) by now apply in_map. split.
  - apply V2. apply in_app_iff. now left.
  - apply NoDup_app_iff in V1. destruct V1 as [_ [_ V1]]. intros Hd. apply (V1 _ H).
    repeat (apply in_app_iff; right). exact Hd.
Qed.

Lemma inter_ids_lt m vs v : wf m -> m_inter m = Some vs -> In v vs -> (iv_id v < m_nv m)%nat /\ ~ In (iv_id v) (def_ids m).
Proof.
  intros W E Hv. destruct (wf_vars m W) as [V1 V2]. unfold var_ids in *. rewrite E in *.
  assert (H : In (iv_id v) (map iv_id vs)) by now apply in_map. split.
  - apply V2. apply in_app_iff. right. apply in_app_iff. now left.
  - apply NoDup_app_iff in V1. destruct V1 as [_ [V1 _]].
    apply NoDup_app_iff in V1. destruct V1 as [_ [_ V1]]. intros Hd. apply (V1 _ H).
    repeat (apply in_app_iff; right). exact Hd.
Qed.

Lemma def_lt m i : wf m -> In i (def_ids m) -> (i < m_nv m)%nat.
Proof.
  intros W H. destruct (wf_vars m W) as [_ V2]. apply V2. unfold var_ids. repeat (apply in_app_iff; right). exact H.
Qed.

Lemma in_def_ids m key ds d : In (key, ds) (m_deficits m) -> In d ds -> In (df_id d) (def_ids m).
Proof. intros H1 H2. unfold def_ids. apply in_map. apply in_dconcat. eauto. Qed.

Lemma def_ids_in m i : In i (def_ids m) -> exists key ds d, In (key, ds) (m_deficits m) /\ In d ds /\ df_id d = i.
Proof.
  unfold def_ids. intros H. apply in_map_iff in H. destruct H as [d [E H]]. apply in_dconcat in H.
  destruct H as [k [l [H1 H2]]]. exists k, l, d. auto.
Qed.

Lemma deficit_lhs_vars l n : map l_var (deficit_lhs l n) = map df_id (deficit_variables l n).
Proof. unfold deficit_lhs, deficit_variables. rewrite !map_map. apply map_ext. now intros [[i [r c]] k]. Qed.
Lemma deficit_costs_vars l n : map co_var (deficit_costs l n) = map df_id (deficit_variables l n).
Proof. unfold deficit_costs, deficit_variables. rewrite !map_map. apply map_ext. now intros [[i [r c]] k]. Qed.

Lemma add_deficits_tidy k rows m : wf m -> tidy m -> tidy (fst (add_deficits k rows m)).
Proof.
  intros W T. unfold add_deficits. destruct rows as [|r0 t]; [exact T|]. set (rows := r0 :: t).
  set (ids := map df_id (deficit_variables rows (m_nv m))).
  assert (A : exists n', (next_id ids = Some n' \/ (next_id ids = None /\ n' = m_nv m)) /\ (m_nv m <= n')%nat
     /\ forall i, In i ids -> (m_nv m <= i < n')%nat).
  { unfold ids. rewrite deficit_ids. set (k0 := (_ + _ + _)%nat). destruct k0.
    - exists (m_nv m). split; [right; split; reflexivity|]. split; [lia|intros i []].
    - exists (m_nv m + S k0)%nat. rewrite next_id_seq. split; [left; reflexivity|]. split; [lia|].
      intros i Hi. apply in_seq in Hi. lia. }
  destruct A as [n' [A1 [A2 A3]]].
  assert (B : tidy (set_m_nv n' (set_m_lhs (dset (deficit_key k) (deficit_lhs rows (m_nv m)) (m_lhs m))
     (set_m_obj_def (dset (deficit_key k) (deficit_costs rows (m_nv m)) (m_obj_def m))
       (set_m_deficits (dset (deficit_key k) (deficit_variables rows (m_nv m)) (m_deficits m)) m))))).
  { destruct T as [T1 T2 T3 T4 T5 T6 [T7 T8]].
    assert (L1 : forall r, In r (deficit_lhs rows (m_nv m)) -> In (l_var r) ids).
    { intros r Hr. unfold ids. rewrite <- deficit_lhs_vars. now apply in_map. }
    assert (L2 : forall c, In c (deficit_costs rows (m_nv m)) -> In (co_var c) ids).
    { intros c Hc. unfold ids. rewrite <- deficit_costs_vars. now apply in_map. }
    assert (L3 : forall d, In d (deficit_variables rows (m_nv m)) -> In (df_id d) ids).
    { intros d Hd. now apply in_map. }
    constructor; unfold table_vars in *; fields.
    - intros i Hi. destruct (T1 i Hi) as [X Y]. split; [lia|]. intros Hd. apply def_ids_in in Hd.
      destruct Hd as [key [ds [d [H1 [H2 H3]]]]]. revert H1. fields. intros H1.
      apply in_dset in H1. destruct H1 as [[-> ->]|H1].
      + apply L3, A3 in H2. lia.
      + apply Y. rewrite <- H3. eapply in_def_ids; eauto.
    - exact T2.
    - intros key l r H1 H2. apply in_dset in H1. destruct H1 as [[-> ->]|H1].
      + apply L1, A3 in H2. lia.
      + specialize (T3 _ _ _ H1 H2). lia.
    - intros key ds d key' l r H1 H2 H3 H4 H5. apply in_dset in H1. apply in_dset in H3.
      destruct H1 as [[-> ->]|H1], H3 as [[-> ->]|H3]; auto.
      + specialize (T3 _ _ _ H3 H4). apply L3, A3 in H2. lia.
      + apply L1, A3 in H4. pose proof (def_lt m _ W (in_def_ids _ _ _ _ H1 H2)). lia.
      + eauto.
    - intros key l r H1 H2. apply in_dset in H1. destruct H1 as [[-> ->]|H1].
      + apply L2, A3 in H2. lia.
      + specialize (T5 _ _ _ H1 H2). lia.
    - intros key ds d key' l r H1 H2 H3 H4 H5. apply in_dset in H1. apply in_dset in H3.
      destruct H1 as [[-> ->]|H1], H3 as [[-> ->]|H3]; auto.
      + specialize (T5 _ _ _ H3 H4). apply L3, A3 in H2. lia.
      + apply L2, A3 in H4. pose proof (def_lt m _ W (in_def_ids _ _ _ _ H1 H2)). lia.
      + eauto.
    - split; now apply dset_NoDup. }
  fold ids. destruct A1 as [A1|[A1 ->]]; rewrite A1; fields.
  - exact B.
  - apply (tidy_grow _ _ B); fields; auto.
Qed.

Lemma make_elastic_tidy k v m : wf m -> tidy m -> tidy (fst (make_elastic k v m)).
Proof.
  intros W H. unfold make_elastic. destruct (group_rows k m) as [g|]; [|exact H]. destruct v.
  - now apply add_deficits_tidy.
  - apply guard_fst; [exact H|]. intros _. destruct (has_set_column k); [|exact H]. now apply add_deficits_tidy.
  - destruct g; exact H.
Qed.

(** Replacing a left-hand side by one over variables that are not violations. *)
Lemma tidy_set_lhs k l m : tidy m ->
  (forall r, In r l -> (l_var r < m_nv m)%nat /\ ~ In (l_var r) (def_ids m)) ->
  tidy (set_m_lhs (dset k l (m_lhs m)) m).
Proof.
  intros [T1 T2 T3 T4 T5 T6 T7] H. constructor; unfold table_vars, def_ids in *; fields; auto.
  - intros key l' r H1 H2. apply in_dset in H1. destruct H1 as [[-> ->]|H1]; [now apply H|eauto].
  - intros key ds d key' l' r H1 H2 H3 H4 H5. apply in_dset in H3. destruct H3 as [[-> ->]|H3]; [|eauto].
    exfalso. destruct (H r H4) as [_ N]. apply N. rewrite H5. eapply in_def_ids; eauto.
Qed.

Lemma tie_lhs_vars pairs n r : In r (tie_lhs pairs n) ->
  exists p, In p pairs /\ (l_var r = ti_var (fst p) \/ l_var r = ti_var (snd p)).
Proof.
  unfold tie_lhs. rewrite in_app_iff, !in_map_iff. intros [[[i [a b]] [<- H]]|[[i [a b]] [<- H]]];
    apply in_save_index in H; destruct H as [_ H]; cbn [snd] in H; exists (a, b); cbn; auto.
Qed.

Lemma tie_pairs_rows rows p : In p (tie_pairs rows) -> In (fst p) rows /\ In (snd p) rows.
Proof.
  unfold tie_pairs. intros H. apply drop_duplicates_incl in H. apply filter_In in H. destruct H as [H _].
  apply in_merge_p in H. tauto.
Qed.

Lemma tie_rows_vars prices vs ui a : In a (tie_rows prices vs ui) -> In (ti_var a) (map ob_var prices).
Proof.
  unfold tie_rows. intros H. apply in_map_iff in H. destruct H as [[[o v] u] [<- H]].
  apply in_merge_p in H. destruct H as [H _]. apply in_merge_p in H. cbn in H. destruct H as [H _].
  apply filter_In in H. cbn [ti_var]. apply in_map. tauto.
Qed.

Lemma put_tie_tidy prices vs m : tidy m -> m_obj_bids m = Some prices ->
  tidy (put_tie (tie_pairs (tie_rows prices vs (c_ui (m_cfg m)))) m).
Proof.
  intros T E. set (pairs := tie_pairs _).
  assert (Hp : forall n r, In r (tie_lhs pairs n) -> (l_var r < m_nv m)%nat /\ ~ In (l_var r) (def_ids m)).
  { intros n r Hr. apply (td_vars m T). unfold table_vars. rewrite E. apply in_app_iff. left.
    destruct (tie_lhs_vars _ _ _ Hr) as [p [Hp Hv]]. apply tie_pairs_rows in Hp. destruct Hp as [P1 P2].
    destruct Hv as [-> | ->]; eapply tie_rows_vars; eauto. }
  unfold put_tie. destruct (m_nc m) as [n|].
  - apply (tidy_grow (set_m_lhs (dset "tie_break" (tie_lhs pairs n) (m_lhs m)) m)); fields; auto.
    apply tidy_set_lhs; auto. apply Hp.
  - apply (tidy_grow (set_m_lhs (dset "tie_break" [] (m_lhs m)) m)); fields; auto.
    apply tidy_set_lhs; auto. intros r [].
Qed.

Lemma set_volume_bids_tidy t m : tidy m -> tidy (fst (set_volume_bids t m)).
Proof.
  intros T. unfold set_volume_bids. repeat (apply guard_fst; [exact T|intros _]).
  destruct (next_id _) eqn:E; fields; apply (tidy_grow m); fields; auto.
  destruct (bid_variables_ids t (m_nv m)) as [kk Ek]. rewrite Ek in E. apply seq_fresh_next in E. lia.
Qed.

Lemma set_price_bids_tidy t m : wf m -> tidy m -> tidy (fst (set_price_bids t m)).
Proof.
  intros W T. unfold set_price_bids. destruct (m_bids m) as [vs|] eqn:Eb; [|exact T].
  repeat (apply guard_fst; [exact T|intros _]). destruct T as [T1 T2 T3 T4 T5 T6 T7].
  constructor; unfold table_vars, def_ids in *; fields; auto. cbn [rows_or_nil].
  intros i Hi. apply in_app_iff in Hi. destruct Hi as [Hi|Hi].
  - apply in_map_iff in Hi. destruct Hi as [o [<- Ho]]. unfold scale_by_loss_factors in Ho.
    apply in_map_iff in Ho. destruct Ho as [[o' u] [<- Ho]]. apply in_merge_p in Ho. destruct Ho as [Ho _].
    unfold objective_bids in Ho. cbn [fst] in Ho. apply in_map_iff in Ho. destruct Ho as [[v [z c]] [<- Hv]].
    apply in_merge_p in Hv. destruct Hv as [Hv _]. cbn in *. now apply (bid_ids_lt m vs).
  - apply T1. apply in_app_iff. now right.
Qed.

Lemma remove_fast_start_tidy m : tidy m -> tidy (fst (remove_fast_start m)).
Proof.
  intros T. unfold remove_fast_start.
  assert (T' : tidy (if dhas "fast_start" (m_rhs m)
           then set_m_c2v_unit (ddel "fast_start" (m_c2v_unit m)) (set_m_rhs (ddel "fast_start" (m_rhs m)) m) else m)).
  { destruct (dhas _ _); [|exact T]. apply (tidy_grow m); fields; auto. }
  set (m1 := if dhas "fast_start" (m_rhs m) then _ else m) in *. clearbody m1. clear T.
  destruct (dhas "fast_start_deficit" (m_deficits m1)); [|exact T'].
  destruct T' as [T1 T2 T3 T4 T5 T6 [T7 T8]]. constructor; unfold table_vars in *; fields; auto.
  - intros i Hi. destruct (T1 i Hi) as [X Y]. split; [exact X|]. intros Hd. apply Y. apply def_ids_in in Hd.
    destruct Hd as [key [ds [d [H1 [H2 H3]]]]]. revert H1. fields. intros H1. apply in_ddel in H1.
    rewrite <- H3. eapply in_def_ids; eauto.
  - intros key l r H1. apply in_ddel in H1. eauto.
  - intros key ds d key' l r H1 H2 H3. apply in_ddel in H1. apply in_ddel in H3. eauto.
  - intros key l r H1. apply in_ddel in H1. eauto.
  - intros key ds d key' l r H1 H2 H3. apply in_ddel in H1. apply in_ddel in H3. eauto.
  - split; now apply ddel_NoDup.
Qed.

Lemma set_interconnectors_tidy l m : tidy m -> tidy (fst (set_interconnectors l m)).
Proof.
  intros T. unfold set_interconnectors. apply guard_fst; [exact T|intros _].
  destruct (next_id _) eqn:E; fields; apply (tidy_grow m); fields; auto.
  rewrite inter_variables_ids in E. apply seq_fresh_next in E. lia.
Qed.

Lemma lp_lhs_vars p r : In r (lp_lhs p) -> In (l_var r) (map wv_id (lp_ws p)).
Proof.
  assert (W : forall n q, In q (weights_by_con (lp_ws p) n) -> In (fst q) (lp_ws p)).
  { intros n q H. unfold weights_by_con in H. apply in_merge_p in H. tauto. }
  unfold lp_lhs. rewrite !in_app_iff. unfold weights_sum_lhs, flow_link_lhs, loss_link_lhs.
  intros [H|[H|H]].
  - apply in_map_iff in H. destruct H as [q [<- H]]. cbn. apply in_map. eapply W; eauto.
  - apply in_map_iff in H. destruct H as [q [<- H]]. cbn. apply in_map. eapply W; eauto.
  - apply in_map_iff in H. destruct H as [[[w [i w']] [f z]] [<- H]]. apply in_merge_p in H. destruct H as [H _].
    apply W in H. cbn in *. now apply in_map.
Qed.

Lemma set_losses_tidy lf bps m : wf m -> tidy m -> tidy (fst (set_losses lf bps m)).
Proof.
  intros W T. destruct (set_losses_cases lf bps m) as [[e ->]|[[e ->]|[p [P ->]]]]; fields; auto.
  { apply (tidy_grow m); fields; auto. }
  pose proof P as P0. destruct P as [C [ED [EI [ER [Els [Elv [Env [Ews _]]]]]]]].
  set (n' := S (list_max (map lv_id (lp_lv p) ++ map wv_id (lp_ws p)))).
  assert (Llv : forall i, In i (map lv_id (lp_lv p)) -> (m_nv m <= i < n')%nat).
  { intros i Hi. split.
    - rewrite Elv in Hi. apply in_map_iff in Hi. destruct Hi as [v [<- Hv]]. unfold loss_variables in Hv.
      apply in_map_iff in Hv. destruct Hv as [[[i v'] q] [<- Hv]]. apply in_merge_p in Hv. destruct Hv as [Hv _].
      apply in_save_index in Hv. cbn in *. lia.
    - unfold n'. apply Nat.lt_succ_r. apply list_max_ge. apply in_app_iff. now left. }
  assert (Hn : (m_nv m <= n')%nat).
  { destruct (next_id_in _ _ Env) as [i [Hi _]]. specialize (Llv _ Hi). lia. }
  assert (Lws : forall i, In i (map wv_id (lp_ws p)) -> (m_nv m <= i < n')%nat).
  { intros i Hi. split.
    - rewrite Ews, weight_variables_ids in Hi. apply in_seq in Hi.
      destruct (next_id_in _ _ Env) as [j [Hj Ej]]. specialize (Llv _ Hj). lia.
    - unfold n'. apply Nat.lt_succ_r. apply list_max_ge. apply in_app_iff. now right. }
  assert (Ddef : forall i, In i (def_ids (put_losses lf p m)) -> (i < m_nv m)%nat).
  { intros i Hi. now apply (def_lt m). }
  destruct T as [T1 T2 T3 T4 T5 T6 T7]. constructor.
  - intros i Hi. unfold table_vars, put_losses in Hi. cbn [m_obj_bids m_dyn m_reg_loss rows_or_nil] in Hi.
    rewrite !in_app_iff in Hi. change (m_nv (put_losses lf p m)) with n'.
    destruct Hi as [Hi|[Hi|Hi]].
    + destruct (T1 i) as [X Y]; [unfold table_vars; rewrite in_app_iff; now left|]. split; [lia|exact Y].
    + assert (In i (map dy_var (lp_dyn p))) as Hd by (destruct (m_nc m); [exact Hi|destruct Hi]).
      unfold lp_dyn in Hd. rewrite map_app, in_app_iff in Hd. destruct Hd as [Hd|Hd]; apply in_map_iff in Hd;
        destruct Hd as [d [<- Hd]].
      * unfold flow_link_rhs in Hd. apply in_map_iff in Hd. destruct Hd as [[[j w] v] [<- Hd]].
        apply in_merge_p in Hd. destruct Hd as [_ [Hd _]]. cbn in *.
        destruct (inter_ids_lt m _ v W EI Hd). split; [lia|auto].
      * unfold loss_link_rhs in Hd. apply in_map_iff in Hd. destruct Hd as [[[j w] v] [<- Hd]].
        apply in_merge_p in Hd. destruct Hd as [_ [Hd _]]. cbn in *.
        assert (L := Llv (lv_id v) (in_map _ _ _ Hd)). split; [lia|]. intros X. apply Ddef in X. lia.
    + assert (In i (map lv_id (lp_lv p))) as Hl.
      { rewrite Elv. apply in_map_iff in Hi. destruct Hi as [r [<- Hr]]. unfold loss_regional_map in Hr.
        apply in_map_iff in Hr. destruct Hr as [[[[j v] [f from]] r'] [<- Hr]]. apply in_merge_p in Hr.
        destruct Hr as [Hr _]. cbn in *. unfold loss_variables. rewrite map_map.
        apply in_map_iff. exists (j, v, (f, from)). auto. }
      apply Llv in Hl. split; [lia|]. intros X. apply Ddef in X. lia.
  - unfold put_losses. cbn [m_reg_loss m_loss rows_or_nil]. intros i Hi. rewrite Elv.
    apply in_map_iff in Hi. destruct Hi as [r [<- Hr]]. unfold loss_regional_map in Hr.
    apply in_map_iff in Hr. destruct Hr as [[[[j v] [f from]] r'] [<- Hr]]. apply in_merge_p in Hr.
    destruct Hr as [Hr _]. cbn in *. unfold loss_variables. rewrite map_map.
    apply in_map_iff. exists (j, v, (f, from)). auto.
  - intros key l r H1 H2. change (m_nv (put_losses lf p m)) with n'. cbn [put_losses m_lhs] in H1.
    apply in_dset in H1. destruct H1 as [[-> ->]|H1].
    + destruct (m_nc m); [|destruct H2]. apply lp_lhs_vars, Lws in H2. lia.
    + specialize (T3 _ _ _ H1 H2). lia.
  - intros key ds d key' l r H1 H2 H3 H4 H5. cbn [put_losses m_lhs m_deficits] in *.
    apply in_dset in H3. destruct H3 as [[-> ->]|H3]; [|eauto]. exfalso.
    destruct (m_nc m); [|destruct H4]. apply lp_lhs_vars, Lws in H4.
    pose proof (def_lt m _ W (in_def_ids _ _ _ _ H1 H2)). lia.
  - intros key l r H1 H2. change (m_nv (put_losses lf p m)) with n'. specialize (T5 _ _ _ H1 H2). lia.
  - exact T6.
  - exact T7.
Qed.

Lemma step_tidy o m : wf m -> tidy m -> tidy (fst (step o m)).
Proof.
  intros W T.
  assert (G : (forall k, In k (touches o) -> k <> "tie_break") -> wf (fst (step o m)) /\ tidy (fst (step o m))).
  { intros HK. apply (step_preserves_all (fun m => wf m /\ tidy m) (fun k => k <> "tie_break")) with (ok := fun _ _ => True); auto.
    - intros t m1 _ [W1 T1]. split; [now apply set_volume_bids_wf|now apply set_volume_bids_tidy].
    - intros t m1 _ [W1 T1]. split; [now apply set_price_bids_wf|now apply set_price_bids_tidy].
    - intros k mr mm m1 _ _ Hg [W1 T1]. split; [now apply new_unit_group_wf|].
      unfold new_unit_group, put_unit. destruct (m_nc m1); [destruct (next_id _)|destruct (mr 0%nat)]; fields;
        apply (tidy_grow m1); fields; auto.
    - intros k mr mm m1 _ _ Hg [W1 T1]. split; [now apply new_regional_group_wf|].
      unfold new_regional_group, put_regional. destruct (m_nc m1); [destruct (next_id _)|destruct (mr 0%nat)]; fields;
        apply (tidy_grow m1); fields; auto.
    - intros k v m1 _ [W1 T1]. split; [now apply make_elastic_wf|now apply make_elastic_tidy].
    - intros m1 _ [W1 T1]. split; [now apply remove_fast_start_wf|now apply remove_fast_start_tidy].
    - intros l m1 _ [W1 T1]. split; [now apply set_interconnectors_wf|now apply set_interconnectors_tidy].
    - intros l m1 _ [W1 T1]. split; [|apply (tidy_grow m1); fields; auto].
      destruct W1; constructor; fields; auto.
    - intros l m1 _ [W1 T1]. split; [|apply (tidy_grow m1); fields; auto].
      destruct W1; constructor; fields; auto.
    - intros l m1 _ [W1 T1]. split; [|apply (tidy_grow m1); fields; auto].
      destruct W1; constructor; fields; auto.
    - intros pairs m1 N. congruence.
    - intros lf bps m1 _ _ _ [W1 T1]. split; [now apply set_losses_wf|now apply set_losses_tidy].
    - intros l v m1 _ _ [W1 T1]. split; [now apply put_generic_wf|].
      unfold put_generic. destruct (m_nc m1); fields; apply (tidy_grow m1); fields; auto. }
  destruct o; try (apply G; intros k Hk E; subst k; cbn in Hk; intuition discriminate).
  - cbn. now apply make_elastic_tidy.
  - cbn. unfold set_tie_break. destruct (m_obj_bids m) as [prices|] eqn:Eo; [|exact T].
    destruct (m_bids m) as [vs|] eqn:Eb; [|exact T].
    destruct (tie_pairs _) as [|q qs] eqn:E; [exact T|].
    change (tidy (fst (make_elastic "tie_break" cost (put_tie (q :: qs) m)))).
    apply make_elastic_tidy; [now apply put_tie_wf|]. rewrite <- E. now apply put_tie_tidy.
Qed.

Lemma empty_tidy c : tidy (empty_market c).
Proof.
  constructor; cbn; try (intros; contradiction). split; constructor.
Qed.

Lemma run_tidy c m0 ops : new_market c = Ok m0 -> tidy (run ops m0).
Proof.
  intros H. apply (run_preserves (fun m => wf m /\ tidy m)).
  - intros o m _ [W T]. split; [now apply step_wf|now apply step_tidy].
  - unfold new_market in H. destruct (check_unit_info c) eqn:E; [discriminate|]. inversion H; subst.
    split; [now apply empty_market_wf|apply empty_tidy].
Qed.

Lemma reached_tidy c m : reached c m -> tidy m.
Proof. intros [m0 [ops [H [_ ->]]]]. eapply run_tidy; eauto. Qed.
