(** The part of the problem that links losses to flows says just that every loss is read
    off the loss function between two neighbouring break points. *)

From Coq Require Import QArith Qabs Qminmax Lqa String List Bool Arith Lia ZArith Permutation Sorted.
Import ListNotations.
From Verif Require Import PandasModel TablesModel VariableIdsModel MarketConstraintsModel
  UnitConstraintsModel RampModel FcasModel InterModel ElasticModel MarketModel SolverModel
  SpecLp SpecHistory SpecIds SpecDispatch SpecNetwork SpecExact PandasFacts StepFacts InvariantFacts OwnerFacts SolverFacts
  MeaningFacts LimitFacts TableFacts BidFacts JointRampFacts BalanceFacts LossFacts GenericFacts MixedFacts.
Open Scope string_scope.
Open Scope list_scope.

Definition by_seg (a b : weightvar) : bool := Z.leb (wv_seg a) (wv_seg b).

(** The weights of a link carry the flow [q] and the loss [e]. *)
Definition carries (ws : list weightvar) (d : inter_row) (f : lossfn_row) (q e : Q) (y : assignment) : Prop :=
  let fl := filter (of_link d) ws in
  (forall w, In w fl -> 0 <= y (wv_id w) <= 1)
  /\ sumQ (fun w => y (wv_id w)) fl == 1
  /\ sumQ (fun w => wv_point w * y (wv_id w)) fl == q
  /\ sumQ (fun w => lf_fun f (wv_point w) * y (wv_id w)) fl == e
  /\ sos2_ok y (map wv_id (sort_rows by_seg fl)).

Section Values.
Variables (m : market) (dirs : list inter_row) (lf : list lossfn_row) (bps : list bp_row) (n nv : nat) (p : loss_parts).
Variables (g : nat -> grp) (k : nat).
Hypothesis O : own g k m.
Hypothesis UK : unit_map_keys m.
Hypothesis NT : network_tables dirs lf n nv m.
Hypothesis T : loss_tables dirs lf bps n nv p m.
Variable x : assignment.

Lemma LK j n' w0 : In (j, w0) (link_ids (lp_ws p) n') -> (n' <= j)%nat.
Proof. intros H. now apply in_link_ids in H. Qed.

Lemma sum_row i w0 d : In (i, w0) (link_ids (lp_ws p) (lp_n0 p)) -> in_inter d = wv_inter w0 -> in_link d = wv_link w0 ->
  row_value (all_lhs m) x i == sumQ (fun w => x (wv_id w)) (filter (of_link d) (lp_ws p)).
Proof.
  intros Hi E1 E2. set (r := CRow i "=" 1 (KLink (wv_inter w0) (wv_link w0))).
  assert (Hr : In r (lp_sum_rhs p)).
  { unfold lp_sum_rhs, weights_sum_rhs. apply in_map_iff. exists (i, w0). auto. }
  rewrite (loss_row_value _ _ _ _ _ _ _ _ _ _ _ O UK T).
  2:{ left. split; [|apply (in_map cr_id) in Hr; exact Hr].
      pose proof (lt_rhs _ _ _ _ _ _ _ T) as D. apply dget_in in D. apply (ow_rhs _ _ _ O _ _ r D Hr). }
  unfold lp_lhs. rewrite !row_value_app.
  rewrite (lhs_value_ge (flow_link_lhs _ _)).
  2:{ intros l Hl. apply in_map_iff in Hl. destruct Hl as [[w' [j w1]] [<- Hl]]. apply weights_by_con_in in Hl.
      cbn [l_con fst snd] in *. destruct Hl as [_ [Hl _]]. apply LK in Hl. pose proof (lt_n12 _ _ _ _ _ _ _ T).
      apply (lt_n1 _ _ _ _ _ _ _ T) in Hi. lia. }
  rewrite (lhs_value_ge (loss_link_lhs _ _ _)).
  2:{ intros l Hl. apply in_map_iff in Hl. destruct Hl as [[[w' [j w1]] [f' fr]] [<- Hl]]. apply in_merge in Hl.
      destruct Hl as [Hl _]. apply weights_by_con_in in Hl.
      cbn [l_con fst snd] in *. destruct Hl as [_ [Hl _]]. apply LK in Hl.
      apply (lt_n1 _ _ _ _ _ _ _ T) in Hi. lia. }
  unfold weights_sum_lhs. rewrite (weights_join_value (lp_ws p) (lp_n0 p) (fun _ => 1) i w0 x Hi).
  rewrite (filter_same_link d w0) by congruence. rewrite !Qplus_0_r. apply sumQ_ext. intros. ring.
Qed.

Lemma flow_row i w0 d j : In (i, w0) (link_ids (lp_ws p) (lp_n2 p)) -> in_inter d = wv_inter w0 -> in_link d = wv_link w0 ->
  In (Dyn (wv_inter w0) (wv_link w0) i "=" j) (lp_dyn p) ->
  row_value (all_lhs m) x i == sumQ (fun w => wv_point w * x (wv_id w)) (filter (of_link d) (lp_ws p)).
Proof.
  intros Hi E1 E2 Hdyn. rewrite (loss_row_value _ _ _ _ _ _ _ _ _ _ _ O UK T).
  2:{ right. apply (ow_dyn _ _ _ O (Dyn (wv_inter w0) (wv_link w0) i "=" j)). now rewrite (lt_dyn _ _ _ _ _ _ _ T). }
  unfold lp_lhs. rewrite !row_value_app.
  pose proof (LK _ _ _ Hi) as Li.
  rewrite (lhs_value_lt (weights_sum_lhs _ _)).
  2:{ intros l Hl. apply in_map_iff in Hl. destruct Hl as [[w' [j' w1]] [<- Hl]]. apply weights_by_con_in in Hl.
      cbn [l_con fst snd] in *. destruct Hl as [_ [Hl _]]. apply (lt_n1 _ _ _ _ _ _ _ T) in Hl.
      pose proof (lt_n12 _ _ _ _ _ _ _ T). lia. }
  rewrite (lhs_value_lt (loss_link_lhs _ _ _)).
  2:{ intros l Hl. apply in_map_iff in Hl. destruct Hl as [[[w' [j' w1]] [f' fr]] [<- Hl]]. apply in_merge in Hl.
      destruct Hl as [Hl [Hl2 Hl3]]. apply weights_by_con_in in Hl.
      cbn [l_con fst snd] in *. destruct Hl as [L1 [L2 [L3 L4]]]. apply same_link_eq in Hl3.
      destruct (lt_known _ _ _ _ _ _ _ T w' L1) as [v' [V1 [V2 V3]]].
      destruct (save_index_in nv _ _ V1) as [jj Hjj].
      pose proof (lt_n2 _ _ _ _ _ _ _ T (Dyn (wv_inter w1) (wv_link w1) j' "=" jj)) as K. cbn in K.
      enough (j' < lp_n2 p)%nat by lia. apply K. unfold loss_link_rhs. apply in_map_iff.
      exists ((j', w1), LossVar (iv_inter v') (iv_link v') jj (-(1) * loss_bound v') (loss_bound v')).
      split; [reflexivity|]. apply in_merge. split; [exact L2|]. split.
      - rewrite (lt_lv _ _ _ _ _ _ _ T). unfold loss_variables, loss_rows. apply in_map_iff.
        exists ((jj, v'), (f', fr)). split; [reflexivity|]. apply in_merge. cbn [fst snd].
        rewrite <- (lt_vs _ _ _ _ _ _ _ T), <- (lt_ls _ _ _ _ _ _ _ T). repeat split; auto.
        apply same_link_eq. intuition congruence.
      - cbn. apply same_link_eq. intuition congruence. }
  unfold flow_link_lhs. rewrite (weights_join_value (lp_ws p) (lp_n2 p) wv_point i w0 x Hi).
  rewrite (filter_same_link d w0) by congruence. rewrite Qplus_0_r, Qplus_0_l. reflexivity.
Qed.

Lemma loss_row i w0 d f j2 : In (i, w0) (link_ids (lp_ws p) (lp_n1 p)) -> in_inter d = wv_inter w0 -> in_link d = wv_link w0 ->
  In d dirs -> In f lf -> in_inter d = lf_inter f -> in_link d = lf_link f ->
  In (Dyn (wv_inter w0) (wv_link w0) i "=" j2) (loss_link_rhs (lp_ws p) (lp_lv p) (lp_n1 p)) ->
  row_value (all_lhs m) x i == sumQ (fun w => lf_fun f (wv_point w) * x (wv_id w)) (filter (of_link d) (lp_ws p)).
Proof.
  intros Hi E1 E2 Hd Hf F1 F2 Hrow.
  assert (Hls : In (f, in_from d) (lp_ls p)).
  { rewrite (lt_ls _ _ _ _ _ _ _ T). unfold loss_shares. apply in_map_iff. exists (f, d). split; [reflexivity|].
    apply in_merge. repeat split; auto. apply same_link_eq. auto. }
  rewrite (loss_row_value _ _ _ _ _ _ _ _ _ _ _ O UK T).
  2:{ right. apply (ow_dyn _ _ _ O (Dyn (wv_inter w0) (wv_link w0) i "=" j2)). rewrite (lt_dyn _ _ _ _ _ _ _ T).
      unfold lp_dyn. cbn [rows_or_nil]. apply in_or_app. right. exact Hrow. }
  unfold lp_lhs. rewrite !row_value_app.
  pose proof (LK _ _ _ Hi) as Li. apply (lt_n2 _ _ _ _ _ _ _ T) in Hrow. cbn in Hrow.
  rewrite (lhs_value_lt (weights_sum_lhs _ _)).
  2:{ intros l Hl. apply in_map_iff in Hl. destruct Hl as [[w' [j' w1]] [<- Hl]]. apply weights_by_con_in in Hl.
      cbn [l_con fst snd] in *. destruct Hl as [_ [Hl _]]. apply (lt_n1 _ _ _ _ _ _ _ T) in Hl. lia. }
  rewrite (lhs_value_ge (flow_link_lhs _ _)).
  2:{ intros l Hl. apply in_map_iff in Hl. destruct Hl as [[w' [j' w1]] [<- Hl]]. apply weights_by_con_in in Hl.
      cbn [l_con fst snd] in *. destruct Hl as [_ [Hl _]]. apply LK in Hl. lia. }
  rewrite (loss_join_value (lp_ws p) (lp_ls p) (lp_n1 p) i w0 x Hi).
  rewrite (filter_same_link d w0) by congruence. rewrite !Qplus_0_l.
  apply sumQ_ext_in. intros u Hu. apply filter_In in Hu. destruct Hu as [_ Hu]. unfold of_link in Hu.
  apply same_link_eq in Hu. destruct Hu as [U1 U2]. apply Qmult_comp; [|reflexivity].
  rewrite sumQ_filter.
  rewrite (sumQ_pick (fun q : lossfn_row * string => lf_fun (fst q) (wv_point u)) _ (f, in_from d)); auto.
  + reflexivity.
  + cbn [fst]. apply same_link_eq. split; congruence.
  + intros q Hq Eq. apply same_link_eq in Eq.
    apply (FOP_unique (fun p q : lossfn_row * string => same_link (lf_inter (fst p)) (lf_link (fst p))
             (lf_inter (fst q)) (lf_link (fst q))) (lp_ls p)); auto.
    * apply T.
    * intros a c0. apply same_link_sym.
    * apply same_link_eq. cbn [fst]. intuition congruence.
  + apply (FOP_NoDup (fun p q : lossfn_row * string => same_link (lf_inter (fst p)) (lf_link (fst p))
             (lf_inter (fst q)) (lf_link (fst q)))); [intros a; now apply same_link_eq|apply T].
Qed.

Lemma loss_value d f j2 j : In (j2, (j, d)) (save_index nv (save_index n dirs)) -> In f lf -> about_link d f = true ->
  link_loss m x (in_inter d) (in_link d) == x j2.
Proof.
  intros Hj2 Hf Ef. rewrite (loss_of m x dirs lf n nv j2 j d NT Hj2).
  pose proof (at_most_one_lf lf d (nt_lf _ _ _ _ _ NT)) as L1.
  assert (Hin : In f (filter (about_link d) lf)) by (apply filter_In; auto).
  destruct (filter (about_link d) lf) as [|f1 [|f2 t]]; [destruct Hin| |cbn in L1; lia].
  rewrite sumQ_cons. unfold sumQ; cbn. ring.
Qed.

End Values.

Section Rows.
Variables (m : market) (dirs : list inter_row) (lf : list lossfn_row) (bps : list bp_row) (n nv : nat) (p : loss_parts).
Hypothesis HO : owned m.
Hypothesis UK : unit_map_keys m.
Hypothesis NT : network_tables dirs lf n nv m.
Hypothesis T : loss_tables dirs lf bps n nv p m.
(** Break points belong to links with loss functions, and those have break points. *)
Hypothesis B1 : forall b, In b bps -> exists f, In f lf /\ lf_inter f = bp_inter b /\ lf_link f = bp_link b.
Hypothesis B2 : forall d f, In d dirs -> In f lf -> about_link d f = true -> exists b, In b bps /\ at_link d b = true.
Variable x : assignment.

Definition wrows : list rrow := static_rrows (lp_sum_rhs p) ++ dyn_rrows (lp_dyn p).

(** What the weights of the links have to satisfy. *)
Definition all_carried : Prop := forall d f, In d dirs -> In f lf -> about_link d f = true ->
  Qabs (link_loss m x (in_inter d) (in_link d)) <= Qmax (Qabs (in_min d)) (Qabs (in_max d))
  /\ carries (lp_ws p) d f (link_flow m x (in_inter d) (in_link d)) (link_loss m x (in_inter d) (in_link d)) x.

Definition all_rows_ok : Prop :=
  (forall v, In v (loss_pvars (rows_or_nil (m_loss m)) ++ weight_pvars (rows_or_nil (m_weights m))) -> in_bounds x v)
  /\ (forall r, In r wrows -> (exists l, In l (all_lhs m) /\ l_con l = r_id r) ->
        relation (r_type r) (row_value (all_lhs m) x (r_id r)) (rhs_value (r_rhs r) x))
  /\ forall s, In s (sos2_sets (rows_or_nil (m_weights m))) -> sos2_ok x s.

Lemma weight_point w : In w (lp_ws p) -> exists b, In b bps /\ bp_inter b = wv_inter w /\ bp_link b = wv_link w
  /\ wv_seg w = bp_seg b /\ wv_point w = bp_point b /\ wv_lb w = 0 /\ wv_ub w = 1.
Proof.
  rewrite (lt_ws _ _ _ _ _ _ _ T). unfold weight_variables. intros H. apply in_map_iff in H. destruct H as [[j b] [<- H]].
  apply in_save_index in H. exists b. cbn in *. intuition.
Qed.

Lemma weight_link w : In w (lp_ws p) -> exists d f j, In (j, d) (save_index n dirs) /\ In f lf /\ about_link d f = true
  /\ in_inter d = wv_inter w /\ in_link d = wv_link w.
Proof.
  intros Hw. destruct (weight_point w Hw) as [b [Hb [E1 [E2 _]]]]. destruct (B1 b Hb) as [f [Hf [F1 F2]]].
  destruct (lt_known _ _ _ _ _ _ _ T w Hw) as [v [Hv [V1 V2]]]. rewrite (lt_vs _ _ _ _ _ _ _ T) in Hv.
  unfold inter_variables in Hv. apply in_map_iff in Hv. destruct Hv as [[j d] [<- Hv]]. cbn in V1, V2.
  exists d, f, j. split; [exact Hv|]. split; [exact Hf|]. split; [|split; congruence].
  unfold about_link. rewrite V1, V2, F1, F2, E1, E2, !String.eqb_refl. reflexivity.
Qed.

Lemma sum_lhs l : In l (lp_lhs p) -> In l (all_lhs m).
Proof.
  intros Hl. unfold all_lhs. apply in_or_app. left. apply in_dconcat. exists "interconnector_losses", (lp_lhs p). split; auto.
  apply dget_in, T.
Qed.

Lemma about_eq d f : about_link d f = true -> in_inter d = lf_inter f /\ in_link d = lf_link f.
Proof. unfold about_link. rewrite andb_true_iff, !String.eqb_eq. auto. Qed.

Lemma point_weight d b : In b bps -> at_link d b = true -> exists w, In w (filter (of_link d) (lp_ws p)) /\ wv_seg w = bp_seg b
  /\ wv_point w = bp_point b.
Proof.
  intros Hb Eb. destruct (save_index_in (lp_nv p) _ _ Hb) as [j Hj].
  exists (WeightVar (bp_inter b) (bp_link b) (bp_seg b) (bp_point b) j 0 1). split; [|split; reflexivity].
  apply filter_In. split; [|exact Eb]. rewrite (lt_ws _ _ _ _ _ _ _ T). unfold weight_variables. apply in_map_iff. exists (j, b). auto.
Qed.

Lemma loss_var_there d f j j2 : In (j, d) (save_index n dirs) -> In (j2, (j, d)) (save_index nv (save_index n dirs)) ->
  In f lf -> about_link d f = true ->
  In (LossVar (in_inter d) (in_link d) j2 (-(1) * Qmax (Qabs (in_min d)) (Qabs (in_max d))) (Qmax (Qabs (in_min d)) (Qabs (in_max d)))) (lp_lv p).
Proof.
  intros Hj Hj2 Hf Ef. apply about_eq in Ef. destruct Ef as [F1 F2].
  assert (Hls : In (f, in_from d) (lp_ls p)).
  { rewrite (lt_ls _ _ _ _ _ _ _ T). unfold loss_shares. apply in_map_iff. exists (f, d). split; [reflexivity|].
    apply in_merge. split; [exact Hf|]. split; [apply in_save_index in Hj; tauto|]. apply same_link_eq. auto. }
  rewrite (lt_lv _ _ _ _ _ _ _ T). unfold loss_variables, loss_rows. apply in_map_iff.
  exists ((j2, InterVar (in_inter d) (in_link d) j (in_min d) (in_max d) (in_gcf d)), (f, in_from d)). split; [reflexivity|]. apply in_merge. cbn [fst snd].
  rewrite <- (lt_ls _ _ _ _ _ _ _ T). repeat split; auto.
  - unfold inter_variables. rewrite save_index_map. apply in_map_iff. exists (j2, (j, d)). auto.
  - apply same_link_eq. auto.
Qed.

Lemma loss_var_link v : In v (lp_lv p) -> exists j2 j d f, In (j, d) (save_index n dirs)
  /\ In (j2, (j, d)) (save_index nv (save_index n dirs)) /\ In f lf /\ about_link d f = true
  /\ v = LossVar (in_inter d) (in_link d) j2 (-(1) * Qmax (Qabs (in_min d)) (Qabs (in_max d))) (Qmax (Qabs (in_min d)) (Qabs (in_max d))).
Proof.
  rewrite (lt_lv _ _ _ _ _ _ _ T). unfold loss_variables, loss_rows. intros H. apply in_map_iff in H.
  destruct H as [[[j2 iv] [f fr]] [<- H]]. apply in_merge in H. destruct H as [H [H2 H3]]. cbn [fst snd] in *.
  unfold inter_variables in H. rewrite save_index_map in H. apply in_map_iff in H. destruct H as [[j2' [j d]] [E H]]. inversion E; subst j2' iv.
  unfold loss_shares in H2. apply in_map_iff in H2. destruct H2 as [[f' d'] [E2 H2]]. inversion E2; subst f' fr. apply in_merge in H2.
  destruct H2 as [Hf _]. apply same_link_eq in H3. cbn in H3. exists j2, j, d, f.
  split; [apply in_save_index in H; tauto|]. split; [exact H|]. split; [exact Hf|]. split; [|reflexivity].
  unfold about_link. destruct H3 as [-> ->]. now rewrite !String.eqb_refl.
Qed.

Lemma m_loss_rows : rows_or_nil (m_loss m) = lp_lv p.
Proof. rewrite (nt_loss _ _ _ _ _ NT), (lt_lv _ _ _ _ _ _ _ T). reflexivity. Qed.
Lemma m_weight_rows : rows_or_nil (m_weights m) = lp_ws p.
Proof. now rewrite (lt_weights _ _ _ _ _ _ _ T). Qed.

Lemma sos2_of_link d w : In w (lp_ws p) -> in_inter d = wv_inter w -> in_link d = wv_link w ->
  In (map wv_id (sort_rows by_seg (filter (of_link d) (lp_ws p)))) (sos2_sets (lp_ws p)).
Proof.
  intros Hw E1 E2. unfold sos2_sets. apply in_map_iff. exists (in_inter d, in_link d). split.
  - unfold by_seg. f_equal. f_equal. apply filter_ext. intros u. cbn [fst snd]. unfold of_link, same_link.
    now rewrite (String.eqb_sym (wv_inter u)), (String.eqb_sym (wv_link u)).
  - rewrite keys_of_drop.
    destruct (drop_duplicates_repr (fun a b : string * string => String.eqb (fst a) (fst b) && String.eqb (snd a) (snd b))
      (map (fun w => (wv_inter w, wv_link w)) (lp_ws p)) (in_inter d, in_link d)) as [q [K1 K2]].
    + intros a b H c0 H2. apply andb_true_iff in H, H2. rewrite !String.eqb_eq in *. apply andb_true_iff. rewrite !String.eqb_eq. intuition congruence.
    + intros a. now rewrite !String.eqb_refl.
    + intros a b H. now rewrite (String.eqb_sym (fst b)), (String.eqb_sym (snd b)).
    + apply in_map_iff. exists w. split; auto. now rewrite E1, E2.
    + apply andb_true_iff in K2. rewrite !String.eqb_eq in K2. destruct q as [k1 k2]. cbn in K2. destruct K2 as [-> ->]. exact K1.
Qed.

Lemma rows_carry : all_rows_ok -> all_carried.
Proof.
  intros [Vb [Rw S2]] d f Hd Hf Ef. pose proof HO as [W [g [k O]]]. rewrite m_loss_rows, m_weight_rows in Vb. rewrite m_weight_rows in S2.
  destruct (save_index_in n _ _ Hd) as [j Hj]. destruct (save_index_in nv _ _ Hj) as [j2 Hj2].
  destruct (B2 d f Hd Hf Ef) as [b [Hb Eb]]. destruct (point_weight d b Hb Eb) as [w [Hw _]]. apply filter_In in Hw. destruct Hw as [Hw Lw].
  unfold of_link in Lw. apply same_link_eq in Lw. destruct Lw as [W1 W2]. destruct (about_eq d f Ef) as [F1 F2].
  pose proof (loss_value m dirs lf n nv NT x d f j2 j Hj2 Hf Ef) as EL.
  split.
  { rewrite EL. pose proof (loss_var_there d f j j2 Hj Hj2 Hf Ef) as Hv.
    specialize (Vb (PVar j2 (-(1) * Qmax (Qabs (in_min d)) (Qabs (in_max d))) (Some (Qmax (Qabs (in_min d)) (Qabs (in_max d)))))).
    destruct Vb as [V1 V2].
    - apply in_or_app. left. unfold loss_pvars. apply in_map_iff. eexists. split; [|exact Hv]. reflexivity.
    - cbn [pv_id pv_lb] in V1, V2. apply Qabs_Qle_condition. split; [|exact V2]. setoid_replace (- Qmax (Qabs (in_min d)) (Qabs (in_max d))) with (-(1) * Qmax (Qabs (in_min d)) (Qabs (in_max d))) by ring. exact V1. }
  unfold carries. split; [|split; [|split; [|split]]].
  - intros u Hu. apply filter_In in Hu. destruct (weight_point u (proj1 Hu)) as [_ [_ [_ [_ [_ [_ [Elb Eub]]]]]]].
    specialize (Vb (PVar (wv_id u) (wv_lb u) (Some (wv_ub u)))). rewrite Elb, Eub in Vb. apply Vb. apply in_or_app. right.
    unfold weight_pvars. apply in_map_iff. exists u. rewrite Elb, Eub. split; [reflexivity|apply Hu].
  - destruct (link_ids_repr (lp_ws p) (lp_n0 p) w Hw) as [i [w0 [Hi [E1 E2]]]].
    rewrite <- (sum_row m dirs lf bps n nv p g k O UK T x i w0 d Hi) by congruence.
    apply relation_eq. apply (Rw (RRow i "=" (RNum 1))).
    + unfold wrows. apply in_or_app. left. unfold static_rrows, lp_sum_rhs, weights_sum_rhs. apply in_map_iff.
      exists (CRow i "=" 1 (KLink (wv_inter w0) (wv_link w0))). split; [reflexivity|]. apply in_map_iff. exists (i, w0). auto.
    + exists (LRow i (wv_id w) 1). split; [|reflexivity]. apply sum_lhs. apply in_or_app. left. unfold weights_sum_lhs.
      apply in_map_iff. exists (w, (i, w0)). split; [reflexivity|]. apply in_merge. repeat split; auto. apply same_link_eq. cbn. auto.
  - destruct (link_ids_repr (lp_ws p) (lp_n2 p) w Hw) as [i [w0 [Hi [E1 E2]]]].
    set (v := InterVar (in_inter d) (in_link d) j (in_min d) (in_max d) (in_gcf d)).
    assert (Hdyn : In (Dyn (wv_inter w0) (wv_link w0) i "=" j) (lp_dyn p)).
    { unfold lp_dyn. apply in_or_app. left. unfold flow_link_rhs. apply in_map_iff. exists ((i, w0), v). split; [reflexivity|].
      apply in_merge. repeat split; auto.
      - rewrite (lt_vs _ _ _ _ _ _ _ T). unfold inter_variables. apply in_map_iff. exists (j, d). auto.
      - cbn. apply same_link_eq. split; congruence. }
    rewrite <- (flow_row m dirs lf bps n nv p g k O UK T x i w0 d j Hi) by (auto; congruence).
    rewrite (flow_of m x dirs lf n nv j d NT Hj). apply relation_eq. apply (Rw (RRow i "=" (RVar j))).
    + unfold wrows. apply in_or_app. right. unfold dyn_rrows. apply in_map_iff. eexists. split; [|exact Hdyn]. reflexivity.
    + exists (LRow i (wv_id w) (wv_point w)). split; [|reflexivity]. apply sum_lhs. apply in_or_app. right. apply in_or_app. left.
      unfold flow_link_lhs. apply in_map_iff. exists (w, (i, w0)). split; [reflexivity|]. apply in_merge. repeat split; auto.
      apply same_link_eq. cbn. auto.
  - destruct (link_ids_repr (lp_ws p) (lp_n1 p) w Hw) as [i [w0 [Hi [E1 E2]]]].
    assert (Hrow : In (Dyn (wv_inter w0) (wv_link w0) i "=" j2) (loss_link_rhs (lp_ws p) (lp_lv p) (lp_n1 p))).
    { unfold loss_link_rhs. apply in_map_iff. eexists ((i, w0), _). split; [|apply in_merge; split; [exact Hi|split; [exact (loss_var_there d f j j2 Hj Hj2 Hf Ef)|]]]; [reflexivity|].
      cbn. apply same_link_eq. split; congruence. }
    rewrite <- (loss_row m dirs lf bps n nv p g k O UK T x i w0 d f j2 Hi) by (auto; congruence).
    rewrite EL. apply relation_eq. apply (Rw (RRow i "=" (RVar j2))).
    + unfold wrows, lp_dyn. apply in_or_app. right. unfold dyn_rrows. apply in_map_iff. eexists. split; [|apply in_or_app; right; exact Hrow]. reflexivity.
    + exists (LRow i (wv_id w) (lf_fun f (wv_point w))). split; [|reflexivity]. apply sum_lhs. apply in_or_app. right. apply in_or_app. right.
      unfold loss_link_lhs. apply in_map_iff. exists ((w, (i, w0)), (f, in_from d)). split; [reflexivity|]. apply in_merge.
      cbn [fst snd]. repeat split; auto.
      * apply in_merge. repeat split; auto. apply same_link_eq. cbn. auto.
      * rewrite (lt_ls _ _ _ _ _ _ _ T). unfold loss_shares. apply in_map_iff. exists (f, d). split; [reflexivity|].
        apply in_merge. repeat split; auto. apply same_link_eq. auto.
      * apply same_link_eq. cbn. split; congruence.
  - apply S2. now apply (sos2_of_link d w).
Qed.

Lemma carry_rows : all_carried -> all_rows_ok.
Proof.
  intros C. pose proof HO as [W [g [k O]]]. unfold all_rows_ok. rewrite m_loss_rows, m_weight_rows. split; [|split].
  - intros v Hv. apply in_app_or in Hv. destruct Hv as [Hv|Hv].
    + unfold loss_pvars in Hv. apply in_map_iff in Hv. destruct Hv as [a [<- Hv]]. destruct (loss_var_link a Hv) as [j2 [j [d [f [Hj [Hj2 [Hf [Ef ->]]]]]]]].
      destruct (C d f) as [Bd _]; auto; [apply in_save_index in Hj; tauto|].
      rewrite (loss_value m dirs lf n nv NT x d f j2 j Hj2 Hf Ef) in Bd. apply Qabs_Qle_condition in Bd. destruct Bd as [V1 V2].
      unfold in_bounds. cbn [pv_id pv_lb pv_ub lv_id lv_lb lv_ub]. split; [|exact V2].
      setoid_replace (-(1) * Qmax (Qabs (in_min d)) (Qabs (in_max d))) with (- Qmax (Qabs (in_min d)) (Qabs (in_max d))) by ring. exact V1.
    + unfold weight_pvars in Hv. apply in_map_iff in Hv. destruct Hv as [w [<- Hw]].
      destruct (weight_link w Hw) as [d [f [j [Hj [Hf [Ef [E1 E2]]]]]]]. destruct (C d f) as [_ [Cb _]]; auto; [apply in_save_index in Hj; tauto|].
      destruct (weight_point w Hw) as [_ [_ [_ [_ [_ [_ [Elb Eub]]]]]]]. unfold in_bounds. cbn [pv_id pv_lb pv_ub]. rewrite Elb, Eub. apply Cb.
      apply filter_In. split; [exact Hw|]. unfold of_link. now apply same_link_eq.
  - intros r Hr _. unfold wrows in Hr. apply in_app_or in Hr. destruct Hr as [Hr|Hr].
    + unfold static_rrows, lp_sum_rhs, weights_sum_rhs in Hr. apply in_map_iff in Hr. destruct Hr as [a [<- Hr]]. apply in_map_iff in Hr.
      destruct Hr as [[i w0] [<- Hi]]. cbn [cr_id cr_type cr_rhs r_id r_type r_rhs rhs_value]. apply relation_eq.
      pose proof (in_link_ids_ws _ _ _ Hi) as Hw0; cbn [snd] in Hw0.
      destruct (weight_link w0 Hw0) as [d [f [j [Hj [Hf [Ef [E1 E2]]]]]]].
      rewrite (sum_row m dirs lf bps n nv p g k O UK T x i w0 d Hi E1 E2). destruct (C d f) as [_ [_ [S1 _]]]; auto. apply in_save_index in Hj; tauto.
    + unfold dyn_rrows in Hr. apply in_map_iff in Hr. destruct Hr as [a [<- Hr]]. pose proof Hr as Hr'. unfold lp_dyn in Hr. apply in_app_or in Hr. destruct Hr as [Hr|Hr].
      * unfold flow_link_rhs in Hr. apply in_map_iff in Hr. destruct Hr as [[[i w0] v] [<- Hr]]. apply in_merge in Hr. destruct Hr as [Hi [Hv Ev]].
        cbn [fst snd] in *. apply same_link_eq in Ev. rewrite (lt_vs _ _ _ _ _ _ _ T) in Hv. unfold inter_variables in Hv.
        apply in_map_iff in Hv. destruct Hv as [[j d] [<- Hj]]. cbn [iv_inter iv_link iv_id] in *. destruct Ev as [E1 E2].
        cbn [dy_id dy_type dy_var r_id r_type r_rhs rhs_value]. apply relation_eq.
        pose proof (in_link_ids_ws _ _ _ Hi) as Hw0; cbn [snd] in Hw0.
        destruct (weight_link w0 Hw0) as [d' [f [j' [Hj' [Hf [Ef [E1' E2']]]]]]].
        assert (Ef' : about_link d f = true) by (apply about_eq in Ef; unfold about_link; rewrite <- E1, <- E2, <- E1', <- E2'; destruct Ef as [-> ->]; now rewrite !String.eqb_refl).
        rewrite (flow_row m dirs lf bps n nv p g k O UK T x i w0 d j Hi (eq_sym E1) (eq_sym E2) Hr').
        destruct (C d f) as [_ [_ [_ [S2 _]]]]; auto; [apply in_save_index in Hj; tauto|]. rewrite S2. apply (flow_of m x dirs lf n nv j d NT Hj).
      * pose proof Hr as Hrow. unfold loss_link_rhs in Hr. apply in_map_iff in Hr. destruct Hr as [[[i w0] v] [<- Hr]]. apply in_merge in Hr. destruct Hr as [Hi [Hv Ev]].
        cbn [fst snd] in *. apply same_link_eq in Ev. destruct (loss_var_link v Hv) as [j2 [j [d [f [Hj [Hj2 [Hf [Ef ->]]]]]]]].
        cbn [lv_inter lv_link lv_id] in *. destruct Ev as [E1 E2]. cbn [dy_id dy_type dy_var r_id r_type r_rhs rhs_value]. apply relation_eq.
        destruct (about_eq d f Ef) as [F1 F2].
        assert (Hd : In d dirs) by (apply in_save_index in Hj; tauto).
        rewrite (loss_row m dirs lf bps n nv p g k O UK T x i w0 d f j2 Hi (eq_sym E1) (eq_sym E2) Hd Hf F1 F2 Hrow).
        destruct (C d f) as [_ [_ [_ [_ [S3 _]]]]]; auto. rewrite S3. apply (loss_value m dirs lf n nv NT x d f j2 j Hj2 Hf Ef).
  - intros s Hs. unfold sos2_sets in Hs. apply in_map_iff in Hs. destruct Hs as [[a b] [<- Hk]]. rewrite keys_of_drop in Hk.
    apply drop_duplicates_incl in Hk. apply in_map_iff in Hk. destruct Hk as [w [E Hw]]. inversion E; subst a b.
    destruct (weight_link w Hw) as [d [f [j [Hj [Hf [Ef [E1 E2]]]]]]]. destruct (C d f) as [_ [_ [_ [_ [_ S4]]]]]; auto; [apply in_save_index in Hj; tauto|].
    unfold by_seg in S4. cbn [fst snd]. erewrite filter_ext; [exact S4|]. intros u. unfold of_link, same_link.
    now rewrite E1, E2, (String.eqb_sym (wv_inter u)), (String.eqb_sym (wv_link u)).
Qed.

Lemma carried_iff : all_rows_ok <-> all_carried.
Proof. split; [apply rows_carry|apply carry_rows]. Qed.

End Rows.
