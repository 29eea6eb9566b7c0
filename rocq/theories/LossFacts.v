(** Losses of a link: interpolation of its loss function. *)

From Coq Require Import QArith Lqa String List Bool Arith Lia ZArith Permutation Sorted.
Import ListNotations.
From Verif Require Import PandasModel TablesModel VariableIdsModel MarketConstraintsModel
  UnitConstraintsModel RampModel FcasModel InterModel ElasticModel MarketModel SolverModel
  SpecLp PandasFacts SpecHistory SpecIds SpecDispatch SpecNetwork StepFacts InvariantFacts OwnerFacts SolverFacts
  MeaningFacts LimitFacts TableFacts BidFacts JointRampFacts BalanceFacts GenericFacts.
Open Scope string_scope.
Open Scope list_scope.

(** ** Two adjacent weights *)

Lemma sos2_tail x a l : sos2_ok x (a :: l) -> sos2_ok x l.
Proof.
  intros H i j b c L Hi Hj N1 N2. assert (E : S j = S (S i)) by (apply (H (S i) (S j) b c); auto; lia). lia.
Qed.

Lemma sos2_pair x (l : list weightvar) : (2 <= length l)%nat -> sos2_ok x (map wv_id l) ->
  exists l1 a b l2, l = l1 ++ a :: b :: l2
    /\ (forall w, In w l1 -> x (wv_id w) == 0) /\ (forall w, In w l2 -> x (wv_id w) == 0).
Proof.
  induction l as [|a t IH]; intros L H; [cbn in L; lia|].
  destruct t as [|b t]; [cbn in L; lia|].
  destruct (Qeq_dec (x (wv_id a)) 0) as [Z|Z].
  - destruct t as [|c t].
    + exists [], a, b, []. repeat split; intros w [].
    + destruct IH as [l1 [a' [b' [l2 [E [H1 H2]]]]]]; [cbn; lia|now apply sos2_tail in H|].
      exists (a :: l1), a', b', l2. rewrite E. repeat split; auto. intros w [<-|Hw]; auto.
  - exists [], a, b, t. split; [reflexivity|]. split; [intros w []|]. intros w Hw.
    destruct (Qeq_dec (x (wv_id w)) 0) as [Zw|Zw]; [exact Zw|]. exfalso.
    apply In_nth_error in Hw. destruct Hw as [k Hk].
    assert (E : S (S k) = 1%nat); [|lia].
    apply (H 0%nat (S (S k)) (wv_id a) (wv_id w)); auto; [lia|]. cbn. now rewrite nth_error_map, Hk.
Qed.

Lemma sum_pair (f : weightvar -> Q) x l l1 a b l2 : l = l1 ++ a :: b :: l2 ->
  (forall w, In w l1 -> x (wv_id w) == 0) -> (forall w, In w l2 -> x (wv_id w) == 0) ->
  sumQ (fun w => f w * x (wv_id w)) l == f a * x (wv_id a) + f b * x (wv_id b).
Proof.
  intros -> H1 H2. rewrite sumQ_app, !sumQ_cons.
  rewrite (sumQ_zero _ l1) by (intros w Hw; rewrite (H1 w Hw); ring).
  rewrite (sumQ_zero _ l2) by (intros w Hw; rewrite (H2 w Hw); ring). ring.
Qed.

(** ** The rows of the loss model *)

Lemma link_ids_NoDup ws n : NoDup (map fst (link_ids ws n)).
Proof. unfold link_ids. rewrite save_index_fst. apply seq_NoDup. Qed.

Lemma weights_join_value ws n (coef : weightvar -> Q) i w0 x : In (i, w0) (link_ids ws n) ->
  row_value (map (fun p => LRow (fst (snd p)) (wv_id (fst p)) (coef (fst p))) (weights_by_con ws n)) x i
  == sumQ (fun w => coef w * x (wv_id w))
       (filter (fun w => same_link (wv_inter w) (wv_link w) (wv_inter w0) (wv_link w0)) ws).
Proof.
  intros H. rewrite row_value_map, sumQ_filter. unfold weights_by_con. rewrite sumQ_merge, sumQ_filter.
  apply sumQ_ext. intros w. rewrite sumQ_filter. cbn [fst snd l_con l_coef l_var].
  transitivity (sumQ (fun p : nat * weightvar => if Nat.eqb (fst p) i then
    (if same_link (wv_inter w) (wv_link w) (wv_inter (snd p)) (wv_link (snd p)) then coef w * x (wv_id w) else 0) else 0)
    (link_ids ws n)).
  - apply sumQ_ext. intros p. destruct (same_link _ _ _ _), (Nat.eqb (fst p) i); reflexivity.
  - rewrite (sumQ_pick (fun p : nat * weightvar => if same_link (wv_inter w) (wv_link w) (wv_inter (snd p)) (wv_link (snd p))
      then coef w * x (wv_id w) else 0) _ (i, w0)); auto.
    + reflexivity.
    + apply Nat.eqb_refl.
    + intros q Hq E. apply Nat.eqb_eq in E. apply (NoDup_map_inj fst (link_ids ws n)); auto. apply link_ids_NoDup.
    + apply (NoDup_map_inv fst). apply link_ids_NoDup.
Qed.

Lemma loss_join_value ws ls n i w0 x : In (i, w0) (link_ids ws n) ->
  row_value (loss_link_lhs ws ls n) x i
  == sumQ (fun w => sumQ (fun q => lf_fun (fst q) (wv_point w))
         (filter (fun q : lossfn_row * string => same_link (wv_inter w) (wv_link w) (lf_inter (fst q)) (lf_link (fst q))) ls)
       * x (wv_id w))
       (filter (fun w => same_link (wv_inter w) (wv_link w) (wv_inter w0) (wv_link w0)) ws).
Proof.
  intros H. set (coef := fun w => sumQ (fun q => lf_fun (fst q) (wv_point w))
         (filter (fun q : lossfn_row * string => same_link (wv_inter w) (wv_link w) (lf_inter (fst q)) (lf_link (fst q))) ls)).
  change (row_value (loss_link_lhs ws ls n) x i == sumQ (fun w => coef w * x (wv_id w))
    (filter (fun w => same_link (wv_inter w) (wv_link w) (wv_inter w0) (wv_link w0)) ws)).
  rewrite <- (weights_join_value ws n coef i w0 x H). unfold loss_link_lhs. rewrite !row_value_map, !sumQ_filter, sumQ_merge.
  apply sumQ_ext. intros [w [j w']]. cbn [fst snd l_con l_coef l_var].
  transitivity (sumQ (fun q : lossfn_row * string => if Nat.eqb j i then lf_fun (fst q) (wv_point w) * x (wv_id w) else 0)
    (filter (fun q => same_link (wv_inter w) (wv_link w) (lf_inter (fst q)) (lf_link (fst q))) ls)).
  - apply sumQ_ext. intros [f from]. reflexivity.
  - destruct (Nat.eqb j i); [|now apply sumQ_zero]. unfold coef.
    rewrite (Qmult_comm (sumQ _ _)), <- sumQ_scale. apply sumQ_ext. intros q. ring.
Qed.

Lemma lhs_value_ge rows x i : (forall l, In l rows -> (i < l_con l)%nat) -> row_value rows x i == 0.
Proof. intros H. apply row_value_none. intros l Hl E. apply H in Hl. lia. Qed.
Lemma lhs_value_lt rows x i : (forall l, In l rows -> (l_con l < i)%nat) -> row_value rows x i == 0.
Proof. intros H. apply row_value_none. intros l Hl E. apply H in Hl. lia. Qed.

Lemma save_index_map {A B} (f : A -> B) n l : save_index n (map f l) = map (fun p => (fst p, f (snd p))) (save_index n l).
Proof. revert n. induction l as [|a t IH]; intros n; [reflexivity|]. cbn [map]. rewrite !save_index_cons, IH. reflexivity. Qed.

(** What a market with losses contains. *)
Record loss_tables (dirs : list inter_row) (lf : list lossfn_row) (bps : list bp_row) (n nv : nat)
  (p : loss_parts) (m : market) : Prop := {
  lt_weights : m_weights m = Some (lp_ws p);
  lt_rhs : dget "interpolation_weights" (m_rhs m) = Some (lp_sum_rhs p);
  lt_dyn : m_dyn m = Some (lp_dyn p);
  lt_lhs : dget "interconnector_losses" (m_lhs m) = Some (lp_lhs p);
  lt_free : free_of "interpolation_weights" (lp_sum_rhs p) m;
  lt_ws : lp_ws p = weight_variables bps (lp_nv p);
  lt_ls : lp_ls p = loss_shares lf dirs;
  lt_vs : lp_vs p = inter_variables dirs n;
  lt_lv : lp_lv p = loss_variables (inter_variables dirs n) (loss_shares lf dirs) nv;
  lt_n1 : forall i w, In (i, w) (link_ids (lp_ws p) (lp_n0 p)) -> (i < lp_n1 p)%nat;
  lt_n2 : forall d, In d (loss_link_rhs (lp_ws p) (lp_lv p) (lp_n1 p)) -> (dy_id d < lp_n2 p)%nat;
  lt_n12 : (lp_n1 p <= lp_n2 p)%nat;
  lt_uls : ForallOrdPairs (fun p q : lossfn_row * string => same_link (lf_inter (fst p)) (lf_link (fst p))
                                       (lf_inter (fst q)) (lf_link (fst q)) = false) (lp_ls p);
  lt_known : forall w, In w (lp_ws p) -> exists v, In v (lp_vs p) /\ iv_inter v = wv_inter w /\ iv_link v = wv_link w }.

Lemma loss_inv c dirs lf bps m f : network c dirs lf bps m -> In f lf ->
  owned m /\ unit_map_keys m /\ exists n nv p, network_tables dirs lf n nv m /\ loss_tables dirs lf bps n nv p m.
Proof.
  intros N Hf. pose proof N as [m0 [ops [H0 [Hs [H E]]]]]. pose proof (network_inv _ _ _ _ _ N) as [O [_ _]].
  split; [exact O|]. split; [apply (reached_unit_keys c); exists m0, ops; auto|].
  destruct H as [[_ [-> _]]|[[-> _]|[pre [post [-> [St [A [L1 [L2 L3]]]]]]]]]; try now destruct Hf.
  destruct (stands_inter c m0 pre dirs H0 St) as [n [E1 [E2 [E3 E4]]]].
  unfold sane in Hs. apply along_app in Hs. destruct Hs as [Hs1 [Hs2 _]].
  assert (O' : owned (run pre m0)) by (apply (run_owned c); auto).
  cbn [step] in A. destruct (set_losses_cases lf bps (run pre m0)) as [[e X]|[[e X]|[p [Hp X]]]];
    try (rewrite X in A; discriminate).
  pose proof (loss_parts_unique lf bps _ p (proj1 O') Hp) as [U1 [U2 U3]].
  pose proof (lp_dyn_ids lf bps _ p (proj1 O') Hp) as [D1 [D2 D3]].
  destruct Hp as [C [ED [EI [ER [Els [Elv [Env [Ews [En0 [En1 [Ene En2]]]]]]]]]]].
  rewrite E3 in ED. rewrite E1 in EI. rewrite E2 in ER.
  assert (ED' : lp_dirs p = dirs) by congruence. assert (EI' : lp_vs p = inter_variables dirs n) by congruence.
  assert (ER' : lp_im p = inter_regional_map dirs n) by congruence.
  rewrite run_app, run_cons in E. cbn [step] in E. rewrite X in E. cbn [fst] in E.
  destruct (run_same_table "interconnectors" post (put_losses lf p (run pre m0)) L1) as [_ [_ [T _]]].
  destruct (T eq_refl) as [T1 [T2 T3]]. rewrite <- E in T1, T2, T3.
  destruct (run_same_table "losses" post (put_losses lf p (run pre m0)) L2) as [_ [_ [_ [T' _]]]].
  destruct (T' eq_refl) as [T1' [T2' [T3' [_ [T5' T6']]]]]. rewrite <- E in T1', T2', T3', T5', T6'.
  pose proof (run_same_group "interpolation_weights" post (put_losses lf p (run pre m0)) L3) as [G1 [_ [_ [_ G5]]]].
  rewrite <- E in G1, G5.
  destruct O' as [W' [g [k Ow]]].
  exists n, (m_nv (run pre m0)), p. split.
  { constructor; auto; rewrite ?T1, ?T2, ?T1', ?T2'; unfold put_losses; fields; rewrite ?E1, ?E2; auto.
    + cbn [rows_or_nil]. rewrite Elv, Els, EI', ED'. reflexivity.
    + cbn [rows_or_nil]. rewrite Els, EI', ED', ER'. reflexivity.
    + now apply check_losses_unique in C. }
  assert (K : forall i w, In (i, w) (link_ids (lp_ws p) (lp_n0 p)) -> (i < lp_n1 p)%nat).
  { intros i w Hi. apply (next_id_gt _ _ _ En1). unfold lp_sum_rhs. rewrite sum_rhs_ids.
    apply in_map_iff. exists (i, w). auto. }
  constructor; rewrite ?T3', ?T5', ?T6', ?G1; unfold put_losses; fields; rewrite ?(ow_nc _ _ _ Ow), ?dget_dset_same;
    try congruence; auto.
  - unfold free_of. rewrite G5. unfold put_losses. fields. rewrite dget_dset_other by discriminate.
    intros l r Hl Hr Er. destruct (dget (deficit_key "interpolation_weights") (m_lhs (run pre m0))) as [ls|] eqn:D; [|destruct Hl].
    cbn [rows_or_nil] in Hl. apply dget_in in D. destruct (ow_lhs _ _ _ Ow _ _ _ D Hl) as [_ L].
    apply (in_map cr_id) in Hr. unfold lp_sum_rhs in Hr. rewrite sum_rhs_ids in Hr. apply in_map_iff in Hr.
    destruct Hr as [q [Eq Hq]]. apply in_link_ids in Hq. rewrite (ow_nc _ _ _ Ow) in En0. lia.
  - intros d Hd. apply (next_id_gt _ _ _ En2). now apply in_map.
  - destruct (next_id_in _ _ En2) as [i [Hi Ei]]. rewrite loss_link_rhs_ids in Hi. apply link_join_ge in Hi. lia.
  - intros w Hw. rewrite Ews in Hw. apply weight_variables_bp in Hw. destruct Hw as [b [Hb [B1 B2]]].
    cbn [sane_op] in Hs2. destruct (Hs2 b Hb) as [v [Hv [V1 V2]]]. rewrite E1 in Hv. cbn [rows_or_nil] in Hv.
    rewrite EI'. exists v. repeat split; auto; congruence.
Qed.

Lemma loss_row_value dirs lf bps n nv p m f k x i : own f k m -> unit_map_keys m -> loss_tables dirs lf bps n nv p m ->
  (f i = GRhs "interpolation_weights" /\ In i (map cr_id (lp_sum_rhs p)) \/ f i = GDyn) ->
  row_value (all_lhs m) x i == row_value (lp_lhs p) x i.
Proof.
  intros O UK T Fi. unfold all_lhs. rewrite !row_value_app.
  rewrite (row_value_none (generic_lhs m)).
  2:{ intros l Hl E. apply (own_generic f k) in Hl; auto. rewrite E in Hl. destruct Fi as [[Fi _]|Fi], Hl as [Hl|Hl]; congruence. }
  rewrite (row_value_none (regional_lhs _ _)).
  2:{ intros l Hl E. apply in_regional_lhs in Hl. destruct Hl as [c [v [H1 [_ [_ [_ ->]]]]]]. cbn in E. apply in_dconcat in H1.
      destruct H1 as [k' [cs [H1 H2]]]. destruct (ow_reg _ _ _ O _ _ _ H1 H2) as [E2 _]. rewrite E in E2.
      destruct Fi as [[Fi _]|Fi]; congruence. }
  rewrite (row_value_none (unit_lhs _ _)).
  2:{ intros l Hl E. apply in_unit_lhs in Hl. destruct Hl as [c [v [H1 [_ [_ [_ [_ ->]]]]]]]. cbn in E. apply in_dconcat in H1.
      destruct H1 as [k' [cs [H1 H2]]]. destruct (ow_unit _ _ _ O _ _ _ H1 H2) as [E2 _]. rewrite E in E2.
      destruct Fi as [[Fi _]|Fi]; [|congruence]. rewrite Fi in E2. inversion E2; subst k'. apply UK in H1.
      now apply unit_key_ok in H1. }
  unfold row_value. rewrite (sumQ_filter_concat _ _ "interconnector_losses" (lp_lhs p)); [ring|apply (ow_keys _ _ _ O)|apply T|].
  intros k' l' l H1 H2 E. apply Nat.eqb_eq in E. destruct (ow_lhs _ _ _ O _ _ _ H1 H2) as [[[k2 [E1 E2]]|[[E1 E2]|[E1 E2]]] _];
    rewrite E in E2; auto.
  - exfalso. destruct Fi as [[Fi Hi]|Fi]; [|destruct E2; congruence]. destruct E2 as [E2|E2]; [|congruence].
    assert (k2 = "interpolation_weights") by congruence. subst k2 k'. apply in_dget in H1; [|apply (ow_keys _ _ _ O)].
    apply in_map_iff in Hi. destruct Hi as [r [Er Hr]]. apply (lt_free _ _ _ _ _ _ _ T l r); auto; [|congruence].
    now rewrite H1.
  - exfalso. destruct Fi as [[Fi Hi]|Fi]; congruence.
Qed.

Definition of_link (d : inter_row) (w : weightvar) : bool := same_link (in_inter d) (in_link d) (wv_inter w) (wv_link w).

Lemma link_ids_repr ws n w : In w ws -> exists i w0, In (i, w0) (link_ids ws n)
  /\ wv_inter w0 = wv_inter w /\ wv_link w0 = wv_link w.
Proof.
  intros H. unfold link_ids.
  destruct (drop_duplicates_repr (fun a b => same_link (wv_inter a) (wv_link a) (wv_inter b) (wv_link b)) ws w) as [w0 [H1 H2]]; auto.
  - intros a b H1 c H2. apply same_link_eq in H1, H2. apply same_link_eq. intuition congruence.
  - intros a. now apply same_link_eq.
  - intros a b H1. apply same_link_eq in H1. apply same_link_eq. intuition congruence.
  - destruct (save_index_in n _ _ H1) as [i Hi]. exists i, w0. apply same_link_eq in H2. intuition.
Qed.

Lemma filter_same_link d w0 ws : in_inter d = wv_inter w0 -> in_link d = wv_link w0 ->
  filter (fun w => same_link (wv_inter w) (wv_link w) (wv_inter w0) (wv_link w0)) ws = filter (of_link d) ws.
Proof. intros E1 E2. apply filter_ext. intros w. unfold of_link. rewrite same_link_sym, E1, E2. reflexivity. Qed.

Lemma loss_rows_hold c dirs lf bps m x f d b : network c dirs lf bps m -> solution m x ->
  In f lf -> In d dirs -> about_link d f = true -> In b bps -> at_link d b = true ->
  exists ws nw, m_weights m = Some ws /\ ws = weight_variables bps nw
    /\ sumQ (fun w => x (wv_id w)) (filter (of_link d) ws) == 1
    /\ sumQ (fun w => wv_point w * x (wv_id w)) (filter (of_link d) ws) == link_flow m x (in_inter d) (in_link d)
    /\ sumQ (fun w => lf_fun f (wv_point w) * x (wv_id w)) (filter (of_link d) ws) == link_loss m x (in_inter d) (in_link d).
Proof.
  intros N [pr [A F]] Hf Hd Ef Hb Eb.
  destruct (loss_inv _ _ _ _ _ _ N Hf) as [O [UK [n [nv [p [NT T]]]]]].
  exists (lp_ws p), (lp_nv p). split; [apply T|]. split; [apply T|].
  unfold about_link in Ef. apply andb_true_iff in Ef. rewrite !String.eqb_eq in Ef. destruct Ef as [F1 F2].
  unfold at_link in Eb. apply andb_true_iff in Eb. rewrite !String.eqb_eq in Eb. destruct Eb as [B1 B2].
  destruct (save_index_in (lp_nv p) _ _ Hb) as [jb Hjb].
  set (w := WeightVar (bp_inter b) (bp_link b) (bp_seg b) (bp_point b) jb 0 1).
  assert (Hw : In w (lp_ws p)).
  { rewrite (lt_ws _ _ _ _ _ _ _ T). unfold weight_variables. apply in_map_iff. exists (jb, b). auto. }
  destruct O as [W [g [k O]]].
  assert (Rows : forall r, In r (all_rhs m) -> (exists l, In l (lp_lhs p) /\ l_con l = r_id r) ->
    relation (r_type r) (row_value (all_lhs m) x (r_id r)) (rhs_value (r_rhs r) x)).
  { intros r Hr [l [Hl El]]. apply (feasible_row m pr x r W A F Hr). exists l. split; [|exact El].
    unfold all_lhs. apply in_or_app. left. apply in_dconcat. exists "interconnector_losses", (lp_lhs p). split; auto.
    apply dget_in, T. }
  assert (LK : forall j n' w0, In (j, w0) (link_ids (lp_ws p) n') -> (n' <= j)%nat).
  { intros j n' w0 H. now apply in_link_ids in H. }
  split; [|split].
  - destruct (link_ids_repr (lp_ws p) (lp_n0 p) w Hw) as [i [w0 [Hi [E1 E2]]]]. cbn in E1, E2.
    set (r := CRow i "=" 1 (KLink (wv_inter w0) (wv_link w0))).
    assert (Hr : In r (lp_sum_rhs p)).
    { unfold lp_sum_rhs, weights_sum_rhs. apply in_map_iff. exists (i, w0). auto. }
    assert (R : relation "=" (row_value (all_lhs m) x i) 1).
    { apply (Rows (RRow i "=" (RNum 1))).
      - apply (in_all_rhs_unit m "interpolation_weights" _ r (lt_rhs _ _ _ _ _ _ _ T) Hr).
      - exists (LRow i (wv_id w) 1). split; [|reflexivity]. apply in_or_app. left. unfold weights_sum_lhs.
        apply in_map_iff. exists (w, (i, w0)). split; [reflexivity|]. apply in_merge. repeat split; auto.
        apply same_link_eq. cbn. auto. }
    apply relation_eq in R. rewrite <- R.
    rewrite (loss_row_value _ _ _ _ _ _ _ _ _ _ _ O UK T).
    2:{ left. split; [|apply (in_map cr_id) in Hr; exact Hr].
        pose proof (lt_rhs _ _ _ _ _ _ _ T) as D. apply dget_in in D. apply (ow_rhs _ _ _ O _ _ r D Hr). }
    unfold lp_lhs. rewrite !row_value_app.
    rewrite (lhs_value_ge (flow_link_lhs _ _)).
    2:{ intros l Hl. apply in_map_iff in Hl. destruct Hl as [[w' [j w1]] [<- Hl]]. apply weights_by_con_in in Hl.
        cbn [l_con fst snd] in *. destruct Hl as [_ [Hl _]]. apply LK in Hl. pose proof (lt_n12 _ _ _ _ _ _ _ T).
        apply (lt_n1 _ _ _ _ _ _ _ T) in Hi. lia. }
    rewrite (lhs_value_ge (loss_link_lhs _ _ _)).
    2:{ intros l Hl. apply in_map_iff in Hl. destruct Hl as [[[w' [j w1]] [f' fr]] [<- Hl]]. apply in_merge in Hl.
        destruct Hl as [Hl _]. apply weights_by_con_in in Hl.
        cbn [l_con fst snd] in *. destruct Hl as [_ [Hl _]]. apply LK in Hl.
        apply (lt_n1 _ _ _ _ _ _ _ T) in Hi. lia. }
    unfold weights_sum_lhs. rewrite (weights_join_value (lp_ws p) (lp_n0 p) (fun _ => 1) i w0 x Hi).
    rewrite (filter_same_link d w0) by congruence. rewrite !Qplus_0_r. apply sumQ_ext. intros. ring.
  - destruct (link_ids_repr (lp_ws p) (lp_n2 p) w Hw) as [i [w0 [Hi [E1 E2]]]]. cbn in E1, E2.
    destruct (save_index_in n _ _ Hd) as [j Hj].
    set (v := InterVar (in_inter d) (in_link d) j (in_min d) (in_max d) (in_gcf d)).
    assert (Hdyn : In (Dyn (wv_inter w0) (wv_link w0) i "=" j) (lp_dyn p)).
    { unfold lp_dyn. apply in_or_app. left. unfold flow_link_rhs. apply in_map_iff. exists ((i, w0), v). split; [reflexivity|].
      apply in_merge. repeat split; auto.
      - rewrite (lt_vs _ _ _ _ _ _ _ T). unfold inter_variables. apply in_map_iff. exists (j, d). auto.
      - cbn. apply same_link_eq. split; congruence. }
    assert (R : relation "=" (row_value (all_lhs m) x i) (x j)).
    { apply (Rows (RRow i "=" (RVar j))).
      - unfold all_rhs. apply in_or_app. right. apply in_or_app. right. unfold dyn_rrows. apply in_map_iff.
        exists (Dyn (wv_inter w0) (wv_link w0) i "=" j). split; [reflexivity|]. now rewrite (lt_dyn _ _ _ _ _ _ _ T).
      - exists (LRow i (wv_id w) (wv_point w)). split; [|reflexivity]. apply in_or_app. right. apply in_or_app. left.
        unfold flow_link_lhs. apply in_map_iff. exists (w, (i, w0)). split; [reflexivity|]. apply in_merge. repeat split; auto.
        apply same_link_eq. cbn. auto. }
    apply relation_eq in R. rewrite (flow_of m x dirs lf n nv j d NT Hj), <- R.
    rewrite (loss_row_value _ _ _ _ _ _ _ _ _ _ _ O UK T).
    2:{ right. apply (ow_dyn _ _ _ O (Dyn (wv_inter w0) (wv_link w0) i "=" j)). now rewrite (lt_dyn _ _ _ _ _ _ _ T). }
    unfold lp_lhs. rewrite !row_value_app.
    pose proof (LK _ _ _ Hi) as Li.
    rewrite (lhs_value_lt (weights_sum_lhs _ _)).
    2:{ intros l Hl. apply in_map_iff in Hl. destruct Hl as [[w' [j' w1]] [<- Hl]]. apply weights_by_con_in in Hl.
        cbn [l_con fst snd] in *. destruct Hl as [_ [Hl _]]. apply (lt_n1 _ _ _ _ _ _ _ T) in Hl.
        pose proof (lt_n12 _ _ _ _ _ _ _ T). lia. }
    rewrite (lhs_value_lt (loss_link_lhs _ _ _)).
    2:{ intros l Hl. apply in_map_iff in Hl. destruct Hl as [[[w' [j' w1]] [f' fr]] [<- Hl]]. apply in_merge in Hl.
        destruct Hl as [Hl [Hl2 Hl3]]. apply weights_by_con_in in Hl.
        cbn [l_con fst snd] in *. destruct Hl as [L1 [L2 [L3 L4]]]. apply same_link_eq in Hl3.
        destruct (lt_known _ _ _ _ _ _ _ T w' L1) as [v' [V1 [V2 V3]]].
        destruct (save_index_in nv _ _ V1) as [jj Hjj].
        pose proof (lt_n2 _ _ _ _ _ _ _ T (Dyn (wv_inter w1) (wv_link w1) j' "=" jj)) as K. cbn in K.
        enough (j' < lp_n2 p)%nat by lia. apply K. unfold loss_link_rhs. apply in_map_iff.
        exists ((j', w1), LossVar (iv_inter v') (iv_link v') jj (-(1) * loss_bound v') (loss_bound v')).
        split; [reflexivity|]. apply in_merge. split; [exact L2|]. split.
        - rewrite (lt_lv _ _ _ _ _ _ _ T). unfold loss_variables, loss_rows. apply in_map_iff.
          exists ((jj, v'), (f', fr)). split; [reflexivity|]. apply in_merge. cbn [fst snd].
          rewrite <- (lt_vs _ _ _ _ _ _ _ T), <- (lt_ls _ _ _ _ _ _ _ T). repeat split; auto.
          apply same_link_eq. intuition congruence.
        - cbn. apply same_link_eq. intuition congruence. }
    unfold flow_link_lhs. rewrite (weights_join_value (lp_ws p) (lp_n2 p) wv_point i w0 x Hi).
    rewrite (filter_same_link d w0) by congruence. rewrite Qplus_0_r, Qplus_0_l. reflexivity.
  - destruct (link_ids_repr (lp_ws p) (lp_n1 p) w Hw) as [i [w0 [Hi [E1 E2]]]]. cbn in E1, E2.
    destruct (save_index_in n _ _ Hd) as [j Hj]. destruct (save_index_in nv _ _ Hj) as [j2 Hj2].
    set (iv := InterVar (in_inter d) (in_link d) j (in_min d) (in_max d) (in_gcf d)).
    set (v := LossVar (in_inter d) (in_link d) j2 (-(1) * loss_bound iv) (loss_bound iv)).
    assert (Hls : In (f, in_from d) (lp_ls p)).
    { rewrite (lt_ls _ _ _ _ _ _ _ T). unfold loss_shares. apply in_map_iff. exists (f, d). split; [reflexivity|].
      apply in_merge. repeat split; auto. apply same_link_eq. auto. }
    assert (Hrow : In (Dyn (wv_inter w0) (wv_link w0) i "=" j2) (loss_link_rhs (lp_ws p) (lp_lv p) (lp_n1 p))).
    { unfold loss_link_rhs. apply in_map_iff. exists ((i, w0), v). split; [reflexivity|].
      apply in_merge. repeat split; auto.
      - rewrite (lt_lv _ _ _ _ _ _ _ T). unfold loss_variables, loss_rows. apply in_map_iff.
        exists ((j2, iv), (f, in_from d)). split; [reflexivity|]. apply in_merge. cbn [fst snd].
        rewrite <- (lt_ls _ _ _ _ _ _ _ T). repeat split; auto.
        + unfold inter_variables. rewrite save_index_map. apply in_map_iff. exists (j2, (j, d)). auto.
        + apply same_link_eq. auto.
      - cbn. apply same_link_eq. split; congruence. }
    assert (R : relation "=" (row_value (all_lhs m) x i) (x j2)).
    { apply (Rows (RRow i "=" (RVar j2))).
      - unfold all_rhs. apply in_or_app. right. apply in_or_app. right. unfold dyn_rrows. apply in_map_iff.
        exists (Dyn (wv_inter w0) (wv_link w0) i "=" j2). split; [reflexivity|]. rewrite (lt_dyn _ _ _ _ _ _ _ T).
        unfold lp_dyn. cbn [rows_or_nil]. apply in_or_app. right. exact Hrow.
      - exists (LRow i (wv_id w) (lf_fun f (wv_point w))). split; [|reflexivity]. apply in_or_app. right. apply in_or_app. right.
        unfold loss_link_lhs. apply in_map_iff. exists ((w, (i, w0)), (f, in_from d)). split; [reflexivity|]. apply in_merge.
        cbn [fst snd]. repeat split; auto.
        + apply in_merge. repeat split; auto. apply same_link_eq. cbn. auto.
        + apply same_link_eq. cbn. split; congruence. }
    apply relation_eq in R.
    assert (EL : link_loss m x (in_inter d) (in_link d) == x j2).
    { rewrite (loss_of m x dirs lf n nv j2 j d NT Hj2).
      pose proof (at_most_one_lf lf d (nt_lf _ _ _ _ _ NT)) as L1.
      assert (Hin : In f (filter (about_link d) lf)).
      { apply filter_In. split; auto. unfold about_link. rewrite F1, F2, !String.eqb_refl. reflexivity. }
      destruct (filter (about_link d) lf) as [|f1 [|f2 t]]; [destruct Hin| |cbn in L1; lia].
      rewrite sumQ_cons. unfold sumQ; cbn. ring. }
    rewrite EL, <- R.
    rewrite (loss_row_value _ _ _ _ _ _ _ _ _ _ _ O UK T).
    2:{ right. apply (ow_dyn _ _ _ O (Dyn (wv_inter w0) (wv_link w0) i "=" j2)). rewrite (lt_dyn _ _ _ _ _ _ _ T).
        unfold lp_dyn. cbn [rows_or_nil]. apply in_or_app. right. exact Hrow. }
    unfold lp_lhs. rewrite !row_value_app.
    pose proof (LK _ _ _ Hi) as Li. apply (lt_n2 _ _ _ _ _ _ _ T) in Hrow. cbn in Hrow.
    rewrite (lhs_value_lt (weights_sum_lhs _ _)).
    2:{ intros l Hl. apply in_map_iff in Hl. destruct Hl as [[w' [j' w1]] [<- Hl]]. apply weights_by_con_in in Hl.
        cbn [l_con fst snd] in *. destruct Hl as [_ [Hl _]]. apply (lt_n1 _ _ _ _ _ _ _ T) in Hl. lia. }
    rewrite (lhs_value_ge (flow_link_lhs _ _)).
    2:{ intros l Hl. apply in_map_iff in Hl. destruct Hl as [[w' [j' w1]] [<- Hl]]. apply weights_by_con_in in Hl.
        cbn [l_con fst snd] in *. destruct Hl as [_ [Hl _]]. apply LK in Hl. lia. }
    rewrite (loss_join_value (lp_ws p) (lp_ls p) (lp_n1 p) i w0 x Hi).
    rewrite (filter_same_link d w0) by congruence. rewrite !Qplus_0_l.
    apply sumQ_ext_in. intros u Hu. apply filter_In in Hu. destruct Hu as [_ Hu]. unfold of_link in Hu.
    apply same_link_eq in Hu. destruct Hu as [U1 U2]. apply Qmult_comp; [|reflexivity].
    rewrite sumQ_filter. symmetry.
    rewrite (sumQ_pick (fun q : lossfn_row * string => lf_fun (fst q) (wv_point u)) _ (f, in_from d)); auto.
    + reflexivity.
    + cbn [fst]. apply same_link_eq. split; congruence.
    + intros q Hq Eq. apply same_link_eq in Eq.
      apply (FOP_unique (fun p q : lossfn_row * string => same_link (lf_inter (fst p)) (lf_link (fst p))
               (lf_inter (fst q)) (lf_link (fst q))) (lp_ls p)); auto.
      * apply T.
      * intros a c0. apply same_link_sym.
      * apply same_link_eq. cbn [fst]. intuition congruence.
    + apply (FOP_NoDup (fun p q : lossfn_row * string => same_link (lf_inter (fst p)) (lf_link (fst p))
               (lf_inter (fst q)) (lf_link (fst q)))); [intros a; now apply same_link_eq|apply T].
Qed.

(** ** Adjacent break points *)

Lemma insert_StronglySorted {A} (le : A -> A -> bool) a l :
  (forall a b, le a b = false -> le b a = true) -> (forall a b c, le a b = true -> le b c = true -> le a c = true) ->
  StronglySorted (fun a b => le a b = true) l -> StronglySorted (fun a b => le a b = true) (insert_sorted le a l).
Proof.
  intros To Tr. induction l as [|b t IH]; intros H; cbn; [repeat constructor|].
  inversion H as [|? ? H1 H2]; subst. destruct (le a b) eqn:E.
  - constructor; auto. constructor; auto. rewrite Forall_forall in *. eauto.
  - constructor; auto. rewrite Forall_forall in *. intros c Hc.
    apply (Permutation_in _ (Permutation_sym (insert_sorted_perm le a t))) in Hc. destruct Hc as [<-|Hc]; auto.
Qed.

Lemma sort_rows_sorted {A} (le : A -> A -> bool) l :
  (forall a b, le a b = false -> le b a = true) -> (forall a b c, le a b = true -> le b c = true -> le a c = true) ->
  StronglySorted (fun a b => le a b = true) (sort_rows le l).
Proof. intros To Tr. induction l as [|a t IH]; cbn; [constructor|]. now apply insert_StronglySorted. Qed.

Lemma sorted_split {A} (R : A -> A -> Prop) l1 a b l2 : StronglySorted R (l1 ++ a :: b :: l2) ->
  R a b /\ (forall c, In c l1 -> R c a) /\ (forall c, In c l2 -> R b c).
Proof.
  induction l1 as [|d t IH]; cbn; intros H; inversion H as [|? ? H1 H2]; subst.
  - rewrite Forall_forall in H2. inversion H1 as [|? ? H3 H4]; subst. rewrite Forall_forall in H4.
    split; [apply H2; now left|]. split; [intros c []|exact H4].
  - destruct (IH H1) as [I1 [I2 I3]]. rewrite Forall_forall in H2. split; auto. split; auto.
    intros c [<-|Hc]; auto. apply H2. apply in_or_app. right. now left.
Qed.

Lemma two_in {A} (l : list A) a b : In a l -> In b l -> a <> b -> (2 <= length l)%nat.
Proof.
  intros Ha Hb N. destruct l as [|c [|d t]]; cbn; try lia; [destruct Ha|].
  destruct Ha as [<-|[]], Hb as [<-|[]]. now exfalso.
Qed.

Lemma check_bps_unique lf bps : check_losses lf bps = None ->
  ForallOrdPairs (fun a b => same_link (bp_inter a) (bp_link a) (bp_inter b) (bp_link b)
                             && Z.eqb (bp_seg a) (bp_seg b) = false) bps.
Proof.
  unfold check_losses. intros H.
  apply (no_repeats_in (fun a b => same_link (bp_inter a) (bp_link a) (bp_inter b) (bp_link b)
                             && Z.eqb (bp_seg a) (bp_seg b)) bps _ H). cbn. auto 20.
Qed.

Lemma network_bps c dirs lf bps m f : network c dirs lf bps m -> In f lf ->
  ForallOrdPairs (fun a b => same_link (bp_inter a) (bp_link a) (bp_inter b) (bp_link b)
                             && Z.eqb (bp_seg a) (bp_seg b) = false) bps.
Proof.
  intros [m0 [ops [H0 [Hs [H E]]]]] Hf.
  destruct H as [[_ [-> _]]|[[-> _]|[pre [post [-> [St [A _]]]]]]]; try now destruct Hf.
  cbn [step] in A. unfold set_losses in A. destruct (check_losses lf bps) eqn:C; [discriminate|].
  now apply check_bps_unique in C.
Qed.

Lemma weight_bounds m x ws w : solution m x -> m_weights m = Some ws -> In w ws -> wv_lb w <= x (wv_id w) <= wv_ub w.
Proof.
  intros [p [A [F _]]] E Hw. apply assemble_parts in A. destruct A as [EV _]. rewrite EV in F.
  specialize (F (PVar (wv_id w) (wv_lb w) (Some (wv_ub w)))). apply F.
  unfold all_vars. apply in_or_app. right. apply in_or_app. right. apply in_or_app. right. apply in_or_app. left.
  rewrite E. unfold weight_pvars. apply in_map_iff. exists w. auto.
Qed.

(** Two neighbouring weights of a link carry the flow, the others are zero. *)
Lemma link_weights c dirs lf bps m x f d : network c dirs lf bps m -> solution m x ->
  In f lf -> In d dirs -> about_link d f = true ->
  (exists b1 b2, In b1 bps /\ In b2 bps /\ at_link d b1 = true /\ at_link d b2 = true /\ bp_seg b1 <> bp_seg b2) ->
  exists ws a b wa wb, m_weights m = Some ws /\ adjacent d bps a b
    /\ In wa (filter (of_link d) ws) /\ In wb (filter (of_link d) ws)
    /\ wv_point wa = bp_point a /\ wv_point wb = bp_point b
    /\ (forall w, In w (filter (of_link d) ws) -> w = wa \/ w = wb \/ x (wv_id w) == 0)
    /\ 0 <= x (wv_id wa) /\ 0 <= x (wv_id wb) /\ x (wv_id wa) + x (wv_id wb) == 1
    /\ bp_point a * x (wv_id wa) + bp_point b * x (wv_id wb) == link_flow m x (in_inter d) (in_link d)
    /\ lf_fun f (bp_point a) * x (wv_id wa) + lf_fun f (bp_point b) * x (wv_id wb)
         == link_loss m x (in_inter d) (in_link d).
Proof.
  intros N So Hf Hd Ef [b1 [b2 [Hb1 [Hb2 [L1 [L2 D]]]]]].
  destruct (loss_rows_hold c dirs lf bps m x f d b1 N So Hf Hd Ef Hb1 L1) as [ws [nw [Ew [Ews [S1 [S2 S3]]]]]].
  pose proof (network_bps c dirs lf bps m f N Hf) as UB.
  set (le := fun a b : weightvar => Z.leb (wv_seg a) (wv_seg b)).
  set (fl := filter (of_link d) ws) in *. set (l := sort_rows le fl).
  assert (WB : forall b, In b bps -> at_link d b = true -> exists w, In w fl /\ wv_seg w = bp_seg b).
  { intros b Hb Lb. destruct (save_index_in nw _ _ Hb) as [j Hj].
    exists (WeightVar (bp_inter b) (bp_link b) (bp_seg b) (bp_point b) j 0 1). split; [|reflexivity].
    apply filter_In. split; [|exact Lb]. rewrite Ews. unfold weight_variables. apply in_map_iff. exists (j, b). auto. }
  assert (BW : forall w, In w fl -> exists b, In b bps /\ at_link d b = true /\ wv_seg w = bp_seg b /\ wv_point w = bp_point b
      /\ wv_lb w = 0 /\ wv_ub w = 1).
  { intros w Hw. apply filter_In in Hw. destruct Hw as [Hw Lw]. rewrite Ews in Hw. unfold weight_variables in Hw.
    apply in_map_iff in Hw. destruct Hw as [[j b] [<- Hw]]. apply in_save_index in Hw. exists b. cbn in *. intuition. }
  assert (So2 : sos2_ok x (map wv_id l)).
  { destruct So as [p [A [_ [_ [So2 _]]]]]. apply assemble_parts in A. destruct A as [_ [_ [A _]]].
    apply So2. rewrite A, Ew. cbn [rows_or_nil]. unfold sos2_sets. apply in_map_iff. exists (in_inter d, in_link d). split.
    - unfold l, fl, le. f_equal. f_equal. apply filter_ext. intros w. cbn [fst snd]. unfold of_link, same_link.
      now rewrite (String.eqb_sym (wv_inter w)), (String.eqb_sym (wv_link w)).
    - destruct (WB b1 Hb1 L1) as [w [Hw _]]. apply filter_In in Hw. destruct Hw as [Hw Lw].
      unfold of_link in Lw. apply same_link_eq in Lw. destruct Lw as [E1 E2]. rewrite keys_of_drop.
      destruct (drop_duplicates_repr (fun a b : string * string => String.eqb (fst a) (fst b) && String.eqb (snd a) (snd b))
        (map (fun w => (wv_inter w, wv_link w)) ws) (in_inter d, in_link d)) as [k [K1 K2]].
      + intros a b H c0 H2. apply andb_true_iff in H, H2. rewrite !String.eqb_eq in *. apply andb_true_iff. rewrite !String.eqb_eq. intuition congruence.
      + intros a. now rewrite !String.eqb_refl.
      + intros a b H. now rewrite (String.eqb_sym (fst b)), (String.eqb_sym (snd b)).
      + apply in_map_iff. exists w. split; auto. now rewrite E1, E2.
      + apply andb_true_iff in K2. rewrite !String.eqb_eq in K2. destruct k as [k1 k2]. cbn in K2. destruct K2 as [-> ->]. exact K1. }
  assert (PL : Permutation fl l) by apply sort_rows_perm.
  assert (Ln : (2 <= length l)%nat).
  { destruct (WB b1 Hb1 L1) as [w1 [W1 E1]]. destruct (WB b2 Hb2 L2) as [w2 [W2 E2]].
    apply (two_in l w1 w2); try (now apply (Permutation_in _ PL)). intros E. congruence. }
  destruct (sos2_pair x l Ln So2) as [l1 [wa [wb [l2 [El [Z1 Z2]]]]]].
  assert (SS : StronglySorted (fun a b => le a b = true) l).
  { apply sort_rows_sorted; unfold le.
    - intros a b H. apply Z.leb_gt in H. apply Z.leb_le. lia.
    - intros a b c0 H1 H2. apply Z.leb_le in H1, H2. apply Z.leb_le. lia. }
  rewrite El in SS. apply sorted_split in SS. destruct SS as [R1 [R2 R3]].
  assert (Ha : In wa fl) by (apply (Permutation_in _ (Permutation_sym PL)); rewrite El; apply in_or_app; right; now left).
  assert (Hb : In wb fl) by (apply (Permutation_in _ (Permutation_sym PL)); rewrite El; apply in_or_app; right; right; now left).
  destruct (BW wa Ha) as [a [A1 [A2 [A3 [A4 [A5 A6]]]]]]. destruct (BW wb Hb) as [b [B1 [B2 [B3 [B4 [B5 B6]]]]]].
  assert (NS : wv_seg wa <> wv_seg wb).
  { intros E.
    assert (ND : NoDup l).
    { apply (Permutation_NoDup PL). apply NoDup_filter. rewrite Ews. unfold weight_variables.
      apply (NoDup_map_inv wv_id). rewrite map_map.
      rewrite (map_ext _ fst); [rewrite save_index_fst; apply seq_NoDup|]. intros [? ?]; reflexivity. }
    rewrite El in ND. apply NoDup_app_iff in ND. destruct ND as [_ [ND _]]. inversion ND as [|? ? N1 _]; subst.
    apply N1. left.
    apply filter_In in Ha, Hb. destruct Ha as [Ha La], Hb as [Hb Lb].
    unfold weight_variables in Ha, Hb. apply in_map_iff in Ha, Hb.
    destruct Ha as [[ja ba] [Ewa Hja]], Hb as [[jb bb] [Ewb Hjb]].
    assert (ba = bb).
    { apply (FOP_unique (fun a b => same_link (bp_inter a) (bp_link a) (bp_inter b) (bp_link b) && Z.eqb (bp_seg a) (bp_seg b)) bps); auto.
      - intros u v. rewrite same_link_sym, Z.eqb_sym. reflexivity.
      - apply in_save_index in Hja. tauto.
      - apply in_save_index in Hjb. tauto.
      - rewrite <- Ewa in La, E. rewrite <- Ewb in Lb, E. unfold of_link in La, Lb. cbn in La, Lb, E. apply same_link_eq in La, Lb.
        apply andb_true_iff. split; [apply same_link_eq; intuition congruence|]. now apply Z.eqb_eq. }
    subst bb.
    assert (ja = jb); [|now subst]. 
    assert (NB : NoDup bps).
    { apply (FOP_NoDup (fun a b => same_link (bp_inter a) (bp_link a) (bp_inter b) (bp_link b) && Z.eqb (bp_seg a) (bp_seg b))); auto.
      intros u. apply andb_true_iff. split; [now apply same_link_eq|apply Z.eqb_refl]. }
    clear -NB Hja Hjb. revert nw Hja Hjb. induction bps as [|c t IH]; intros k H1 H2; [destruct H1|].
    inversion NB as [|? ? M1 M2]; subst. rewrite save_index_cons in H1, H2.
    destruct H1 as [H1|H1], H2 as [H2|H2]; try congruence.
    - inversion H1; subst. apply in_save_index in H2. exfalso. apply M1. tauto.
    - inversion H2; subst. apply in_save_index in H1. exfalso. apply M1. tauto.
    - now apply (IH M2 (S k)). }
  assert (Ls : (bp_seg a < bp_seg b)%Z) by (unfold le in R1; apply Z.leb_le in R1; lia).
  exists ws, a, b, wa, wb. split; [exact Ew|]. split.
  { repeat split; auto. intros e He Le [I1 I2]. destruct (WB e He Le) as [we [Hwe Ewe]].
    apply (Permutation_in _ PL) in Hwe. rewrite El in Hwe. apply in_app_or in Hwe. unfold le in *.
    destruct Hwe as [Hwe|[<-|[<-|Hwe]]]; try lia.
    - apply R2 in Hwe. apply Z.leb_le in Hwe. lia.
    - apply R3 in Hwe. apply Z.leb_le in Hwe. lia. }
  assert (Sum : forall g : weightvar -> Q, sumQ (fun w => g w * x (wv_id w)) fl == g wa * x (wv_id wa) + g wb * x (wv_id wb)).
  { intros g. rewrite (sumQ_permutation _ _ _ PL). now apply (sum_pair g x l l1 wa wb l2). }
  rewrite Sum in S2, S3. rewrite (sumQ_ext _ (fun w => 1 * x (wv_id w))) in S1 by (intros; ring). rewrite Sum in S1.
  pose proof (weight_bounds m x ws wa So Ew (proj1 (proj1 (filter_In _ _ _) Ha))) as [X1 X2].
  pose proof (weight_bounds m x ws wb So Ew (proj1 (proj1 (filter_In _ _ _) Hb))) as [Y1 Y2].
  rewrite A5 in X1. rewrite B5 in Y1. rewrite A4, B4 in S2, S3.
  repeat match goal with |- _ /\ _ => split end; auto.
  - intros w Hw. apply (Permutation_in _ PL) in Hw. rewrite El in Hw. apply in_app_or in Hw.
    destruct Hw as [Hw|[<-|[<-|Hw]]]; auto.
  - rewrite <- S1. ring.
Qed.

Lemma loss_interpolated c dirs lf bps m x f d : network c dirs lf bps m -> solution m x ->
  In f lf -> In d dirs -> about_link d f = true ->
  (exists b1 b2, In b1 bps /\ In b2 bps /\ at_link d b1 = true /\ at_link d b2 = true /\ bp_seg b1 <> bp_seg b2) ->
  rising d bps ->
  exists a b, adjacent d bps a b
    /\ interpolates (bp_point a) (lf_fun f (bp_point a)) (bp_point b) (lf_fun f (bp_point b))
         (link_flow m x (in_inter d) (in_link d)) (link_loss m x (in_inter d) (in_link d)).
Proof.
  intros N So Hf Hd Ef Two Ri.
  destruct (link_weights c dirs lf bps m x f d N So Hf Hd Ef Two)
    as [ws [a [b [wa [wb [Ew [Ad [Ha [Hb [Pa [Pb [Z [X1 [Y1 [S1 [S2 S3]]]]]]]]]]]]]]]].
  exists a, b. split; [exact Ad|]. destruct Ad as [A1 [B1 [A2 [B2 [Ls _]]]]].
  pose proof (Ri a b A1 B1 A2 B2 Ls) as Lt.
  set (u := x (wv_id wa)) in *. set (v := x (wv_id wb)) in *. set (pa := bp_point a) in *. set (pb := bp_point b) in *.
  unfold interpolates. rewrite <- S2, <- S3.
  assert (Ev : v == 1 - u) by lra. rewrite Ev in *. clear Ev. repeat split; nra.
Qed.

(** ** Links of one interconnector *)

Lemma in_two {A} (l : list A) a b : In a l -> In b l -> a <> b ->
  exists i j, (i < j)%nat /\ (nth_error l i = Some a /\ nth_error l j = Some b \/ nth_error l i = Some b /\ nth_error l j = Some a).
Proof.
  intros Ha Hb N. apply In_nth_error in Ha, Hb. destruct Ha as [i Hi], Hb as [j Hj].
  destruct (Nat.lt_trichotomy i j) as [L|[L|L]]; [exists i, j; auto| |exists j, i; auto]. exfalso. congruence.
Qed.

Lemma one_link_carries c dirs lf bps m x d1 d2 : network c dirs lf bps m -> solution m x ->
  In d1 dirs -> In d2 dirs -> in_inter d1 = in_inter d2 -> in_link d1 <> in_link d2 ->
  in_link d1 <> in_inter d1 -> in_link d2 <> in_inter d2 ->
  link_flow m x (in_inter d1) (in_link d1) == 0 \/ link_flow m x (in_inter d2) (in_link d2) == 0.
Proof.
  intros N So H1 H2 E D N1 N2. apply network_inv in N. destruct N as [O [_ [n [nv T]]]].
  destruct (save_index_in n _ _ H1) as [i1 I1]. destruct (save_index_in n _ _ H2) as [i2 I2].
  rewrite (flow_of m x dirs lf n nv i1 d1 T I1), (flow_of m x dirs lf n nv i2 d2 T I2).
  destruct (Qeq_dec (x i1) 0) as [Z1|Z1]; [now left|]. destruct (Qeq_dec (x i2) 0) as [Z2|Z2]; [now right|]. exfalso.
  destruct So as [p [A [_ [_ [_ S1]]]]]. apply assemble_parts in A. destruct A as [_ [_ [_ [A _]]]]. rewrite A in S1.
  set (iv := fun i d => InterVar (in_inter d) (in_link d) i (in_min d) (in_max d) (in_gcf d)).
  set (l := filter (fun v => negb (String.eqb (iv_inter v) (iv_link v))) (rows_or_nil (m_inter m))).
  assert (Hl : forall i d, In (i, d) (save_index n dirs) -> in_link d <> in_inter d -> In (iv i d) l).
  { intros i d Hi Nd. apply filter_In. split.
    - rewrite (nt_inter _ _ _ _ _ T). unfold inter_variables. apply in_map_iff. exists (i, d). auto.
    - cbn. apply negb_true_iff, String.eqb_neq. congruence. }
  set (s := map iv_id (filter (fun v => String.eqb (iv_inter v) (in_inter d1)) l)).
  assert (Ss : sos1_ok x s).
  { apply S1. unfold sos1_sets. fold l. apply in_map_iff. exists (in_inter d1). split; [reflexivity|].
    rewrite keys_of_drop.
    destruct (drop_duplicates_repr String.eqb (map iv_inter l) (in_inter d1)) as [k [K1 K2]].
    - intros a b Ha e He. apply String.eqb_eq in Ha, He. apply String.eqb_eq. congruence.
    - apply String.eqb_refl.
    - intros a b Ha. now rewrite String.eqb_sym.
    - apply in_map_iff. exists (iv i1 d1). split; [reflexivity|]. now apply Hl.
    - apply String.eqb_eq in K2. now subst k. }
  assert (M1 : In i1 s).
  { unfold s. apply in_map_iff. exists (iv i1 d1). split; [reflexivity|]. apply filter_In. split; [now apply Hl|]. apply String.eqb_refl. }
  assert (M2 : In i2 s).
  { unfold s. apply in_map_iff. exists (iv i2 d2). split; [reflexivity|]. apply filter_In. split; [now apply Hl|].
    cbn. rewrite E. apply String.eqb_refl. }
  assert (Ne : i1 <> i2).
  { intros Ei. subst i2. assert (X : (i1, d1) = (i1, d2)) by (apply (save_index_inj n dirs); auto). inversion X. congruence. }
  destruct (in_two s i1 i2 M1 M2 Ne) as [a [b [L [[P1 P2]|[P1 P2]]]]]; exact (Ss a b _ _ L P1 P2 ltac:(assumption) ltac:(assumption)).
Qed.

