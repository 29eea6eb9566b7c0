(** The regional balance: units, flows and losses. *)

From Coq Require Import QArith Lqa String List Bool Arith Lia ZArith.
Import ListNotations.
From Verif Require Import PandasModel TablesModel VariableIdsModel MarketConstraintsModel
  UnitConstraintsModel RampModel FcasModel InterModel ElasticModel MarketModel SolverModel
  SpecLp PandasFacts SpecHistory SpecIds SpecDispatch SpecNetwork SpecElastic StepFacts InvariantFacts OwnerFacts SolverFacts
  MeaningFacts LimitFacts TableFacts BidFacts JointRampFacts.
Open Scope string_scope.
Open Scope list_scope.

Definition unique_links (dirs : list inter_row) : Prop :=
  ForallOrdPairs (fun a b => same_link (in_inter a) (in_link a) (in_inter b) (in_link b) = false) dirs.
Definition unique_losses (lf : list lossfn_row) : Prop :=
  ForallOrdPairs (fun a b => same_link (lf_inter a) (lf_link a) (lf_inter b) (lf_link b) = false) lf.

(** The tables of a market with the given network. *)
Record network_tables (dirs : list inter_row) (lf : list lossfn_row) (n nv : nat) (m : market) : Prop := {
  nt_inter : rows_or_nil (m_inter m) = inter_variables dirs n;
  nt_reg : rows_or_nil (m_reg_inter m) = inter_regional_map dirs n;
  nt_loss : rows_or_nil (m_loss m) = loss_variables (inter_variables dirs n) (loss_shares lf dirs) nv;
  nt_reg_loss : rows_or_nil (m_reg_loss m)
    = loss_regional_map (inter_variables dirs n) (inter_regional_map dirs n) (loss_shares lf dirs) nv;
  nt_links : unique_links dirs;
  nt_lf : unique_losses lf }.

Lemma set_inter_ok l m m1 : set_interconnectors l m = (m1, None) ->
  check_inter m l = None /\ exists n, m_inter m1 = Some (inter_variables l n)
    /\ m_reg_inter m1 = Some (inter_regional_map l n) /\ m_directions m1 = Some l
    /\ m_loss m1 = m_loss m /\ m_reg_loss m1 = m_reg_loss m.
Proof.
  unfold set_interconnectors. intros H. apply guard_ok in H. destruct H as [H1 H]. split; [exact H1|].
  exists (m_nv m). destruct (next_id _); inversion H. fields. auto.
Qed.

Lemma new_market_tables c m0 : new_market c = Ok m0 ->
  m_inter m0 = None /\ m_reg_inter m0 = None /\ m_loss m0 = None /\ m_reg_loss m0 = None.
Proof.
  unfold new_market. destruct (check_unit_info c); [discriminate|]. intros H; inversion H. cbn. auto.
Qed.

Lemma stands_inter c m0 ops dirs : new_market c = Ok m0 -> stands m0 ops (OpInterconnectors dirs) ->
  exists n, m_inter (run ops m0) = Some (inter_variables dirs n)
    /\ m_reg_inter (run ops m0) = Some (inter_regional_map dirs n)
    /\ m_directions (run ops m0) = Some dirs /\ unique_links dirs.
Proof.
  intros H0 [pre [post [-> [H3 H4]]]]. destruct (step (OpInterconnectors dirs) (run pre m0)) as [m1 e] eqn:E.
  cbn in H3. subst e. pose proof (run_same_table "interconnectors" post m1 (H4 _ ltac:(cbn; auto))) as [_ [_ [T _]]].
  destruct (T eq_refl) as [T1 [T2 T3]]. cbn [step] in E. pose proof (set_inter_ok _ _ _ E) as [C [n [E1 [E2 [E3 _]]]]].
  rewrite run_app, run_cons. cbn [step]. rewrite E. cbn [fst]. exists n. rewrite T1, T2, T3.
  repeat split; auto. now apply check_inter_unique in C.
Qed.

Lemma network_inv c dirs lf bps m : network c dirs lf bps m ->
  owned m /\ m_cfg m = c /\ exists n nv, network_tables dirs lf n nv m.
Proof.
  intros [m0 [ops [H0 [Hs [H ->]]]]]. split; [now apply (run_owned c)|]. split; [now apply run_cfg_new|].
  destruct (new_market_tables c m0 H0) as [N1 [N2 [N3 N4]]].
  destruct H as [[-> [-> [-> [L1 L2]]]]|[[-> [-> [S L]]]|[pre [post [-> [S [A [L1 [L2 L3]]]]]]]]].
  - exists 0%nat, 0%nat. destruct (run_same_table "interconnectors" ops m0 L1) as [_ [_ [T _]]].
    destruct (T eq_refl) as [T1 [T2 T3]].
    destruct (run_same_table "losses" ops m0 L2) as [_ [_ [_ [T' _]]]].
    destruct (T' eq_refl) as [T1' [T2' _]].
    constructor; rewrite ?T1, ?T2, ?T1', ?T2', ?N1, ?N2, ?N3, ?N4; try reflexivity; constructor.
  - destruct (stands_inter c m0 ops dirs H0 S) as [n [E1 [E2 [E3 E4]]]]. exists n, 0%nat.
    destruct (run_same_table "losses" ops m0 L) as [_ [_ [_ [T' _]]]].
    destruct (T' eq_refl) as [T1' [T2' _]].
    constructor; rewrite ?E1, ?E2, ?T1', ?T2', ?N3, ?N4; try reflexivity; auto; [..|constructor].
    + cbn [loss_shares merge flat_map map]. unfold loss_variables, loss_rows. now rewrite merge_nil_r.
    + cbn [loss_shares merge flat_map map]. unfold loss_regional_map, loss_rows. now rewrite merge_nil_r.
  - destruct (stands_inter c m0 pre dirs H0 S) as [n [E1 [E2 [E3 E4]]]].
    assert (O : owned (run pre m0)).
    { unfold sane in Hs. apply along_app in Hs. apply (run_owned c); tauto. }
    cbn [step] in A. destruct (set_losses_cases lf bps (run pre m0)) as [[e E]|[[e E]|[p [Hp E]]]];
      try (rewrite E in A; discriminate).
    destruct Hp as [C [ED [EI [ER [Els [Elv _]]]]]]. rewrite E3 in ED. rewrite E1 in EI. rewrite E2 in ER.
    assert (ED' : lp_dirs p = dirs) by congruence. assert (EI' : lp_vs p = inter_variables dirs n) by congruence.
    assert (ER' : lp_im p = inter_regional_map dirs n) by congruence.
    rewrite run_app, run_cons. cbn [step]. rewrite E. cbn [fst].
    destruct (run_same_table "interconnectors" post (put_losses lf p (run pre m0)) L1) as [_ [_ [T _]]].
    destruct (T eq_refl) as [T1 [T2 T3]].
    destruct (run_same_table "losses" post (put_losses lf p (run pre m0)) L2) as [_ [_ [_ [T' _]]]].
    destruct (T' eq_refl) as [T1' [T2' _]].
    exists n, (m_nv (run pre m0)).
    constructor; auto; rewrite ?T1, ?T2, ?T1', ?T2'; unfold put_losses; fields; rewrite ?E1, ?E2; auto.
    + cbn [rows_or_nil]. rewrite Elv, Els, EI', ED'. reflexivity.
    + cbn [rows_or_nil]. rewrite Els, EI', ED', ER'. reflexivity.
    + now apply check_losses_unique in C.
Qed.

(** ** Units *)

Lemma region_term_app vs ws x r s : region_term (vs ++ ws) x r s == region_term vs x r s + region_term ws x r s.
Proof. unfold region_term. rewrite filter_app. apply sumQ_app. Qed.

Definition rsign (u : unit_info_row) (s : string) : Q :=
  if String.eqb (ui_dt u) "load" && String.eqb s "energy" then -(1) else 1.

Lemma region_supply_sum m x r s : region_supply m x r s
  = sumQ (fun u => rsign u s * dispatch m x (ui_unit u) s (ui_dt u)) (filter (fun u => String.eqb r (ui_region u)) (c_ui (m_cfg m))).
Proof. reflexivity. Qed.

Lemma region_bids_value m x r s : wf m ->
  region_term (rows_or_nil (m_reg_bids m)) x r s == region_supply m x r s.
Proof.
  intros W. destruct (bids_tables m W) as [vs [E1 [E2 _]]]. rewrite E2, region_supply_sum.
  unfold region_term, bid_regional_map, bid_constraint_map. rewrite sumQ_filter, sumQ_map, sumQ_merge.
  transitivity (sumQ (fun v => sumQ (fun u => if String.eqb r (ui_region u) then rsign u s * (if
      String.eqb (ui_unit u) (bv_unit v) && String.eqb s (bv_service v) && String.eqb (ui_dt u) (bv_dt v)
      then x (bv_id v) else 0) else 0) (c_ui (m_cfg m))) vs).
  - apply sumQ_ext. intros v. rewrite sumQ_filter. apply sumQ_ext. intros u.
    cbn [rv_region rv_service rv_coef rv_id].
    rewrite (String.eqb_sym (bv_unit v)), (String.eqb_sym (bv_dt v)).
    destruct (String.eqb (ui_unit u) (bv_unit v)) eqn:F1; cbn [andb]; [|destruct (String.eqb r (ui_region u)); ring].
    destruct (String.eqb (ui_dt u) (bv_dt v)) eqn:F2; cbn [andb].
    + apply String.eqb_eq in F2. destruct (String.eqb r (ui_region u)); cbn [andb]; [|reflexivity].
      destruct (String.eqb s (bv_service v)) eqn:F3; cbn [andb]; [|ring]. apply String.eqb_eq in F3.
      unfold rsign. rewrite F2, <- F3. reflexivity.
    + rewrite andb_false_r. destruct (String.eqb r (ui_region u)); ring.
  - rewrite sumQ_swap, sumQ_filter. apply sumQ_ext. intros u. destruct (String.eqb r (ui_region u)).
    + rewrite sumQ_scale, dispatch_sum, E1, sumQ_filter. reflexivity.
    + apply sumQ_zero. reflexivity.
Qed.

(** ** Flows *)

Lemma link_flow_sum m x i l : link_flow m x i l = sumQ (fun v => x (iv_id v))
  (filter (fun v => String.eqb i (iv_inter v) && String.eqb l (iv_link v)) (rows_or_nil (m_inter m))).
Proof. reflexivity. Qed.

Lemma link_loss_sum m x i l : link_loss m x i l = sumQ (fun v => x (lv_id v))
  (filter (fun v => String.eqb i (lv_inter v) && String.eqb l (lv_link v)) (rows_or_nil (m_loss m))).
Proof. reflexivity. Qed.

Lemma unique_row dirs n d e i j : unique_links dirs -> In (i, d) (save_index n dirs) -> In (j, e) (save_index n dirs) ->
  same_link (in_inter d) (in_link d) (in_inter e) (in_link e) = true -> i = j /\ d = e.
Proof.
  intros U Hd He E.
  assert (D : d = e).
  { apply (FOP_unique (fun a b => same_link (in_inter a) (in_link a) (in_inter b) (in_link b)) dirs); auto.
    - intros a b. apply same_link_sym.
    - apply in_save_index in Hd. tauto.
    - apply in_save_index in He. tauto. }
  subst e. split; [|reflexivity].
  clear E. assert (ND : NoDup dirs).
  { apply (FOP_NoDup (fun a b => same_link (in_inter a) (in_link a) (in_inter b) (in_link b))); auto.
    intros a. now apply same_link_eq. }
  clear U. revert n Hd He ND. induction dirs as [|a t IH]; intros n Hd He ND; [destruct Hd|].
  rewrite save_index_cons in Hd, He. inversion ND as [|? ? N1 N2]; subst.
  destruct Hd as [Hd|Hd], He as [He|He]; try congruence.
  - inversion Hd; subst. apply in_save_index in He. exfalso. apply N1. tauto.
  - inversion He; subst. apply in_save_index in Hd. exfalso. apply N1. tauto.
  - eapply IH; eauto.
Qed.

Lemma flow_of m x dirs lf n nv i d : network_tables dirs lf n nv m -> In (i, d) (save_index n dirs) ->
  link_flow m x (in_inter d) (in_link d) == x i.
Proof.
  intros T Hd. rewrite link_flow_sum, (nt_inter _ _ _ _ _ T). unfold inter_variables.
  rewrite sumQ_filter, sumQ_map.
  transitivity (sumQ (fun p : nat * inter_row => if same_link (in_inter d) (in_link d) (in_inter (snd p)) (in_link (snd p))
     then x (fst p) else 0) (save_index n dirs)).
  - apply sumQ_ext. intros [j e]. reflexivity.
  - rewrite (sumQ_pick (fun p : nat * inter_row => x (fst p)) _ (i, d)); auto.
    + reflexivity.
    + cbn [snd]. now apply same_link_eq.
    + intros [j e] He E. cbn [snd] in E. destruct (unique_row dirs n d e i j (nt_links _ _ _ _ _ T) Hd He E) as [-> ->].
      reflexivity.
    + apply save_index_NoDup.
Qed.

Lemma region_flow_value m x dirs lf n nv r : network_tables dirs lf n nv m ->
  region_term (map ir_rv (rows_or_nil (m_reg_inter m))) x r "energy" == inflow m x dirs r.
Proof.
  intros T. rewrite (nt_reg _ _ _ _ _ T). unfold region_term, inter_regional_map, inflow.
  rewrite map_app, !map_map, filter_app, sumQ_app, !sumQ_filter, !sumQ_map.
  transitivity (sumQ (fun p : nat * inter_row => flow_effect (snd p) r (x (fst p))) (save_index n dirs)).
  - rewrite <- sumQ_plus. apply sumQ_ext. intros [i d].
    cbn [ir_rv rv_region rv_service rv_coef rv_id fst snd]. unfold flow_effect.
    rewrite String.eqb_refl, !andb_true_r, (String.eqb_sym r), (String.eqb_sym r).
    destruct (String.eqb (in_to d) r), (String.eqb (in_from d) r); ring.
  - change (qsum (map (fun d => flow_effect d r (link_flow m x (in_inter d) (in_link d))) dirs))
      with (sumQ (fun d => flow_effect d r (link_flow m x (in_inter d) (in_link d))) dirs).
    rewrite <- (sumQ_save (fun d => flow_effect d r (link_flow m x (in_inter d) (in_link d))) n).
    apply sumQ_ext_in. intros [i d] Hd. cbn [fst snd]. unfold flow_effect.
    pose proof (flow_of m x dirs lf n nv i d T Hd) as F.
    destruct (String.eqb (in_to d) r), (String.eqb (in_from d) r); rewrite ?F; reflexivity.
Qed.

Lemma region_flow_other im x r s : (forall a, In a im -> rv_service (ir_rv a) = "energy") -> s <> "energy" ->
  region_term (map ir_rv im) x r s == 0.
Proof.
  intros H N. unfold region_term. apply sumQ_zero. intros v Hv. apply filter_In in Hv. destruct Hv as [H1 H2].
  apply in_map_iff in H1. destruct H1 as [a [<- Ha]]. rewrite (H a Ha) in H2. apply andb_true_iff in H2.
  destruct H2 as [_ H2]. apply String.eqb_eq in H2. congruence.
Qed.

(** ** Losses *)

Lemma loss_share_row lf dirs d : unique_links dirs -> In d dirs ->
  forall (g : lossfn_row * string -> Q),
  sumQ g (filter (fun q => same_link (in_inter d) (in_link d) (lf_inter (fst q)) (lf_link (fst q))) (loss_shares lf dirs))
  == sumQ (fun f => g (f, in_from d)) (filter (about_link d) lf).
Proof.
  intros U Hd g. unfold loss_shares. rewrite !sumQ_filter, sumQ_map, sumQ_merge.
  apply sumQ_ext. intros f. cbn [fst snd]. unfold about_link. fold (same_link (in_inter d) (in_link d) (lf_inter f) (lf_link f)).
  destruct (same_link (in_inter d) (in_link d) (lf_inter f) (lf_link f)) eqn:E.
  - rewrite sumQ_filter.
    rewrite (sumQ_pick (fun e => g (f, in_from e)) _ d); auto.
    + reflexivity.
    + now rewrite same_link_sym.
    + intros e He E2. apply (FOP_unique (fun a b => same_link (in_inter a) (in_link a) (in_inter b) (in_link b)) dirs); auto.
      * intros a b. apply same_link_sym.
      * apply same_link_eq in E, E2. apply same_link_eq. intuition congruence.
    + apply (FOP_NoDup (fun a b => same_link (in_inter a) (in_link a) (in_inter b) (in_link b))); auto.
      intros a. now apply same_link_eq.
  - apply sumQ_zero. reflexivity.
Qed.

(** The numbered flow variables, with their link's row. *)
Lemma save_inter_variables dirs n nv (g : nat * intervar -> Q) :
  sumQ g (save_index nv (inter_variables dirs n))
  == sumQ (fun p : nat * (nat * inter_row) => g (fst p, InterVar (in_inter (snd (snd p))) (in_link (snd (snd p))) (fst (snd p))
        (in_min (snd (snd p))) (in_max (snd (snd p))) (in_gcf (snd (snd p))))) (save_index nv (save_index n dirs)).
Proof.
  unfold inter_variables. generalize (save_index n dirs). intros l. revert nv.
  induction l as [|[i d] t IH]; intros nv; [reflexivity|]. cbn [map].
  rewrite !save_index_cons, !sumQ_cons, IH. reflexivity.
Qed.

Lemma save_save_unique dirs n nv j i d j' i' d' : unique_links dirs ->
  In (j, (i, d)) (save_index nv (save_index n dirs)) -> In (j', (i', d')) (save_index nv (save_index n dirs)) ->
  same_link (in_inter d) (in_link d) (in_inter d') (in_link d') = true -> j = j' /\ i = i' /\ d = d'.
Proof.
  intros U H1 H2 E.
  assert (A : In (i, d) (save_index n dirs)) by (apply in_save_index in H1; tauto).
  assert (B : In (i', d') (save_index n dirs)) by (apply in_save_index in H2; tauto).
  destruct (unique_row dirs n d d' i i' U A B E) as [-> ->]. split; [|auto].
  pose proof (save_index_NoDup n dirs) as ND. revert nv H1 H2 ND. clear. generalize (save_index n dirs).
  induction l as [|a t IH]; intros nv Hd He ND; [destruct Hd|].
  rewrite save_index_cons in Hd, He. inversion ND as [|? ? N1 N2]; subst.
  destruct Hd as [Hd|Hd], He as [He|He]; try congruence.
  - inversion Hd; subst. apply in_save_index in He. exfalso. apply N1. tauto.
  - inversion He; subst. apply in_save_index in Hd. exfalso. apply N1. tauto.
  - eapply IH; eauto.
Qed.

Lemma loss_of m x dirs lf n nv j i d : network_tables dirs lf n nv m ->
  In (j, (i, d)) (save_index nv (save_index n dirs)) ->
  link_loss m x (in_inter d) (in_link d) == sumQ (fun _ => x j) (filter (about_link d) lf).
Proof.
  intros T Hd. rewrite link_loss_sum, (nt_loss _ _ _ _ _ T). unfold loss_variables, loss_rows.
  rewrite sumQ_filter, sumQ_map, sumQ_merge, save_inter_variables.
  transitivity (sumQ (fun p : nat * (nat * inter_row) =>
    if same_link (in_inter d) (in_link d) (in_inter (snd (snd p))) (in_link (snd (snd p)))
    then sumQ (fun _ => x (fst p)) (filter (about_link (snd (snd p))) lf) else 0) (save_index nv (save_index n dirs))).
  - apply sumQ_ext_in. intros [j' [i' d']] H'. cbn [fst snd iv_inter iv_link lv_inter lv_link lv_id].
    fold (same_link (in_inter d) (in_link d) (in_inter d') (in_link d')).
    rewrite (loss_share_row lf dirs d' (nt_links _ _ _ _ _ T)).
    + destruct (same_link (in_inter d) (in_link d) (in_inter d') (in_link d')); [reflexivity|].
      apply sumQ_zero. reflexivity.
    + apply in_save_index in H'. destruct H' as [_ H']. cbn [snd] in H'. apply in_save_index in H'. tauto.
  - rewrite (sumQ_pick (fun p : nat * (nat * inter_row) => sumQ (fun _ => x (fst p)) (filter (about_link (snd (snd p))) lf)) _ (j, (i, d)));
      auto.
    + reflexivity.
    + cbn [snd]. now apply same_link_eq.
    + intros [j' [i' d']] H' E. cbn [snd] in E.
      destruct (save_save_unique dirs n nv j i d j' i' d' (nt_links _ _ _ _ _ T) Hd H' E) as [-> [-> ->]]. reflexivity.
    + apply save_index_NoDup.
Qed.

(** The rows of the flow map that belong to one link. *)
Lemma link_map_rows dirs n i d (g : irow -> Q) : unique_links dirs -> In (i, d) (save_index n dirs) ->
  sumQ g (filter (fun a => same_link (in_inter d) (in_link d) (ir_inter a) (ir_link a)) (inter_regional_map dirs n))
  == g (IRow (in_inter d) (in_link d) (RV i (in_to d) "energy" (1 * in_to_lf d)))
     + g (IRow (in_inter d) (in_link d) (RV i (in_from d) "energy" (-(1) * in_from_lf d))).
Proof.
  intros U Hd. unfold inter_regional_map. rewrite filter_app, sumQ_app, !sumQ_filter, !sumQ_map.
  apply Qplus_comp.
  - rewrite <- (sumQ_pick (fun p : nat * inter_row => g (let '(i, r) := p in
         IRow (in_inter r) (in_link r) (RV i (in_to r) "energy" (1 * in_to_lf r))))
         (fun p : nat * inter_row => same_link (in_inter d) (in_link d) (in_inter (snd p)) (in_link (snd p))) (i, d) (save_index n dirs)).
    + apply sumQ_ext. intros [j e]. reflexivity.
    + exact Hd.
    + cbn [snd]. now apply same_link_eq.
    + intros [j e] He E. cbn [snd] in E. destruct (unique_row dirs n d e i j U Hd He E) as [-> ->]. reflexivity.
    + apply save_index_NoDup.
  - rewrite <- (sumQ_pick (fun p : nat * inter_row => g (let '(i, r) := p in
         IRow (in_inter r) (in_link r) (RV i (in_from r) "energy" (-(1) * in_from_lf r))))
         (fun p : nat * inter_row => same_link (in_inter d) (in_link d) (in_inter (snd p)) (in_link (snd p))) (i, d) (save_index n dirs)).
    + apply sumQ_ext. intros [j e]. reflexivity.
    + exact Hd.
    + cbn [snd]. now apply same_link_eq.
    + intros [j e] He E. cbn [snd] in E. destruct (unique_row dirs n d e i j U Hd He E) as [-> ->]. reflexivity.
    + apply save_index_NoDup.
Qed.

Lemma at_most_one_lf lf d : unique_losses lf -> (length (filter (about_link d) lf) <= 1)%nat.
Proof.
  intros U. eapply filter_unique; [exact U|]. unfold about_link. intros a b Ha Hb.
  apply andb_true_iff in Ha, Hb. rewrite !String.eqb_eq in Ha, Hb. apply same_link_eq. intuition congruence.
Qed.

Lemma sumQ_one {A} (f g : A -> Q) l : (length l <= 1)%nat ->
  sumQ (fun a => f a * sumQ g l) l == sumQ (fun a => f a * g a) l.
Proof.
  destruct l as [|a [|b t]]; cbn [length]; intros H; [reflexivity| |lia].
  rewrite !sumQ_cons, !sumQ_nil. ring.
Qed.

Lemma region_loss_value m x dirs lf n nv r : network_tables dirs lf n nv m ->
  (forall d, In d dirs -> in_from d <> in_to d) ->
  region_term (rows_or_nil (m_reg_loss m)) x r "energy" == - losses m x dirs lf r.
Proof.
  intros T NL. rewrite (nt_reg_loss _ _ _ _ _ T). unfold region_term, loss_regional_map, losses.
  rewrite sumQ_filter, sumQ_map, sumQ_merge. unfold loss_rows. rewrite sumQ_merge, save_inter_variables.
  set (G := fun d j => sumQ (fun f => loss_charge d f r * x j) (filter (about_link d) lf)).
  transitivity (sumQ (fun p : nat * (nat * inter_row) => - G (snd (snd p)) (fst p)) (save_index nv (save_index n dirs))).
  - apply sumQ_ext_in. intros [j [i d]] H. cbn [fst snd iv_inter iv_link].
    assert (Hi : In (i, d) (save_index n dirs)) by (apply in_save_index in H; tauto).
    assert (Hd : In d dirs) by (apply in_save_index in Hi; tauto).
    rewrite (loss_share_row lf dirs d (nt_links _ _ _ _ _ T) Hd).
    transitivity (- (1) * G d j); [|ring]. unfold G. rewrite <- sumQ_scale.
    apply sumQ_ext. intros f. rewrite (link_map_rows dirs n i d _ (nt_links _ _ _ _ _ T) Hi).
    cbn [ir_rv rv_region rv_service rv_coef rv_id fst snd]. rewrite String.eqb_refl, !andb_true_r.
    unfold loss_charge. rewrite !String.eqb_refl.
    assert (N : String.eqb (in_from d) (in_to d) = false) by (apply String.eqb_neq; auto). rewrite N.
    rewrite (String.eqb_sym r (in_to d)), (String.eqb_sym r (in_from d)).
    destruct (String.eqb (in_to d) r) eqn:E1, (String.eqb (in_from d) r) eqn:E2; try ring.
    exfalso. apply String.eqb_eq in E1, E2. apply (NL d Hd). congruence.
  - transitivity (sumQ (fun p : nat * (nat * inter_row) => - (sumQ (fun f => loss_charge (snd (snd p)) f r
       * link_loss m x (in_inter (snd (snd p))) (in_link (snd (snd p)))) (filter (about_link (snd (snd p))) lf)))
       (save_index nv (save_index n dirs))).
    + apply sumQ_ext_in. intros [j [i d]] H. cbn [fst snd].
      apply Qopp_comp. unfold G. rewrite <- (sumQ_one (fun f => loss_charge d f r) (fun _ => x j)) by (apply at_most_one_lf, T).
      apply sumQ_ext. intros f. now rewrite (loss_of m x dirs lf n nv j i d T H).
    + set (L := fun d => sumQ (fun f => loss_charge d f r * link_loss m x (in_inter d) (in_link d)) (filter (about_link d) lf)).
      change (sumQ (fun p : nat * (nat * inter_row) => - L (snd (snd p))) (save_index nv (save_index n dirs))
        == - sumQ L dirs).
      rewrite (sumQ_save (fun q : nat * inter_row => - L (snd q)) nv).
      rewrite (sumQ_save (fun d => - L d) n).
      transitivity (- (1) * sumQ L dirs); [|ring]. rewrite <- sumQ_scale. apply sumQ_ext. intros; ring.
Qed.

Lemma loss_map_other vs im ls next x r s : (forall a, In a im -> rv_service (ir_rv a) = "energy") -> s <> "energy" ->
  region_term (loss_regional_map vs im ls next) x r s == 0.
Proof.
  intros H N. unfold region_term. apply sumQ_zero. intros v Hv. apply filter_In in Hv. destruct Hv as [H1 H2].
  apply in_map_iff in H1. destruct H1 as [[[[i w] [f from]] a] [<- Ha]]. apply in_merge in Ha.
  destruct Ha as [_ [Ha _]]. cbn [rv_service] in H2. rewrite (H a Ha) in H2. apply andb_true_iff in H2.
  destruct H2 as [_ H2]. apply String.eqb_eq in H2. congruence.
Qed.

Lemma inter_map_energy dirs n a : In a (inter_regional_map dirs n) -> rv_service (ir_rv a) = "energy".
Proof.
  unfold inter_regional_map. intros H. apply in_app_or in H.
  destruct H as [H|H]; apply in_map_iff in H; destruct H as [[i d] [<- _]]; reflexivity.
Qed.

(** ** The balance *)

Lemma balance_value m x dirs lf n nv r : wf m -> network_tables dirs lf n nv m ->
  (forall d, In d dirs -> in_from d <> in_to d) ->
  region_term (regional_vars m) x r "energy" == energy_balance m x dirs lf r.
Proof.
  intros W T NL. unfold regional_vars, energy_balance.
  rewrite !region_term_app, (region_bids_value m x r "energy" W), (region_flow_value m x dirs lf n nv r T),
    (region_loss_value m x dirs lf n nv r T NL). ring.
Qed.

Lemma service_value m x dirs lf n nv r s : wf m -> network_tables dirs lf n nv m -> s <> "energy" ->
  region_term (regional_vars m) x r s == region_supply m x r s.
Proof.
  intros W T N. unfold regional_vars.
  rewrite !region_term_app, (region_bids_value m x r s W), (nt_reg _ _ _ _ _ T), (nt_reg_loss _ _ _ _ _ T).
  rewrite (region_flow_other _ x r s (inter_map_energy dirs n) N), (loss_map_other _ _ _ _ x r s (inter_map_energy dirs n) N).
  ring.
Qed.

Lemma demand_inv c l v m x : upheld c (OpDemand l v) m x ->
  owned m /\ m_cfg m = c /\ exists n, regional_group_at "demand" (energy_rhs l n) (energy_map l n) m x.
Proof.
  intros I. apply upheld_inv in I. destruct I as [O [C [m' [m1 [O' [C' [St K]]]]]]]. split; [exact O|]. split; [exact C|].
  cbn [step] in St. unfold set_demand in St. apply guard_ok in St. destruct St as [_ St].
  apply andthen_ok in St. destruct St as [m2 [St E]].
  destruct (new_regional_group_is "demand" _ _ m' m2 O' (demand_ok l) St) as [n [_ G]]. exists n.
  apply (K "demand" m2); [cbn; auto|exact (maybe_settled (OpDemand l v) _ _ _ E)|exact G].
Qed.

Lemma demand_row_value m x l n i d : In (i, d) (save_index n l) ->
  regional_value m x (energy_map l n) i == region_term (regional_vars m) x (de_region d) "energy".
Proof.
  intros H. unfold regional_value, energy_map. rewrite filter_map_comm.
  transitivity (sumQ (fun c => rc_coef c * region_term (regional_vars m) x (rc_region c) (rc_service c))
     (map (fun p : nat * demand_row => let '(i, d) := p in RC i (de_region d) "energy" 1) [(i, d)])).
  - rewrite <- (filter_save_index n l i d H). f_equal.
    match goal with |- ?a == ?b => assert (E : a = b); [|now rewrite E] end.
    f_equal. f_equal. apply filter_ext. intros [j e]. reflexivity.
  - cbn [map]. rewrite sumQ_cons, sumQ_nil. cbn [rc_coef rc_region rc_service]. ring.
Qed.

(** A supplied region has a variable in its constraint. *)
Lemma supplied_var m dirs lf n nv r : wf m -> network_tables dirs lf n nv m -> supplied m dirs r ->
  exists v, In v (regional_vars m) /\ rv_region v = r /\ rv_service v = "energy".
Proof.
  intros W T [[u [Hu [Er [b [Hb [E1 [E2 E3]]]]]]]|[d [Hd H]]].
  - destruct (bids_tables m W) as [vs [F1 [F2 _]]].
    exists (RV (bv_id b) (ui_region u) (bv_service b)
            (if String.eqb (bv_dt b) "load" && String.eqb (bv_service b) "energy" then -(1) else 1)).
    split; [|cbn; auto]. unfold regional_vars. apply in_or_app. left. rewrite F2.
    unfold bid_regional_map, bid_constraint_map. apply in_map_iff. exists (b, u). split; [reflexivity|].
    apply in_merge. rewrite F1 in Hb. rewrite E1, E3, !String.eqb_refl. auto.
  - apply (save_index_in n) in Hd. destruct Hd as [i Hd].
    assert (K : forall a, In a (inter_regional_map dirs n) -> In (ir_rv a) (regional_vars m)).
    { intros a Ha. unfold regional_vars. apply in_or_app. right. apply in_or_app. left.
      rewrite (nt_reg _ _ _ _ _ T). now apply in_map. }
    destruct H as [H|H].
    + exists (RV i (in_to d) "energy" (1 * in_to_lf d)). split; [|auto].
      apply (K (IRow (in_inter d) (in_link d) (RV i (in_to d) "energy" (1 * in_to_lf d)))).
      unfold inter_regional_map. apply in_or_app. left. apply in_map_iff. exists (i, d). auto.
    + exists (RV i (in_from d) "energy" (-(1) * in_from_lf d)). split; [|auto].
      apply (K (IRow (in_inter d) (in_link d) (RV i (in_from d) "energy" (-(1) * in_from_lf d)))).
      unfold inter_regional_map. apply in_or_app. right. apply in_map_iff. exists (i, d). auto.
Qed.

Lemma demand_rows l n r : In r (energy_rhs l n) -> exists d, In d l /\ In (cr_id r, d) (save_index n l)
  /\ r = CRow (cr_id r) "=" (de_demand d) (KRegion (de_region d)).
Proof.
  unfold energy_rhs. intros H. apply in_map_iff in H. destruct H as [[i d] [<- H]]. exists d. cbn [cr_id].
  split; [|auto]. apply in_save_index in H. tauto.
Qed.

Lemma balance_upheld c l v dirs lf bps m x : upheld c (OpDemand l v) m x -> network c dirs lf bps m ->
  (forall d, In d dirs -> in_from d <> in_to d) -> solution m x ->
  forall d, In d l -> supplied m dirs (de_region d) ->
  energy_balance m x dirs lf (de_region d) == de_demand d.
Proof.
  intros I N NL [p [A F]] d Hd Su. apply network_inv in N. destruct N as [_ [_ [n [nv T]]]].
  apply demand_inv in I. destruct I as [O [C [k G]]].
  pose proof (save_index_in k _ _ Hd) as [i Hi].
  destruct (supplied_var m dirs lf n nv (de_region d) (proj1 O) T Su) as [w [Hv [V1 V2]]].
  assert (Hr : In (CRow i "=" (de_demand d) (KRegion (de_region d))) (energy_rhs l k)).
  { unfold energy_rhs. apply in_map_iff. exists (i, d). auto. }
  pose proof (regional_row_holds m p x "demand" _ _ _ O ltac:(discriminate) G A F Hr) as R.
  cbn [cr_id cr_type cr_rhs] in R. rewrite <- (balance_value m x dirs lf n nv (de_region d) (proj1 O) T NL).
  rewrite <- (demand_row_value m x l k i d Hi). apply relation_eq, R.
  apply (regional_row_lhs m "demand" _ _ _ (RC i (de_region d) "energy" 1) w (proj1 (proj2 G)) Hr); auto.
  unfold energy_map. apply in_map_iff. exists (i, d). auto.
Qed.

Lemma balance_respected c l dirs lf bps m x : in_force c (OpDemand l None) m -> network c dirs lf bps m ->
  (forall d, In d dirs -> in_from d <> in_to d) -> solution m x ->
  forall d, In d l -> supplied m dirs (de_region d) ->
  energy_balance m x dirs lf (de_region d) == de_demand d.
Proof. intros I. exact (balance_upheld c l None dirs lf bps m x (in_force_upheld _ _ _ _ I eq_refl)). Qed.

(** The left-hand side of the region's constraint, at any point. *)
Lemma con_value m p c r rhs : wf m -> assemble m = Ok p -> In c (p_cons p) -> In r (all_rhs m) -> pc_id c = r_id r ->
  rhs = pc_terms c -> forall x, linear rhs x == row_value (all_lhs m) x (r_id r).
Proof.
  intros W H Hc Hr E -> x. apply assemble_parts in H. destruct H as [_ [_ [_ [_ [A _]]]]].
  unfold add_constraints in A. destruct (no_rhs_tables m) eqn:E0.
  - inversion A as [A']. rewrite <- A' in Hc. destruct Hc.
  - assert (B : build_cons (all_vars m) (all_rhs m) (all_lhs m) (con_ids (all_lhs m)) = Ok (p_cons p)).
    { destruct (all_lhs m); [discriminate|exact A]. }
    apply (build_cons_in _ _ _ _ _ B) in Hc. destruct Hc as [i [_ Hc]]. unfold build_con in Hc.
    destruct (forallb _ _); [|discriminate].
    destruct (find_rhs (all_rhs m) i) as [r'|] eqn:Ef; [|discriminate].
    destruct (mem_str _ _); [|discriminate]. inversion Hc; subst c. cbn [pc_id] in E. subst i.
    cbn [pc_terms]. now rewrite lhs_terms_value.
Qed.

Lemma balance_con_value c l dirs lf bps m p r con : in_force c (OpDemand l None) m -> network c dirs lf bps m ->
  (forall d, In d dirs -> in_from d <> in_to d) -> assemble m = Ok p -> In con (p_cons p) -> balance_con m r con ->
  forall x, linear (pc_terms con) x == energy_balance m x dirs lf r.
Proof.
  intros I N NL A Hc [rows [row [D [Hr [Ek Ei]]]]] x.
  apply network_inv in N. destruct N as [_ [_ [n [nv T]]]].
  apply (in_force_upheld _ _ _ x) in I; [|reflexivity]. apply demand_inv in I. destruct I as [O [C [k G]]].
  assert (rows = energy_rhs l k) by (destruct G as [G _]; congruence). subst rows.
  rewrite (con_value m p con (RRow (cr_id row) (cr_type row) (RNum (cr_rhs row))) _ (proj1 O) A Hc
             (in_all_rhs_regional m "demand" _ row D Hr) Ei eq_refl). cbn [r_id].
  rewrite (regional_row_value m "demand" _ _ row x O ltac:(discriminate) G Hr).
  destruct (demand_rows l k row Hr) as [d [Hd [Hi E]]].
  rewrite (demand_row_value m x l k _ d Hi). rewrite E in Ek. cbn in Ek. inversion Ek; subst r.
  apply (balance_value m x dirs lf n nv _ (proj1 O) T NL).
Qed.

(** Rows of a table are only about their own variable ids. *)
Lemma NoDup_app_disjoint {A} (l1 l2 : list A) a : NoDup (l1 ++ l2) -> In a l1 -> In a l2 -> False.
Proof. intros H. apply NoDup_app_iff in H. destruct H as [_ [_ H]]. exact (H a). Qed.

Lemma var_ids_parts m : wf m ->
  (forall v w, In v (rows_or_nil (m_bids m)) -> In w (rows_or_nil (m_inter m)) -> iv_id w <> bv_id v)
  /\ (forall v w, In v (rows_or_nil (m_bids m)) -> In w (rows_or_nil (m_loss m)) -> lv_id w <> bv_id v)
  /\ (forall v w, In v (rows_or_nil (m_inter m)) -> In w (rows_or_nil (m_loss m)) -> lv_id w <> iv_id v)
  /\ NoDup (map iv_id (rows_or_nil (m_inter m))) /\ NoDup (map lv_id (rows_or_nil (m_loss m))).
Proof.
  intros W. pose proof (wf_vars_NoDup m W) as ND. unfold all_vars in ND. rewrite !map_app in ND.
  unfold bid_pvars, inter_pvars, loss_pvars in ND. rewrite !map_map in ND.
  cbn [pv_id] in ND. repeat split.
  - intros v w Hv Hw E. apply (NoDup_app_disjoint _ _ (bv_id v) ND); [now apply (in_map bv_id)|].
    apply in_or_app. left. rewrite <- E. now apply (in_map iv_id).
  - intros v w Hv Hw E. apply (NoDup_app_disjoint _ _ (bv_id v) ND); [now apply (in_map bv_id)|].
    apply in_or_app. right. apply in_or_app. left. rewrite <- E. now apply (in_map lv_id).
  - intros v w Hv Hw E. apply NoDup_app_iff in ND. destruct ND as [_ [ND _]].
    apply (NoDup_app_disjoint _ _ (iv_id v) ND); [now apply (in_map iv_id)|].
    apply in_or_app. left. rewrite <- E. now apply (in_map lv_id).
  - apply NoDup_app_iff in ND. destruct ND as [_ [ND _]]. apply NoDup_app_iff in ND. tauto.
  - apply NoDup_app_iff in ND. destruct ND as [_ [ND _]]. apply NoDup_app_iff in ND. destruct ND as [_ [ND _]].
    apply NoDup_app_iff in ND. tauto.
Qed.

Lemma NoDup_map_inj {A B} (f : A -> B) l a b : NoDup (map f l) -> In a l -> In b l -> f a = f b -> a = b.
Proof.
  induction l as [|c t IH]; intros ND Ha Hb E; [destruct Ha|]. cbn in ND. inversion ND as [|? ? N1 N2]; subst.
  destruct Ha as [->|Ha], Hb as [->|Hb]; auto.
  - exfalso. apply N1. rewrite E. now apply in_map.
  - exfalso. apply N1. rewrite <- E. now apply in_map.
Qed.

Lemma flow_change m i l delta x y : wf m -> flow_changed m i l delta x y ->
  (forall r s, region_supply m y r s == region_supply m x r s)
  /\ (forall j k, link_loss m y j k == link_loss m x j k)
  /\ (forall j k, same_link j k i l = false -> link_flow m y j k == link_flow m x j k).
Proof.
  intros W [C1 C2]. destruct (var_ids_parts m W) as [D1 [D2 [D3 [D4 D5]]]]. repeat split.
  - intros r s. rewrite !region_supply_sum. apply sumQ_ext. intros u. rewrite !dispatch_sum.
    apply Qmult_comp; [reflexivity|]. apply sumQ_ext_in. intros v Hv. apply filter_In in Hv.
    apply C2. intros w Hw _ _. now apply D1.
  - intros j k. rewrite !link_loss_sum. apply sumQ_ext_in. intros v Hv. apply filter_In in Hv.
    apply C2. intros w Hw _ _ E. now apply (D3 w v).
  - intros j k E. rewrite !link_flow_sum. apply sumQ_ext_in. intros v Hv. apply filter_In in Hv. destruct Hv as [Hv F].
    apply C2. intros w Hw E1 E2 E3. assert (w = v) by (apply (NoDup_map_inj iv_id (rows_or_nil (m_inter m))); auto). subst w.
    apply andb_true_iff in F. rewrite !String.eqb_eq in F. destruct F as [-> ->].
    rewrite E1, E2 in E. unfold same_link in E. rewrite !String.eqb_refl in E. discriminate.
Qed.

Lemma loss_change m i l delta x y : wf m -> loss_changed m i l delta x y ->
  (forall r s, region_supply m y r s == region_supply m x r s)
  /\ (forall j k, link_flow m y j k == link_flow m x j k)
  /\ (forall j k, same_link j k i l = false -> link_loss m y j k == link_loss m x j k).
Proof.
  intros W [C1 C2]. destruct (var_ids_parts m W) as [D1 [D2 [D3 [D4 D5]]]]. repeat split.
  - intros r s. rewrite !region_supply_sum. apply sumQ_ext. intros u. rewrite !dispatch_sum.
    apply Qmult_comp; [reflexivity|]. apply sumQ_ext_in. intros v Hv. apply filter_In in Hv.
    apply C2. intros w Hw _ _. now apply D2.
  - intros j k. rewrite !link_flow_sum. apply sumQ_ext_in. intros v Hv. apply filter_In in Hv.
    apply C2. intros w Hw _ _ E. now apply (D3 v w).
  - intros j k E. rewrite !link_loss_sum. apply sumQ_ext_in. intros v Hv. apply filter_In in Hv. destruct Hv as [Hv F].
    apply C2. intros w Hw E1 E2 E3. assert (w = v) by (apply (NoDup_map_inj lv_id (rows_or_nil (m_loss m))); auto). subst w.
    apply andb_true_iff in F. rewrite !String.eqb_eq in F. destruct F as [-> ->].
    rewrite E1, E2 in E. unfold same_link in E. rewrite !String.eqb_refl in E. discriminate.
Qed.

Lemma sumQ_change {A} (f g : A -> Q) (a : A) (delta : Q) l :
  NoDup l -> In a l -> f a == g a + delta -> (forall b, In b l -> b <> a -> f b == g b) ->
  sumQ f l == sumQ g l + delta.
Proof.
  induction l as [|b t IH]; intros ND Ha E H; [destruct Ha|]. inversion ND as [|? ? N1 N2]; subst.
  rewrite !sumQ_cons. destruct Ha as [->|Ha].
  - rewrite E. rewrite (sumQ_ext_in f g t); [ring|]. intros b Hb. apply H; [now right|]. intros ->. contradiction.
  - assert (Eb : f b == g b) by (apply H; [now left|intros ->; contradiction]).
    assert (Et : sumQ f t == sumQ g t + delta) by (apply IH; auto; intros b' Hb' Nb; apply H; auto; now right).
    rewrite Eb, Et. ring.
Qed.

Lemma unique_links_NoDup dirs : unique_links dirs -> NoDup dirs.
Proof.
  intros U. apply (FOP_NoDup (fun a b => same_link (in_inter a) (in_link a) (in_inter b) (in_link b))); auto.
  intros a. now apply same_link_eq.
Qed.

Lemma other_link dirs d e : unique_links dirs -> In d dirs -> In e dirs -> e <> d ->
  same_link (in_inter e) (in_link e) (in_inter d) (in_link d) = false.
Proof.
  intros U Hd He N. destruct (same_link (in_inter e) (in_link e) (in_inter d) (in_link d)) eqn:E; [|reflexivity].
  exfalso. apply N. apply (FOP_unique (fun a b => same_link (in_inter a) (in_link a) (in_inter b) (in_link b)) dirs); auto.
  intros a b. apply same_link_sym.
Qed.

Lemma flow_effect_ext d r a b : a == b -> flow_effect d r a == flow_effect d r b.
Proof.
  intros E. unfold flow_effect. destruct (String.eqb (in_to d) r), (String.eqb (in_from d) r); rewrite ?E; reflexivity.
Qed.

Lemma flow_regional_effect c l dirs lf bps m p r con : in_force c (OpDemand l None) m -> network c dirs lf bps m ->
  (forall d, In d dirs -> in_from d <> in_to d) -> assemble m = Ok p -> In con (p_cons p) -> balance_con m r con ->
  forall d x y delta, In d dirs -> flow_changed m (in_inter d) (in_link d) delta x y ->
  linear (pc_terms con) y == linear (pc_terms con) x + flow_effect d r delta.
Proof.
  intros I N NL A Hc B d x y delta Hd Ch.
  rewrite !(balance_con_value c l dirs lf bps m p r con I N NL A Hc B).
  apply network_inv in N. destruct N as [O [_ [n [nv T]]]].
  destruct (flow_change m _ _ delta x y (proj1 O) Ch) as [H1 [H2 H3]].
  unfold energy_balance. rewrite H1.
  assert (EL : losses m y dirs lf r == losses m x dirs lf r).
  { unfold losses. apply (sumQ_ext_in (fun d => sumQ (fun f => loss_charge d f r * link_loss m y (in_inter d) (in_link d)) (filter (about_link d) lf))).
    intros e _. apply sumQ_ext. intros f. now rewrite H2. }
  rewrite EL.
  assert (EI : inflow m y dirs r == inflow m x dirs r + flow_effect d r delta).
  { unfold inflow. apply (sumQ_change _ _ d); auto.
    - now apply unique_links_NoDup, T.
    - pose proof (save_index_in n _ _ Hd) as [i Hi].
      assert (E : link_flow m y (in_inter d) (in_link d) == link_flow m x (in_inter d) (in_link d) + delta).
      { rewrite !(flow_of m _ dirs lf n nv i d T Hi). destruct Ch as [Ch _].
        apply (Ch (InterVar (in_inter d) (in_link d) i (in_min d) (in_max d) (in_gcf d))); auto.
        rewrite (nt_inter _ _ _ _ _ T). unfold inter_variables. apply in_map_iff. exists (i, d). auto. }
      unfold flow_effect. destruct (String.eqb (in_to d) r), (String.eqb (in_from d) r); rewrite ?E; ring.
    - intros e He Ne. apply flow_effect_ext, H3, (other_link dirs); auto. apply T. }
  rewrite EI. ring.
Qed.

Lemma loss_regional_effect c l dirs lf bps m p r con : in_force c (OpDemand l None) m -> network c dirs lf bps m ->
  (forall d, In d dirs -> in_from d <> in_to d) -> assemble m = Ok p -> In con (p_cons p) -> balance_con m r con ->
  forall d f x y delta, In d dirs -> In f lf -> about_link d f = true ->
  loss_changed m (in_inter d) (in_link d) delta x y ->
  linear (pc_terms con) y == linear (pc_terms con) x - loss_charge d f r * delta.
Proof.
  intros I N NL A Hc B d f x y delta Hd Hf Hl Ch.
  rewrite !(balance_con_value c l dirs lf bps m p r con I N NL A Hc B).
  apply network_inv in N. destruct N as [O [_ [n [nv T]]]].
  destruct (loss_change m _ _ delta x y (proj1 O) Ch) as [H1 [H2 H3]].
  unfold energy_balance. rewrite H1.
  assert (EI : inflow m y dirs r == inflow m x dirs r).
  { unfold inflow. apply (sumQ_ext_in (fun d => flow_effect d r (link_flow m y (in_inter d) (in_link d)))).
    intros e _. apply flow_effect_ext, H2. }
  rewrite EI.
  assert (EL : losses m y dirs lf r == losses m x dirs lf r + loss_charge d f r * delta).
  { unfold losses. apply (sumQ_change (fun d => sumQ (fun f => loss_charge d f r * link_loss m y (in_inter d) (in_link d)) (filter (about_link d) lf))
      _ d); auto.
    - now apply unique_links_NoDup, T.
    - pose proof (save_index_in n _ _ Hd) as [i Hi]. pose proof (save_index_in nv _ _ Hi) as [j Hj].
      assert (F : filter (about_link d) lf = [f]).
      { pose proof (at_most_one_lf lf d (nt_lf _ _ _ _ _ T)) as L.
        assert (Hin : In f (filter (about_link d) lf)) by (apply filter_In; auto).
        destruct (filter (about_link d) lf) as [|g [|h t]]; cbn in *; try lia; try contradiction.
        destruct Hin as [->|[]]. reflexivity. }
      assert (E : link_loss m y (in_inter d) (in_link d) == link_loss m x (in_inter d) (in_link d) + delta).
      { rewrite !(loss_of m _ dirs lf n nv j i d T Hj), F, !sumQ_cons, !sumQ_nil. destruct Ch as [Ch _].
        set (w := LossVar (in_inter d) (in_link d) j (-(1) * loss_bound (InterVar (in_inter d) (in_link d) i (in_min d) (in_max d) (in_gcf d)))
                     (loss_bound (InterVar (in_inter d) (in_link d) i (in_min d) (in_max d) (in_gcf d)))).
        assert (Ew : y (lv_id w) == x (lv_id w) + delta); [|cbn [lv_id w] in Ew; rewrite Ew; ring].
        apply Ch; try reflexivity.
        rewrite (nt_loss _ _ _ _ _ T). unfold loss_variables, loss_rows. apply in_map_iff.
        exists ((j, InterVar (in_inter d) (in_link d) i (in_min d) (in_max d) (in_gcf d)), (f, in_from d)).
        split; [reflexivity|]. apply in_merge. cbn [fst snd iv_inter iv_link]. repeat split; auto.
        - unfold inter_variables. revert Hj. generalize (save_index n dirs). clear. intros l. revert nv.
          induction l as [|[i' d'] t IH]; intros nv H; [destruct H|]. rewrite save_index_cons in *. cbn [map].
          rewrite save_index_cons. destruct H as [H|H]; [left; now inversion H|right; auto].
        - unfold loss_shares. apply in_map_iff. exists (f, d). split; [reflexivity|]. apply in_merge. repeat split; auto.
          rewrite same_link_sym. exact Hl. }
      rewrite F. change (sumQ (fun f => loss_charge d f r * link_loss m y (in_inter d) (in_link d)) [f]
        == sumQ (fun f => loss_charge d f r * link_loss m x (in_inter d) (in_link d)) [f] + loss_charge d f r * delta).
      rewrite !sumQ_cons, !sumQ_nil, E. ring.
    - intros e He Ne. apply sumQ_ext. intros g. rewrite H3; [reflexivity|]. apply (other_link dirs); auto. apply T. }
  rewrite EL. ring.
Qed.

(** ** Flow limits *)

Lemma flow_limits c dirs lf bps m x : network c dirs lf bps m -> solution m x ->
  forall d, In d dirs -> in_min d <= link_flow m x (in_inter d) (in_link d) <= in_max d.
Proof.
  intros N [p [A F]] d Hd. apply network_inv in N. destruct N as [O [_ [n [nv T]]]].
  pose proof (save_index_in n _ _ Hd) as [i Hi]. rewrite (flow_of m x dirs lf n nv i d T Hi).
  apply (feasible_iff m p x (proj1 O) A) in F. destruct F as [F _].
  assert (Hv : In (PVar i (in_min d) (Some (in_max d))) (all_vars m)).
  { unfold all_vars. apply in_or_app. right. apply in_or_app. left. unfold inter_pvars. apply in_map_iff.
    exists (InterVar (in_inter d) (in_link d) i (in_min d) (in_max d) (in_gcf d)). split; [reflexivity|].
    rewrite (nt_inter _ _ _ _ _ T). unfold inter_variables. apply in_map_iff. exists (i, d). auto. }
  apply F in Hv. exact Hv.
Qed.

Lemma flow_effect_cases c l dirs lf bps m p r con : in_force c (OpDemand l None) m -> network c dirs lf bps m ->
  (forall d, In d dirs -> in_from d <> in_to d) -> assemble m = Ok p -> In con (p_cons p) -> balance_con m r con ->
  forall d x y delta, In d dirs -> flow_changed m (in_inter d) (in_link d) delta x y ->
  let change := linear (pc_terms con) y - linear (pc_terms con) x in
  (r = in_to d -> change == in_to_lf d * delta)
  /\ (r = in_from d -> change == -(in_from_lf d * delta))
  /\ (r <> in_to d -> r <> in_from d -> change == 0).
Proof.
  intros I N NL A Hc B d x y delta Hd Ch change. unfold change.
  rewrite (flow_regional_effect c l dirs lf bps m p r con I N NL A Hc B d x y delta Hd Ch).
  specialize (NL d Hd). unfold flow_effect. split; [|split]; intros; subst.
  - rewrite String.eqb_refl. replace (String.eqb (in_from d) (in_to d)) with false by (symmetry; now apply String.eqb_neq). ring.
  - rewrite String.eqb_refl. replace (String.eqb (in_to d) (in_from d)) with false by (symmetry; apply String.eqb_neq; congruence). ring.
  - replace (String.eqb (in_to d) r) with false by (symmetry; apply String.eqb_neq; congruence).
    replace (String.eqb (in_from d) r) with false by (symmetry; apply String.eqb_neq; congruence). ring.
Qed.

Lemma loss_effect_cases c l dirs lf bps m p r con : in_force c (OpDemand l None) m -> network c dirs lf bps m ->
  (forall d, In d dirs -> in_from d <> in_to d) -> assemble m = Ok p -> In con (p_cons p) -> balance_con m r con ->
  forall d f x y delta, In d dirs -> In f lf -> about_link d f = true ->
  loss_changed m (in_inter d) (in_link d) delta x y ->
  let change := linear (pc_terms con) y - linear (pc_terms con) x in
  (r = in_from d -> change == -(lf_share f * delta))
  /\ (r = in_to d -> change == -((1 - lf_share f) * delta))
  /\ (r <> in_to d -> r <> in_from d -> change == 0).
Proof.
  intros I N NL A Hc B d f x y delta Hd Hf Hl Ch change. unfold change.
  rewrite (loss_regional_effect c l dirs lf bps m p r con I N NL A Hc B d f x y delta Hd Hf Hl Ch).
  specialize (NL d Hd). unfold loss_charge. split; [|split]; intros; subst.
  - rewrite String.eqb_refl. ring.
  - rewrite String.eqb_refl. replace (String.eqb (in_from d) (in_to d)) with false by (symmetry; now apply String.eqb_neq). ring.
  - replace (String.eqb (in_to d) r) with false by (symmetry; apply String.eqb_neq; congruence).
    replace (String.eqb (in_from d) r) with false by (symmetry; apply String.eqb_neq; congruence). ring.
Qed.

Lemma sum_indicator (l : list string) a q : NoDup l -> In a l ->
  sumQ (fun r => if String.eqb a r then q else 0) l == q.
Proof.
  intros ND H. rewrite (sumQ_pick (fun _ => q) (String.eqb a) a); auto; [reflexivity|apply String.eqb_refl|].
  intros b _ E. apply String.eqb_eq in E. congruence.
Qed.

Lemma losses_complete c dirs lf bps m x : network c dirs lf bps m -> NoDup (c_regions c) ->
  (forall d, In d dirs -> in_from d <> in_to d) ->
  (forall d, In d dirs -> In (in_from d) (c_regions c) /\ In (in_to d) (c_regions c)) ->
  qsum (map (losses m x dirs lf) (c_regions c))
  == qsum (map (fun d => qsum (map (fun f => link_loss m x (in_inter d) (in_link d)) (filter (about_link d) lf))) dirs).
Proof.
  intros _ ND NL Hr. change (sumQ (losses m x dirs lf) (c_regions c)
    == sumQ (fun d => sumQ (fun f => link_loss m x (in_inter d) (in_link d)) (filter (about_link d) lf)) dirs).
  change (sumQ (fun r => sumQ (fun d => sumQ (fun f => loss_charge d f r * link_loss m x (in_inter d) (in_link d))
    (filter (about_link d) lf)) dirs) (c_regions c)
    == sumQ (fun d => sumQ (fun f => link_loss m x (in_inter d) (in_link d)) (filter (about_link d) lf)) dirs).
  rewrite sumQ_swap. apply sumQ_ext_in. intros d Hd. rewrite sumQ_swap. apply sumQ_ext. intros f.
  set (q := link_loss m x (in_inter d) (in_link d)).
  transitivity (sumQ (fun r => (if String.eqb (in_from d) r then lf_share f * q else 0)
     + (if String.eqb (in_to d) r then (1 - lf_share f) * q else 0)) (c_regions c)).
  - apply sumQ_ext. intros r. unfold loss_charge. destruct (String.eqb (in_from d) r) eqn:E1.
    + apply String.eqb_eq in E1. subst r. specialize (NL d Hd).
      replace (String.eqb (in_to d) (in_from d)) with false by (symmetry; apply String.eqb_neq; congruence). ring.
    + destruct (String.eqb (in_to d) r); ring.
  - rewrite sumQ_plus, !sum_indicator by (auto; apply Hr; auto). ring.
Qed.
