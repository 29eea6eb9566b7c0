(** Reports of interconnectors and the regional summary. *)

From Coq Require Import QArith Qabs Lqa String List Bool Arith Lia ZArith.
Import ListNotations.
From Verif Require Import PandasModel TablesModel VariableIdsModel MarketConstraintsModel
  UnitConstraintsModel RampModel FcasModel InterModel ElasticModel MarketModel SolverModel ReportsModel
  SpecLp PandasFacts SpecHistory SpecIds SpecDispatch SpecNetwork SpecReports StepFacts InvariantFacts OwnerFacts SolverFacts
  MeaningFacts LimitFacts TableFacts BidFacts JointRampFacts BalanceFacts ReportFacts.
Open Scope string_scope.
Open Scope list_scope.

Lemma losses_some lf bps m : snd (set_losses lf bps m) = None -> lf <> [].
Proof.
  intros H ->. unfold set_losses in H. destruct (check_losses [] bps); cbn [guard] in H; [discriminate|]. cbv zeta in H.
  destruct (m_directions _); [|discriminate]. destruct (m_inter _); [|discriminate]. destruct (m_reg_inter _); [|discriminate].
  change (loss_shares [] l) with (@nil (lossfn_row * string)) in H. unfold loss_variables, loss_rows in H. rewrite merge_nil_r in H. discriminate.
Qed.

Lemma network_state c dirs lf bps m : network c dirs lf bps m ->
  (dirs = [] /\ lf = [] /\ m_directions m = None /\ m_shares m = None)
  \/ (m_directions m = Some dirs
      /\ ((lf = [] /\ m_shares m = None) \/ (m_shares m = Some lf /\ lf <> []))).
Proof.
  intros [m0 [ops [H0 [Hs [H ->]]]]].
  assert (N : m_directions m0 = None /\ m_shares m0 = None).
  { unfold new_market in H0. destruct (check_unit_info c); [discriminate|]. inversion H0. auto. }
  destruct N as [N1 N2].
  destruct H as [[-> [-> [-> [L1 L2]]]]|[[-> [-> [S L]]]|[pre [post [-> [S [A [L1 [L2 L3]]]]]]]]].
  - left. destruct (run_same_table "interconnectors" ops m0 L1) as [_ [_ [T _]]].
    destruct (T eq_refl) as [_ [_ T3]]. destruct (run_same_table "losses" ops m0 L2) as [_ [_ [_ [T' _]]]].
    destruct (T' eq_refl) as [_ [_ [_ [T4 _]]]]. repeat split; congruence.
  - right. destruct (stands_inter c m0 ops dirs H0 S) as [n [E1 [E2 [E3 E4]]]]. split; [exact E3|]. left.
    destruct (run_same_table "losses" ops m0 L) as [_ [_ [_ [T' _]]]].
    destruct (T' eq_refl) as [_ [_ [_ [T4 _]]]]. split; congruence.
  - right. destruct (stands_inter c m0 pre dirs H0 S) as [n [E1 [E2 [E3 E4]]]].
    cbn [step] in A. destruct (set_losses_cases lf bps (run pre m0)) as [[e E]|[[e E]|[p [Hp E]]]];
      try (rewrite E in A; discriminate).
    rewrite run_app, run_cons. cbn [step]. rewrite E. cbn [fst].
    destruct (run_same_table "interconnectors" post (put_losses lf p (run pre m0)) L1) as [_ [_ [T _]]].
    destruct (T eq_refl) as [_ [_ T3]].
    destruct (run_same_table "losses" post (put_losses lf p (run pre m0)) L2) as [_ [_ [_ [T' _]]]].
    destruct (T' eq_refl) as [T1 [_ [_ [T4 _]]]]. split.
    + rewrite T3. unfold put_losses. fields. exact E3.
    + right. split; [rewrite T4; reflexivity|]. now apply losses_some in A.
Qed.

Lemma sum_ones {A} (l : list A) : sumQ (fun _ => 1) l == inject_Z (Z.of_nat (length l)).
Proof.
  induction l as [|a t IH]; [reflexivity|]. rewrite sumQ_cons, IH. cbn [length]. rewrite Nat2Z.inj_succ, <- Z.add_1_l, inject_Z_plus. reflexivity.
Qed.

Definition of_dir_loss (d : inter_row) (w : lossvar) : bool := same_link (in_inter d) (in_link d) (lv_inter w) (lv_link w).
Definition of_dir (d : inter_row) (f : flow_row) : bool := same_link (in_inter d) (in_link d) (fl_inter f) (fl_link f).

Lemma in_save {A} n (l : list A) a : In a l -> exists i, In (i, a) (save_index n l).
Proof.
  revert n. induction l as [|b t IH]; intros n []; rewrite save_index_cons.
  - subst. exists n. now left.
  - destruct (IH (S n) H) as [i Hi]. exists i. now right.
Qed.

Lemma loss_rows_count m dirs lf n nv d : network_tables dirs lf n nv m -> In d dirs ->
  length (filter (of_dir_loss d) (rows_or_nil (m_loss m))) = length (filter (about_link d) lf).
Proof.
  intros T Hd. destruct (in_save n dirs d Hd) as [i Hi]. destruct (in_save nv _ _ Hi) as [j Hj].
  pose proof (loss_of m (fun _ => 1) dirs lf n nv j i d T Hj) as L. rewrite link_loss_sum in L.
  rewrite !sum_ones in L. unfold inject_Z, Qeq in L. cbn in L. rewrite !Z.mul_1_r in L. now apply Nat2Z.inj in L.
Qed.

Lemma merge_left_one {A B} (on : A -> B -> bool) l r : (forall a, In a l -> (length (filter (on a) r) <= 1)%nat) ->
  merge_left on l r = map (fun a => (a, hd_error (filter (on a) r))) l.
Proof.
  intros H. unfold merge_left. induction l as [|a t IH]; [reflexivity|]. cbn [flat_map map].
  specialize (IH (fun b Hb => H b (or_intror Hb))). pose proof (H a (or_introl eq_refl)) as H1.
  etransitivity; [apply f_equal2; [reflexivity|exact IH]|].
  destruct (filter (on a) r) as [|b [|b2 s]]; cbn in *; try reflexivity. lia.
Qed.

Definition shown (f : flow_row) (m : market) (x : nat -> Q) (d : inter_row) : Prop :=
  fl_inter f = in_inter d /\ fl_link f = in_link d /\ fl_flow f == link_flow m x (in_inter d) (in_link d)
  /\ or_zero (fl_loss f) == link_loss m x (in_inter d) (in_link d).

Lemma inter_var_dir dirs n v : In v (inter_variables dirs n) -> exists i d, In (i, d) (save_index n dirs)
  /\ v = InterVar (in_inter d) (in_link d) i (in_min d) (in_max d) (in_gcf d).
Proof. unfold inter_variables. intros H. apply in_map_iff in H. destruct H as [[i d] [<- H]]. eauto. Qed.

Lemma flows_shown m x dirs lf n nv b fs : network_tables dirs lf n nv m -> interconnector_flows m x = Ok (b, fs) ->
  Forall2 (fun f d => shown f m x d /\ (forall g, In g lf -> about_link d g = true -> fl_loss f <> None)) fs dirs.
Proof.
  intros T H. unfold interconnector_flows, need in H. destruct (m_inter m) as [vs|] eqn:EI; [|discriminate].
  pose proof (nt_inter _ _ _ _ _ T) as TI. rewrite EI in TI. cbn [rows_or_nil] in TI. subst vs.
  set (loss := fun v : intervar => match m_loss m with None => None | Some ls => option_map (fun w => x (lv_id w)) (hd_error (filter
     (fun w => String.eqb (iv_inter v) (lv_inter w) && String.eqb (iv_link v) (lv_link w)) ls)) end).
  assert (E : fs = map (fun v => FlowRow (iv_inter v) (iv_link v) (x (iv_id v)) (loss v)) (inter_variables dirs n)).
  { unfold loss. destruct (m_loss m) as [ls|] eqn:EL; injection H as _ <-; [|reflexivity].
    rewrite merge_left_one, map_map; [reflexivity|]. intros v Hv. apply inter_var_dir in Hv. destruct Hv as [i [d [Hd ->]]].
    assert (D : In d dirs) by (apply in_save_index in Hd; tauto).
    pose proof (loss_rows_count m dirs lf n nv d T D) as C. rewrite EL in C. cbn [rows_or_nil] in C. cbn [iv_inter iv_link].
    unfold of_dir_loss, same_link in C. rewrite C. apply at_most_one_lf. apply T. }
  subst fs. clear H.
  assert (G : forall l, (forall p, In p l -> In p (save_index n dirs)) ->
    Forall2 (fun f d => shown f m x d /\ (forall g, In g lf -> about_link d g = true -> fl_loss f <> None))
     (map (fun v => FlowRow (iv_inter v) (iv_link v) (x (iv_id v)) (loss v)) (map (fun p => let '(i, r) := p in
         InterVar (in_inter r) (in_link r) i (in_min r) (in_max r) (in_gcf r)) l)) (map snd l)).
  { induction l as [|[i d] t IH]; intros Hl; [constructor|]. cbn [map snd]. constructor; [|apply IH; intros; apply Hl; now right].
    pose proof (Hl (i, d) (or_introl eq_refl)) as Hd. assert (D : In d dirs) by (apply in_save_index in Hd; tauto).
    pose proof (loss_rows_count m dirs lf n nv d T D) as C. pose proof (at_most_one_lf lf d (nt_lf _ _ _ _ _ T)) as C1.
    assert (LL : link_loss m x (in_inter d) (in_link d) = sumQ (fun w => x (lv_id w)) (filter (of_dir_loss d) (rows_or_nil (m_loss m)))) by reflexivity.
    split; [split; [reflexivity|split; [reflexivity|split]]|].
    - cbn [fl_flow iv_id]. now rewrite (flow_of m x dirs lf n nv i d T Hd).
    - cbn [fl_loss]. rewrite LL. unfold loss. cbn [iv_inter iv_link]. destruct (m_loss m) as [ls|]; [|reflexivity]. cbn [rows_or_nil] in *.
      fold (of_dir_loss d). change (fun w => String.eqb (in_inter d) (lv_inter w) && String.eqb (in_link d) (lv_link w)) with (of_dir_loss d).
      rewrite <- C in C1. destruct (filter (of_dir_loss d) ls) as [|w [|w2 s]]; cbn in C1 |- *; [reflexivity|unfold sumQ; cbn; ring|lia].
    - intros g Hg Ag. cbn [fl_loss]. unfold loss. cbn [iv_inter iv_link].
      assert (NE : (0 < length (filter (about_link d) lf))%nat).
      { destruct (filter (about_link d) lf) eqn:EF; [|cbn; lia]. assert (In g (filter (about_link d) lf)) by (apply filter_In; auto).
        rewrite EF in H. destruct H. }
      rewrite <- C in NE. destruct (m_loss m) as [ls|]; cbn [rows_or_nil] in NE; [|cbn in NE; lia].
      change (fun w => String.eqb (in_inter d) (lv_inter w) && String.eqb (in_link d) (lv_link w)) with (of_dir_loss d).
      destruct (filter (of_dir_loss d) ls) as [|w s]; [cbn in NE; lia|]. cbn. discriminate. }
  specialize (G (save_index n dirs) (fun p H => H)). unfold inter_variables. rewrite save_index_snd in G. exact G.
Qed.

(** ** One row of the flow report per link *)

Lemma Forall2_in_l {A B} (R : A -> B -> Prop) l k a : Forall2 R l k -> In a l -> exists b, In b k /\ R a b.
Proof.
  induction 1 as [|a' b l k H F IH]; intros []; [subst; exists b; split; [now left|assumption]|].
  destruct (IH H0) as [b' [H1 H2]]. exists b'. split; [now right|assumption].
Qed.
Lemma Forall2_in_r {A B} (R : A -> B -> Prop) l k b : Forall2 R l k -> In b k -> exists a, In a l /\ R a b.
Proof.
  induction 1 as [|a b' l k H F IH]; intros []; [subst; exists a; split; [now left|assumption]|].
  destruct (IH H0) as [a' [H1 H2]]. exists a'. split; [now right|assumption].
Qed.

Lemma row_of m x dirs fs : Forall2 (fun f d => shown f m x d) fs dirs -> unique_links dirs -> forall d, In d dirs ->
  exists f, filter (of_dir d) fs = [f] /\ shown f m x d.
Proof.
  intros F. induction F as [|f e fs dirs Hf F IH]; intros U d Hd; [destruct Hd|].
  inversion U as [|? ? U1 U2]; subst. rewrite Forall_forall in U1. cbn [filter].
  destruct Hf as [F1 [F2 F3]]. unfold of_dir at 1. rewrite F1, F2. destruct Hd as [<-|Hd].
  - rewrite (proj2 (same_link_eq _ _ _ _) (conj eq_refl eq_refl)). exists f. split; [|repeat split; tauto].
    f_equal. clear IH. assert (G : forall a, In a fs -> of_dir e a = false).
    { intros a Ha. destruct (Forall2_in_l _ _ _ _ F Ha) as [b [Hb [B1 [B2 _]]]]. unfold of_dir. rewrite B1, B2. now apply U1. }
    clear -G. induction fs as [|a t IH]; [reflexivity|]. cbn [filter]. rewrite (G a (or_introl eq_refl)). apply IH. intros; apply G; now right.
  - rewrite same_link_sym, (U1 d Hd). now apply IH.
Qed.

Lemma pick_row m x dirs fs d (h : flow_row -> Q) : Forall2 (fun f d => shown f m x d) fs dirs -> unique_links dirs -> In d dirs ->
  exists f, shown f m x d /\ sumQ (fun f => if of_dir d f then h f else 0) fs == h f.
Proof.
  intros F U Hd. destruct (row_of m x dirs fs F U d Hd) as [f [E S]]. exists f. split; [exact S|].
  rewrite <- sumQ_filter, E, sumQ_cons, sumQ_nil. ring.
Qed.

Lemma pick_dir dirs d (h : inter_row -> Q) : unique_links dirs -> In d dirs ->
  sumQ (fun e => if same_link (in_inter d) (in_link d) (in_inter e) (in_link e) then h e else 0) dirs == h d.
Proof.
  intros U Hd. rewrite (sumQ_pick h _ d); auto.
  - reflexivity.
  - now apply same_link_eq.
  - intros e He E. apply (FOP_unique (fun a b => same_link (in_inter a) (in_link a) (in_inter b) (in_link b)) dirs); auto.
    + intros a b. apply same_link_sym.
    + now rewrite same_link_sym.
  - apply (FOP_NoDup (fun a b => same_link (in_inter a) (in_link a) (in_inter b) (in_link b))); auto.
    intros a. now apply same_link_eq.
Qed.

(** ** The columns of the regional summary *)

(** Net flow into region [r], losses apart. *)
Definition net_flow (m : market) (x : nat -> Q) (dirs : list inter_row) (r : string) : Q :=
  sumQ (fun d => ((if String.eqb (in_to d) r then 1 else 0) - (if String.eqb (in_from d) r then 1 else 0))
                 * link_flow m x (in_inter d) (in_link d)) dirs.
Definition side_losses (m : market) (x : nat -> Q) (dirs : list inter_row) (r : string) : Q :=
  sumQ (fun d => (if String.eqb (in_from d) r then side_loss false (link_flow m x (in_inter d) (in_link d)) (in_from_lf d) else 0)
               + (if String.eqb (in_to d) r then side_loss true (link_flow m x (in_inter d) (in_link d)) (in_to_lf d) else 0)) dirs.

Lemma side_loss_ext b f g lf : f == g -> side_loss b f lf == side_loss b g lf.
Proof.
  intros E. unfold side_loss. assert (E1 : Qle_bool 0 f = Qle_bool 0 g) by now rewrite E.
  assert (E2 : Qle_bool f 0 = Qle_bool g 0) by now rewrite E. rewrite E1, E2.
  destruct ((b && Qle_bool 0 g) || (negb b && Qle_bool g 0)); now rewrite E.
Qed.

Section Columns.
  Variables (m : market) (x : nat -> Q) (dirs : list inter_row) (fs : list flow_row).
  Hypothesis F : Forall2 (fun f d => shown f m x d) fs dirs.
  Hypothesis U : unique_links dirs.

  Lemma group_value {A} (key : A -> string) (val : A -> Q) l k q :
    In (k, q) (groupby_sum String.eqb fst snd (map (fun a => (key a, val a)) l)) ->
    q == sumQ (fun a => if String.eqb (key a) k then val a else 0) l.
  Proof.
    intros H. apply group_row in H; [|exact str_ok]. destruct H as [_ ->]. rewrite sumQ_filter, sumQ_map. reflexivity.
  Qed.
  Lemma group_keys {A} (key : A -> string) (val : A -> Q) l k :
    (exists q, In (k, q) (groupby_sum String.eqb fst snd (map (fun a => (key a, val a)) l))) <-> exists a, In a l /\ key a = k.
  Proof.
    split.
    - intros [q H]. apply group_row in H; [|exact str_ok]. destruct H as [H _]. rewrite map_map in H. apply in_map_iff in H.
      destruct H as [a [E H]]. exists a. auto.
    - intros [a [H E]]. eexists. apply group_made; [exact str_ok|]. rewrite map_map. apply in_map_iff. exists a. auto.
  Qed.

  Lemma inflow_value r q : In (r, q) (region_inflow dirs fs) -> q == net_flow m x dirs r.
  Proof.
    intros H. unfold region_inflow in H. apply group_value in H. rewrite H. clear H.
    rewrite sumQ_merge. unfold inflow_coefficients. rewrite sumQ_app, !sumQ_map. cbn [fst snd en_region en_coef].
    rewrite <- sumQ_plus. unfold net_flow. apply sumQ_ext_in. intros d Hd.
    rewrite !sumQ_filter. cbn [at_end en_inter en_link].
    destruct (pick_row m x dirs fs d (fun f => if String.eqb (in_to d) r then fl_flow f * 1 else 0) F U Hd) as [f [[_ [_ [S _]]] E]].
    destruct (pick_row m x dirs fs d (fun f => if String.eqb (in_from d) r then fl_flow f * -(1) else 0) F U Hd) as [g [[_ [_ [S2 _]]] E2]].
    unfold of_dir, same_link in E, E2. unfold at_end. cbn [en_inter en_link].
    eapply Qeq_trans; [apply Qplus_comp; [exact E|exact E2]|].
    destruct (String.eqb (in_to d) r), (String.eqb (in_from d) r); rewrite ?S, ?S2; ring.
  Qed.

  Lemma inflow_region r : (exists q, In (r, q) (region_inflow dirs fs)) <-> exists d, In d dirs /\ (in_to d = r \/ in_from d = r).
  Proof.
    unfold region_inflow. rewrite group_keys. split.
    - intros [[e f] [H E]]. apply in_merge in H. destruct H as [H _]. unfold inflow_coefficients in H. apply in_app_iff in H. cbn [fst] in E.
      destruct H as [H|H]; apply in_map_iff in H; destruct H as [d [<- Hd]]; exists d; cbn [en_region] in E; auto.
    - intros [d [Hd E]]. destruct (row_of m x dirs fs F U d Hd) as [f [G _]].
      assert (Hf : In f (filter (of_dir d) fs)) by (rewrite G; now left). apply filter_In in Hf. destruct Hf as [Hf Of].
      destruct E as [E|E]; [exists (EndRow (in_inter d) (in_link d) (in_to d) 1, f)|exists (EndRow (in_inter d) (in_link d) (in_from d) (-(1)), f)];
        (split; [|exact E]); apply in_merge; (split; [|split; [exact Hf|exact Of]]); unfold inflow_coefficients; apply in_app_iff;
        [left|right]; apply in_map_iff; exists d; auto.
  Qed.

  Definition lfs := merge (fun a b => String.eqb (sd_inter a) (sg_inter b) && String.eqb (sd_link a) (sg_link b)
                               && Bool.eqb (sd_to a) (sg_to b)) (stacked_factors dirs) (stacked_regions dirs).

  Lemma transmission_rows tl : transmission_losses dirs fs = Ok tl ->
    tl = groupby_sum String.eqb fst snd (map (fun p : flow_row * (side_row * sregion_row) => (sg_region (snd (snd p)),
         side_loss (sd_to (fst (snd p))) (fl_flow (fst p)) (sd_lf (fst (snd p)))))
      (merge (fun f (p : side_row * sregion_row) =>
                       String.eqb (fl_inter f) (sd_inter (fst p)) && String.eqb (fl_link f) (sd_link (fst p))) fs lfs)).
  Proof.
    unfold transmission_losses, bind. fold lfs. destruct (apply_rows _ _) as [l|e] eqn:E; [|discriminate].
    intros H; injection H as <-. apply apply_rows_ok in E. now rewrite E.
  Qed.

  Lemma region_pick d (b : bool) (h : string -> Q) : In d dirs ->
    sumQ (fun p => h (sg_region p)) (filter (fun p => String.eqb (in_inter d) (sg_inter p) && String.eqb (in_link d) (sg_link p)
       && Bool.eqb b (sg_to p)) (stacked_regions dirs)) == h (if b then in_to d else in_from d).
  Proof.
    intros Hd. rewrite sumQ_filter. unfold stacked_regions. rewrite sumQ_app, !sumQ_map. cbn [sg_inter sg_link sg_to sg_region].
    pose proof (pick_dir dirs d (fun e => h (in_to e)) U Hd) as P. pose proof (pick_dir dirs d (fun e => h (in_from e)) U Hd) as P2.
    unfold same_link in P, P2.
    destruct b.
    - rewrite (sumQ_zero (fun a => if String.eqb (in_inter d) (in_inter a) && String.eqb (in_link d) (in_link a) && Bool.eqb true false then h (in_from a) else 0));
        [|intros a _; now rewrite andb_false_r].
      rewrite <- P, Qplus_0_r. apply sumQ_ext. intros a. now rewrite andb_true_r.
    - rewrite (sumQ_zero (fun a => if String.eqb (in_inter d) (in_inter a) && String.eqb (in_link d) (in_link a) && Bool.eqb false true then h (in_to a) else 0));
        [|intros a _; now rewrite andb_false_r].
      rewrite <- P2, Qplus_0_l. apply sumQ_ext. intros a. now rewrite andb_true_r.
  Qed.

  Lemma side_value d (b : bool) lf r : In d dirs ->
    sumQ (fun q => sumQ (fun f => if String.eqb (fl_inter f) (in_inter d) && String.eqb (fl_link f) (in_link d)
        then if String.eqb (sg_region q) r then side_loss b (fl_flow f) lf else 0 else 0) fs)
      (filter (fun p => String.eqb (in_inter d) (sg_inter p) && String.eqb (in_link d) (sg_link p)
       && Bool.eqb b (sg_to p)) (stacked_regions dirs))
    == if String.eqb (if b then in_to d else in_from d) r then side_loss b (link_flow m x (in_inter d) (in_link d)) lf else 0.
  Proof.
    intros Hd. destruct (pick_row m x dirs fs d (fun f => side_loss b (fl_flow f) lf) F U Hd) as [f [[_ [_ [S _]]] E]].
    transitivity (sumQ (fun q => (fun z => if String.eqb z r then side_loss b (link_flow m x (in_inter d) (in_link d)) lf else 0) (sg_region q))
      (filter (fun p => String.eqb (in_inter d) (sg_inter p) && String.eqb (in_link d) (sg_link p)
       && Bool.eqb b (sg_to p)) (stacked_regions dirs))).
    - apply sumQ_ext. intros q. cbv beta. destruct (String.eqb (sg_region q) r).
      + rewrite <- (side_loss_ext b _ _ lf S), <- E. apply sumQ_ext. intros g. unfold of_dir, same_link.
        now rewrite (String.eqb_sym (in_inter d)), (String.eqb_sym (in_link d)).
      + apply sumQ_zero. intros g _. now destruct (_ && _).
    - exact (region_pick d b (fun z => if String.eqb z r then side_loss b (link_flow m x (in_inter d) (in_link d)) lf else 0) Hd).
  Qed.

  Lemma transmission_value tl r q : transmission_losses dirs fs = Ok tl -> In (r, q) tl -> q == side_losses m x dirs r.
  Proof.
    intros T H. rewrite (transmission_rows tl T) in H. apply group_value in H. rewrite H. clear H.
    rewrite sumQ_merge. cbn [fst snd].
    transitivity (sumQ (fun f => sumQ (fun b : side_row * sregion_row => if String.eqb (fl_inter f) (sd_inter (fst b)) && String.eqb (fl_link f) (sd_link (fst b))
       then if String.eqb (sg_region (snd b)) r then side_loss (sd_to (fst b)) (fl_flow f) (sd_lf (fst b)) else 0 else 0) lfs) fs).
    { apply sumQ_ext. intros f. now rewrite sumQ_filter. }
    rewrite sumQ_swap. unfold lfs. rewrite sumQ_merge. unfold stacked_factors. rewrite sumQ_app, !sumQ_map. cbn [fst snd sd_inter sd_link sd_to sd_lf].
    rewrite <- sumQ_plus. unfold side_losses. apply sumQ_ext_in. intros d Hd. cbn [fst snd sd_inter sd_link sd_to sd_lf].
    apply Qplus_comp; now apply side_value.
  Qed.

  Lemma transmission_region tl r : transmission_losses dirs fs = Ok tl ->
    (exists q, In (r, q) tl) <-> exists d, In d dirs /\ (in_to d = r \/ in_from d = r).
  Proof.
    intros T. rewrite (transmission_rows tl T), group_keys. split.
    - intros [[f [a b]] [H E]]. cbn [snd] in E. apply in_merge in H. destruct H as [_ [H _]]. unfold lfs in H. apply in_merge in H.
      destruct H as [_ [H _]]. unfold stacked_regions in H. apply in_app_iff in H.
      destruct H as [H|H]; apply in_map_iff in H; destruct H as [d [<- Hd]]; exists d; cbn [sg_region] in E; auto.
    - intros [d [Hd E]]. destruct (row_of m x dirs fs F U d Hd) as [f [G _]].
      assert (Hf : In f (filter (of_dir d) fs)) by (rewrite G; now left). apply filter_In in Hf. destruct Hf as [Hf Of].
      apply same_link_eq in Of. destruct Of as [O1 O2].
      destruct E as [E|E]; [exists (f, (SideRow (in_inter d) (in_link d) true (in_to_lf d), SRegionRow (in_inter d) (in_link d) true (in_to d)))
        |exists (f, (SideRow (in_inter d) (in_link d) false (in_from_lf d), SRegionRow (in_inter d) (in_link d) false (in_from d)))];
        (split; [|exact E]); apply in_merge; (split; [exact Hf|]);
        (split; [|cbn [fst sd_inter sd_link]; now rewrite O1, O2, !String.eqb_refl]); unfold lfs; apply in_merge;
        unfold stacked_factors, stacked_regions; rewrite !in_app_iff, !in_map_iff; cbn [sd_inter sd_link sd_to sg_inter sg_link sg_to];
        rewrite !String.eqb_refl; repeat split.
      + right. exists d. auto.
      + left. exists d. auto.
      + left. exists d. auto.
      + right. exists d. auto.
  Qed.

  Definition ends_losses (lf : list lossfn_row) (r : string) : Q :=
    sumQ (fun d => sumQ (fun f => ((if String.eqb (in_from d) r then lf_share f else 0) + (if String.eqb (in_to d) r then 1 - lf_share f else 0))
       * link_loss m x (in_inter d) (in_link d)) (filter (about_link d) lf)) dirs.

  Lemma shares_sum lf (g : lossfn_row -> inter_row -> Q) :
    sumQ (fun p => g (fst p) (snd p)) (merge (fun f d => same_link (lf_inter f) (lf_link f) (in_inter d) (in_link d)) lf dirs)
    == sumQ (fun d => sumQ (fun f => g f d) (filter (about_link d) lf)) dirs.
  Proof.
    rewrite sumQ_merge. cbn [fst snd].
    transitivity (sumQ (fun a => sumQ (fun b => if about_link b a then g a b else 0) dirs) lf).
    - apply sumQ_ext. intros a. rewrite sumQ_filter. apply sumQ_ext. intros b. unfold about_link, same_link.
      now rewrite (String.eqb_sym (in_inter b)), (String.eqb_sym (in_link b)).
    - rewrite sumQ_swap. apply sumQ_ext. intros d. now rewrite sumQ_filter.
  Qed.

  Lemma losses_value lf r q : In (r, q) (region_losses lf dirs fs) -> q == ends_losses lf r.
  Proof.
    intros H. unfold region_losses in H. apply group_value in H. rewrite H. clear H.
    rewrite sumQ_merge. cbn [fst snd].
    transitivity (sumQ (fun f => sumQ (fun e => if at_end e f then (if String.eqb (en_region e) r then
       match fl_loss f with Some q => q * en_coef e | None => 0 end else 0) else 0) (reported_shares lf dirs)) fs).
    { apply sumQ_ext. intros f. now rewrite sumQ_filter. }
    rewrite sumQ_swap. unfold reported_shares. rewrite sumQ_app, !sumQ_map. cbn [en_region en_coef].
    rewrite <- sumQ_plus. unfold at_end; cbn [en_inter en_link].
    rewrite (shares_sum lf (fun f d =>
      sumQ (fun b => if String.eqb (lf_inter f) (fl_inter b) && String.eqb (lf_link f) (fl_link b) then
          if String.eqb (in_from d) r then match fl_loss b with Some q => q * lf_share f | None => 0 end else 0 else 0) fs
      + sumQ (fun b => if String.eqb (lf_inter f) (fl_inter b) && String.eqb (lf_link f) (fl_link b) then
          if String.eqb (in_to d) r then match fl_loss b with Some q => q * (1 - lf_share f) | None => 0 end else 0 else 0) fs)).
    unfold ends_losses. apply sumQ_ext_in. intros d Hd. apply sumQ_ext_in. intros f Hf. apply filter_In in Hf. destruct Hf as [_ Hf].
    unfold about_link in Hf. apply same_link_eq in Hf. destruct Hf as [<- <-].
    assert (P : forall (c : bool) s, sumQ (fun b => if String.eqb (in_inter d) (fl_inter b) && String.eqb (in_link d) (fl_link b) then
          if c then match fl_loss b with Some q => q * s | None => 0 end else 0 else 0) fs
          == (if c then s else 0) * link_loss m x (in_inter d) (in_link d)).
    { intros c s. destruct (pick_row m x dirs fs d (fun b => if c then match fl_loss b with Some q => q * s | None => 0 end else 0) F U Hd) as [g [[_ [_ [_ S]]] E]].
      eapply Qeq_trans; [exact E|]. destruct c; [|ring]. rewrite <- S. destruct (fl_loss g); cbn [or_zero]; ring. }
    rewrite !P. destruct (String.eqb (in_from d) r), (String.eqb (in_to d) r); ring.
  Qed.

  Lemma losses_region lf r : (exists q, In (r, q) (region_losses lf dirs fs)) <->
    exists d f, In d dirs /\ In f lf /\ about_link d f = true /\ (in_to d = r \/ in_from d = r).
  Proof.
    unfold region_losses. rewrite group_keys. split.
    - intros [[f e] [H E]]. cbn [snd] in E. apply in_merge in H. destruct H as [_ [H _]]. unfold reported_shares in H. apply in_app_iff in H.
      destruct H as [H|H]; apply in_map_iff in H; destruct H as [[g d] [<- Hd]]; apply in_merge in Hd; destruct Hd as [Hg [Hd Hl]];
        exists d, g; cbn [en_region snd] in E; unfold about_link; rewrite same_link_sym in Hl; unfold same_link in Hl; auto.
    - intros [d [g [Hd [Hg [A E]]]]]. destruct (row_of m x dirs fs F U d Hd) as [f [G _]].
      assert (Hf : In f (filter (of_dir d) fs)) by (rewrite G; now left). apply filter_In in Hf. destruct Hf as [Hf Of].
      pose proof A as A'. unfold about_link in A'. apply same_link_eq in A'. destruct A' as [A1 A2].
      assert (J : In (g, d) (merge (fun f d => same_link (lf_inter f) (lf_link f) (in_inter d) (in_link d)) lf dirs)).
      { apply in_merge. repeat split; auto. rewrite same_link_sym. exact A. }
      destruct E as [E|E]; [exists (f, EndRow (lf_inter g) (lf_link g) (in_to d) (1 - lf_share g))|exists (f, EndRow (lf_inter g) (lf_link g) (in_from d) (lf_share g))];
        (split; [|exact E]); apply in_merge; (split; [exact Hf|]);
        (split; [|unfold at_end; cbn [en_inter en_link]; rewrite <- A1, <- A2; exact Of]); unfold reported_shares; apply in_app_iff;
        [right|left]; apply in_map_iff; exists (g, d); auto.
  Qed.
End Columns.

(** ** The summary *)

Lemma merge_keys {A B} (k1 : A -> string) (k2 : B -> string) l r :
  NoDup (map k1 l) -> NoDup (map k2 r) ->
  NoDup (map (fun p => k1 (fst p)) (merge (fun a b => String.eqb (k1 a) (k2 b)) l r)).
Proof.
  intros N1 N2. induction l as [|a t IH]; [constructor|]. cbn [map] in N1. inversion N1 as [|? ? H1 H2]; subst.
  unfold merge. cbn [flat_map]. rewrite map_app, map_map. cbn [fst].
  assert (L : (length (filter (fun b => String.eqb (k1 a) (k2 b)) r) <= 1)%nat).
  { clear -N2. induction r as [|b s IH]; [cbn; lia|]. cbn [map] in N2. inversion N2 as [|? ? H3 H4]; subst. cbn [filter].
    destruct (String.eqb (k1 a) (k2 b)) eqn:E; [|now apply IH]. cbn [length]. apply String.eqb_eq in E.
    assert (F : filter (fun b => String.eqb (k1 a) (k2 b)) s = []).
    { destruct (filter (fun b => String.eqb (k1 a) (k2 b)) s) as [|c u] eqn:F; [reflexivity|].
      assert (In c (filter (fun b => String.eqb (k1 a) (k2 b)) s)) by (rewrite F; now left).
      apply filter_In in H. destruct H as [H H']. apply String.eqb_eq in H'. exfalso. apply H3. rewrite <- E, H'. now apply in_map. }
    rewrite F. cbn. lia. }
  destruct (filter (fun b => String.eqb (k1 a) (k2 b)) r) as [|b [|b2 u]]; cbn [map app length] in *; [exact (IH H2)| |lia].
  constructor; [|exact (IH H2)]. intros H. apply H1. apply in_map_iff in H. destruct H as [[a' b'] [E H]].
  apply (proj1 (in_merge_p _ _ _ _)) in H. cbn [fst] in E, H. rewrite <- E. apply in_map. tauto.
Qed.

Lemma outer_rows l r a q1 q2 : NoDup (map fst l) -> NoDup (map fst r) -> In (a, q1, q2) (merge_outer_0 l r) ->
  (In (a, q1) l \/ (q1 = 0 /\ ~ exists q, In (a, q) l)) /\ (In (a, q2) r \/ (q2 = 0 /\ ~ exists q, In (a, q) r)).
Proof.
  intros _ _ H. unfold merge_outer_0 in H. apply in_app_iff in H. destruct H as [H|H].
  - apply in_map_iff in H. destruct H as [[[k v] o] [E H]]. cbn [fst snd] in E. injection E as -> -> <-.
    apply in_merge_left in H. cbn [fst snd] in H. destruct H as [H1 H2]. split; [now left|]. destruct o as [[k w]|].
    + destruct H2 as [H2 E]. unfold on_region in E. cbn in E. apply String.eqb_eq in E. subst. now left.
    + right. split; [reflexivity|]. intros [w H]. specialize (H2 _ H). unfold on_region in H2. cbn in H2. now rewrite String.eqb_refl in H2.
  - apply in_map_iff in H. destruct H as [[k v] [E H]]. cbn [fst snd] in E. injection E as -> <- ->.
    apply filter_In in H. destruct H as [H1 H2]. split; [|now left]. right. split; [reflexivity|]. intros [w H].
    apply negb_true_iff in H2. apply Bool.not_true_iff_false in H2. apply H2. apply existsb_exists. exists (a, w). split; [exact H|].
    unfold on_region. cbn. apply String.eqb_refl.
Qed.

Lemma outer_key l r a : (exists q, In (a, q) l) -> exists q1 q2, In (a, q1, q2) (merge_outer_0 l r).
Proof.
  intros [q H]. destruct (existsb (fun b => on_region (a, q) b) r) eqn:E.
  - apply existsb_exists in E. destruct E as [b [Hb E]]. exists q, (snd b). unfold merge_outer_0. apply in_app_iff. left.
    apply in_map_iff. exists ((a, q), Some b). split; [reflexivity|]. apply in_merge_left. cbn [fst snd]. auto.
  - exists q, 0. unfold merge_outer_0. apply in_app_iff. left. apply in_map_iff. exists ((a, q), None). split; [reflexivity|].
    apply in_merge_left. cbn [fst snd]. split; [exact H|]. intros b Hb. destruct (on_region (a, q) b) eqn:F; [|reflexivity].
    assert (existsb (fun b => on_region (a, q) b) r = true) by (apply existsb_exists; eauto). congruence.
Qed.

Lemma outer_NoDup l r : NoDup (map fst l) -> NoDup (map fst r) -> NoDup (map (fun p => fst (fst p)) (merge_outer_0 l r)).
Proof.
  intros N1 N2. unfold merge_outer_0. rewrite map_app, !map_map. cbn [fst].
  assert (U : forall a, In a l -> (length (filter (on_region a) r) <= 1)%nat).
  { intros a _. clear -N2. induction r as [|b s IH]; [cbn; lia|]. cbn [map] in N2. inversion N2 as [|? ? H3 H4]; subst. cbn [filter].
    destruct (on_region a b) eqn:E; [|now apply IH]. cbn [length]. unfold on_region in E. apply String.eqb_eq in E.
    assert (F : filter (on_region a) s = []).
    { destruct (filter (on_region a) s) as [|c u] eqn:F; [reflexivity|].
      assert (In c (filter (on_region a) s)) by (rewrite F; now left).
      apply filter_In in H. destruct H as [H H']. unfold on_region in H'. apply String.eqb_eq in H'. exfalso. apply H3. rewrite <- E, H'. now apply in_map. }
    rewrite F. cbn. lia. }
  rewrite (merge_left_one _ _ _ U), map_map. cbn [fst].
  assert (N3 : NoDup (map fst (filter (fun b => negb (existsb (fun a => on_region a b) l)) r))).
  { clear -N2. induction r as [|b s IH]; [constructor|]. cbn [map] in N2. inversion N2 as [|? ? H3 H4]; subst. cbn [filter].
    destruct (negb _); [|now apply IH]. cbn [map]. constructor; [|now apply IH]. intros H. apply H3. apply in_map_iff in H.
    destruct H as [c [E H]]. rewrite <- E. apply in_map. apply filter_In in H. tauto. }
  apply NoDup_app_iff. split; [exact N1|]. split; [exact N3|]. intros k H1 H2. apply in_map_iff in H1, H2. destruct H1 as [a [E1 H1]], H2 as [b [E2 H2]].
  apply filter_In in H2. destruct H2 as [_ H2]. apply negb_true_iff, Bool.not_true_iff_false in H2. apply H2.
  apply existsb_exists. exists a. split; [exact H1|]. unfold on_region. rewrite E1, E2. apply String.eqb_refl.
Qed.

Lemma no_region_offer m x r s : ~ region_offers m r s -> region_supply m x r s == 0.
Proof.
  intros H. rewrite region_supply_sum. apply sumQ_zero. intros u Hu. apply filter_In in Hu. destruct Hu as [Hu E].
  apply String.eqb_eq in E. rewrite no_offers; [ring|]. intros O. apply H. exists u. auto.
Qed.

Lemma no_end_flow m x dirs r : (~ exists d, In d dirs /\ (in_to d = r \/ in_from d = r)) -> net_flow m x dirs r == 0.
Proof.
  intros H. apply sumQ_zero. intros d Hd. destruct (String.eqb (in_to d) r) eqn:E1; [apply String.eqb_eq in E1; exfalso; eauto|].
  destruct (String.eqb (in_from d) r) eqn:E2; [apply String.eqb_eq in E2; exfalso; eauto|]. ring.
Qed.

Definition columns (m : market) (x : nat -> Q) (dirs : list inter_row) (lf : list lossfn_row) (row : summary_row) : Prop :=
  sm_dispatch row == region_supply m x (sm_region row) "energy"
  /\ or_zero (sm_inflow row) == net_flow m x dirs (sm_region row)
  /\ or_zero (sm_transmission row) == side_losses m x dirs (sm_region row)
  /\ or_zero (sm_losses row) == ends_losses m x dirs lf (sm_region row).

Lemma ends_losses_nil m x dirs r : ends_losses m x dirs [] r == 0.
Proof. apply sumQ_zero. intros d _. reflexivity. Qed.

Lemma summary_rows c dirs lf bps m x rep : network c dirs lf bps m -> region_summary m x = Ok rep ->
  NoDup (map sm_region rep) /\ (forall row, In row rep -> columns m x dirs lf row)
  /\ (forall r, region_offers m r "energy" -> dirs = [] \/ (exists d, In d dirs /\ ends d r) -> lf = [] \/ loses dirs lf r ->
        exists row, In row rep /\ sm_region row = r).
Proof.
  intros N H. pose proof (network_state _ _ _ _ _ N) as St. apply network_inv in N. destruct N as [_ [_ [n [nv T]]]].
  unfold region_summary, bind in H. destruct (net_dispatch m x) as [net|e] eqn:E1; [|discriminate].
  destruct (net_dispatch_rows m x net E1) as [N1 [N2 N3]].
  destruct St as [[-> [-> [D0 S]]]|[Dr St]].
  - rewrite D0 in H. 
    rewrite S in H. injection H as <-. rewrite map_map. cbn [sm_region]. split; [exact N1|]. split.
    + intros row Hr. apply in_map_iff in Hr. destruct Hr as [[r q] [<- Hr]]. destruct (N2 _ _ Hr) as [_ V].
      unfold columns. cbn. repeat split; auto; reflexivity.
    + intros r Ho _ _. destruct (N3 r Ho) as [q Hq]. exists (SummaryRow r q None None None). split; [|reflexivity].
      apply in_map_iff. exists (r, q). auto.
  - rewrite Dr in H. destruct (interconnector_flows m x) as [[b fs]|e] eqn:E2; [|discriminate]. cbn [fst snd] in H.
    destruct (transmission_losses dirs fs) as [tl|e] eqn:E3; [|discriminate].
    pose proof (flows_shown m x dirs lf n nv b fs T E2) as F0.
    assert (F : Forall2 (fun f d => shown f m x d) fs dirs) by (clear -F0; induction F0; constructor; tauto).
    pose proof (nt_links _ _ _ _ _ T) as U.
    set (rows := map (fun p => SummaryRow (fst (fst (fst p))) (snd (fst (fst p))) (Some (snd (fst p))) (Some (snd (snd p))) None)
               (merge (fun (a : string * Q * Q) (b : string * Q) => String.eqb (fst (fst a)) (fst b))
                  (merge_outer_0 net (region_inflow dirs fs)) tl)) in H.
    assert (ND : NoDup (map sm_region rows)).
    { unfold rows. rewrite map_map. cbn [sm_region].
      assert (K : NoDup (map (fun p => (fun a : string * Q * Q => fst (fst a)) (fst p)) (merge (fun (a : string * Q * Q) (b : string * Q) => String.eqb (fst (fst a)) (fst b))
                  (merge_outer_0 net (region_inflow dirs fs)) tl))).
      { apply (merge_keys (fun a : string * Q * Q => fst (fst a)) (@fst string Q)); [apply outer_NoDup; [exact N1|apply group_NoDup, str_ok]|].
        rewrite (transmission_rows dirs fs tl E3). apply group_NoDup, str_ok. }
      exact K. }
    assert (C : forall row, In row rows -> sm_losses row = None /\ sm_dispatch row == region_supply m x (sm_region row) "energy"
        /\ or_zero (sm_inflow row) == net_flow m x dirs (sm_region row)
        /\ or_zero (sm_transmission row) == side_losses m x dirs (sm_region row)).
    { intros row Hr. unfold rows in Hr. apply in_map_iff in Hr. destruct Hr as [[[[r q1] q2] [r' q3]] [<- Hr]].
      apply in_merge in Hr. cbn [fst snd] in *. destruct Hr as [Ho [Ht E]]. apply String.eqb_eq in E. subst r'.
      apply outer_rows in Ho; [|exact N1|apply group_NoDup, str_ok]. destruct Ho as [O1 O2]. cbn. split; [reflexivity|]. split; [|split].
      - destruct O1 as [O1|[-> O1]]; [now apply N2|]. rewrite no_region_offer; [reflexivity|]. intros O. apply O1. now apply N3.
      - destruct O2 as [O2|[-> O2]]; [now apply (inflow_value m x dirs fs F U)|]. rewrite no_end_flow; [reflexivity|].
        rewrite <- (inflow_region m x dirs fs F U). exact O2.
      - now apply (transmission_value m x dirs fs F U tl). }
    assert (A : forall r, region_offers m r "energy" -> (exists d, In d dirs /\ ends d r) -> exists row, In row rows /\ sm_region row = r).
    { intros r Ho He. apply N3 in Ho. apply (outer_key net (region_inflow dirs fs)) in Ho. destruct Ho as [q1 [q2 Ho]].
      apply (transmission_region m x dirs fs F U tl r E3) in He. destruct He as [q3 He].
      exists (SummaryRow r q1 (Some q2) (Some q3) None). split; [|reflexivity]. unfold rows. apply in_map_iff. exists ((r, q1, q2), (r, q3)).
      split; [reflexivity|]. apply in_merge. cbn [fst]. rewrite String.eqb_refl. auto. }
    assert (NE : dirs <> []).
    { intros ->. inversion F; subst. cbn in E3. discriminate. }
    destruct St as [[-> Sh]|[Sh El]]; rewrite Sh in H.
    + injection H as <-. split; [exact ND|]. split.
      * intros row Hr. destruct (C row Hr) as [C0 [C1 [C2 C3]]]. unfold columns. rewrite C0. cbn [or_zero]. rewrite ends_losses_nil. repeat split; auto.
      * intros r Ho [He|He] _; [contradiction|]. now apply A.
    + destruct b; [|discriminate]. injection H as <-. rewrite map_map. cbn [sm_region]. split; [|split].
      * assert (K : NoDup (map (fun p => sm_region (fst p)) (merge (fun r (b : string * Q) => String.eqb (sm_region r) (fst b)) rows (region_losses lf dirs fs)))).
        { apply (merge_keys sm_region (@fst string Q)); [exact ND|apply group_NoDup, str_ok]. }
        exact K.
      * intros row Hr. apply in_map_iff in Hr. destruct Hr as [[row' [r q]] [<- Hr]]. apply in_merge in Hr. cbn [fst snd] in *.
        destruct Hr as [Hr [Hl E]]. apply String.eqb_eq in E. destruct (C row' Hr) as [_ [C1 [C2 C3]]]. unfold columns. cbn. subst r.
        repeat split; auto. now apply (losses_value m x dirs fs F U).
      * intros r Ho [He|He] [Hl|Hl]; try contradiction; destruct (A r Ho He) as [row [Hr Er]].
        apply (losses_region m x dirs fs F U lf r) in Hl. destruct Hl as [q Hq].
        exists (SummaryRow (sm_region row) (sm_dispatch row) (sm_inflow row) (sm_transmission row) (Some q)). split; [|exact Er].
        apply in_map_iff. exists (row, (r, q)). split; [reflexivity|]. apply in_merge. cbn [fst]. rewrite Er, String.eqb_refl. auto.
Qed.

Lemma ends_losses_spec m x dirs lf r : (forall d, In d dirs -> in_from d <> in_to d) -> ends_losses m x dirs lf r == losses m x dirs lf r.
Proof.
  intros NL. unfold ends_losses, losses.
  apply (sumQ_ext_in _ (fun d => sumQ (fun f => loss_charge d f r * link_loss m x (in_inter d) (in_link d)) (filter (about_link d) lf))).
  intros d Hd. apply sumQ_ext. intros f. unfold loss_charge.
  destruct (String.eqb (in_from d) r) eqn:E1, (String.eqb (in_to d) r) eqn:E2; try ring.
  apply String.eqb_eq in E1, E2. exfalso. apply (NL d Hd). congruence.
Qed.

Lemma to_side f lf : ~ lf == 0 -> f - side_loss true f lf ==
  lf * f + (if Qle_bool 0 f then 0 else (1 - lf) * (1 - lf) / lf * Qabs f).
Proof.
  intros L. unfold side_loss. cbn [negb andb orb]. rewrite orb_false_r. destruct (Qle_bool 0 f) eqn:E; [ring|].
  assert (N : f <= 0). { destruct (Qlt_le_dec 0 f) as [G|G]; [|exact G]. apply Qlt_le_weak, Qle_bool_iff in G. congruence. }
  rewrite (Qabs_neg f N). field. exact L.
Qed.
Lemma from_side f lf : ~ lf == 0 -> - f - side_loss false f lf ==
  - (lf * f) + (if Qle_bool f 0 then 2 * (1 - lf) * Qabs f else (1 - lf) * (1 - lf) / lf * Qabs f).
Proof.
  intros L. unfold side_loss. cbn [negb andb orb]. destruct (Qle_bool f 0) eqn:E.
  - apply Qle_bool_iff in E. rewrite (Qabs_neg f E). ring.
  - assert (N : 0 <= f). { destruct (Qlt_le_dec f 0) as [G|G]; [|exact G]. apply Qlt_le_weak, Qle_bool_iff in G. congruence. }
    rewrite (Qabs_pos f N). field. exact L.
Qed.

Lemma out_by m x dirs r : live_factors dirs r ->
  net_flow m x dirs r - side_losses m x dirs r
  == inflow m x dirs r + sumQ (fun d => distortion d r (link_flow m x (in_inter d) (in_link d))) dirs.
Proof.
  intros L. unfold net_flow, side_losses.
  change (inflow m x dirs r) with (sumQ (fun d => flow_effect d r (link_flow m x (in_inter d) (in_link d))) dirs).
  rewrite <- sumQ_sub, <- sumQ_plus. apply sumQ_ext_in. intros d Hd. destruct (L d Hd) as [L1 L2].
  set (f := link_flow m x (in_inter d) (in_link d)). unfold flow_effect, distortion.
  destruct (String.eqb (in_to d) r) eqn:E1, (String.eqb (in_from d) r) eqn:E2; try apply String.eqb_eq in E1; try apply String.eqb_eq in E2.
  - pose proof (to_side f _ (L2 E1)) as T. pose proof (from_side f _ (L1 E2)) as G. lra.
  - pose proof (to_side f _ (L2 E1)) as T. lra.
  - pose proof (from_side f _ (L1 E2)) as G. lra.
  - lra.
Qed.

Lemma unit_factor g lf : lf == 1 -> (1 - lf) * (1 - lf) / lf * g == 0.
Proof. intros E. rewrite E. unfold Qdiv. ring. Qed.
Lemma plain_from f lf : lf == 1 \/ f == 0 ->
  (if Qle_bool f 0 then 2 * (1 - lf) * Qabs f else (1 - lf) * (1 - lf) / lf * Qabs f) == 0.
Proof.
  intros [E|E].
  - destruct (Qle_bool f 0); [rewrite E; ring|now apply unit_factor].
  - assert (A : Qabs f == 0) by (rewrite E; reflexivity). destruct (Qle_bool f 0); rewrite A; ring.
Qed.
Lemma plain_to f lf : lf == 1 \/ 0 <= f -> (if Qle_bool 0 f then 0 else (1 - lf) * (1 - lf) / lf * Qabs f) == 0.
Proof.
  intros [E|E]; [destruct (Qle_bool 0 f); [reflexivity|now apply unit_factor]|]. apply Qle_bool_iff in E. now rewrite E.
Qed.
Lemma plain_zero d r f : plain_end d r f -> distortion d r f == 0.
Proof.
  intros [P1 P2]. unfold distortion. destruct (String.eqb (in_to d) r) eqn:E1, (String.eqb (in_from d) r) eqn:E2;
    try apply String.eqb_eq in E1; try apply String.eqb_eq in E2; try specialize (P1 E2); try specialize (P2 E1);
    rewrite ?plain_from, ?plain_to by assumption; ring.
Qed.

Lemma summary_total c l dirs lf bps m x rep : in_force c (OpDemand l None) m -> network c dirs lf bps m ->
  (forall d, In d dirs -> in_from d <> in_to d) -> solution m x -> region_summary m x = Ok rep ->
  forall d row, In d l -> In row rep -> sm_region row = de_region d -> live_factors dirs (de_region d) ->
  supplied m dirs (de_region d) ->
  row_total row == de_demand d + qsum (map (fun e => distortion e (de_region d) (link_flow m x (in_inter e) (in_link e))) dirs).
Proof.
  intros I N NL S R d row Hd Hr E L Su. pose proof (balance_respected c l dirs lf bps m x I N NL S d Hd Su) as B.
  destruct (summary_rows c dirs lf bps m x rep N R) as [_ [C _]]. destruct (C row Hr) as [C1 [C2 [C3 C4]]]. rewrite E in *.
  rewrite (ends_losses_spec m x dirs lf (de_region d) NL) in C4. unfold row_total. rewrite C1, C2, C3, C4.
  pose proof (out_by m x dirs (de_region d) L) as O. unfold energy_balance in B.
  change (qsum (map (fun e => distortion e (de_region d) (link_flow m x (in_inter e) (in_link e))) dirs))
    with (sumQ (fun e => distortion e (de_region d) (link_flow m x (in_inter e) (in_link e))) dirs). lra.
Qed.

(** Every row of the summary is about a region that some variable supplies. *)
Lemma summary_supplied c dirs lf bps m x rep : network c dirs lf bps m -> region_summary m x = Ok rep ->
  forall row, In row rep -> supplied m dirs (sm_region row).
Proof.
  intros N H. pose proof (network_state _ _ _ _ _ N) as St. apply network_inv in N. destruct N as [_ [_ [n [nv T]]]].
  unfold region_summary, bind in H. destruct (net_dispatch m x) as [net|e] eqn:E1; [|discriminate].
  destruct (net_dispatch_rows m x net E1) as [N1 [N2 N3]].
  destruct St as [[-> [-> [D0 S]]]|[Dr St]].
  - rewrite D0, S in H. injection H as <-. intros row Hr. apply in_map_iff in Hr. destruct Hr as [[r q] [<- Hr]].
    left. cbn [sm_region fst]. now apply (N2 r q).
  - rewrite Dr in H. destruct (interconnector_flows m x) as [[b fs]|e] eqn:E2; [|discriminate]. cbn [fst snd] in H.
    destruct (transmission_losses dirs fs) as [tl|e] eqn:E3; [|discriminate].
    pose proof (flows_shown m x dirs lf n nv b fs T E2) as F0.
    assert (F : Forall2 (fun f d => shown f m x d) fs dirs) by (clear -F0; induction F0; constructor; tauto).
    pose proof (nt_links _ _ _ _ _ T) as U.
    set (rows := map _ _) in H.
    assert (A : forall row, In row rows -> supplied m dirs (sm_region row)).
    { intros row Hr. unfold rows in Hr. apply in_map_iff in Hr. destruct Hr as [[[[r q1] q2] [r' q3]] [<- Hr]].
      apply in_merge in Hr. cbn [fst snd] in *. destruct Hr as [Ho [Ht E]]. apply String.eqb_eq in E. subst r'.
      right. apply (transmission_region m x dirs fs F U tl r E3). eauto. }
    destruct (m_shares m) as [ls|]; [|injection H as <-; exact A].
    destruct b; [|discriminate]. injection H as <-. intros row Hr. apply in_map_iff in Hr. destruct Hr as [[row' [r q]] [<- Hr]].
    apply in_merge in Hr. cbn [fst snd sm_region] in *. now apply A.
Qed.

Lemma summary_balances c l dirs lf bps m x rep : in_force c (OpDemand l None) m -> network c dirs lf bps m ->
  (forall d, In d dirs -> in_from d <> in_to d) -> solution m x -> region_summary m x = Ok rep ->
  forall d row, In d l -> In row rep -> sm_region row = de_region d -> live_factors dirs (de_region d) ->
  (forall e, In e dirs -> plain_end e (de_region d) (link_flow m x (in_inter e) (in_link e))) ->
  row_total row == de_demand d.
Proof.
  intros I N NL S R d row Hd Hr E L P. rewrite (summary_total c l dirs lf bps m x rep I N NL S R d row Hd Hr E L).
  - change (qsum (map (fun e => distortion e (de_region d) (link_flow m x (in_inter e) (in_link e))) dirs))
      with (sumQ (fun e => distortion e (de_region d) (link_flow m x (in_inter e) (in_link e))) dirs).
    rewrite sumQ_zero; [ring|]. intros e He. apply plain_zero. now apply P.
  - rewrite <- E. now apply (summary_supplied c dirs lf bps m x rep).
Qed.

(** ** Flows and losses reported per link *)
Lemma flow_report c dirs lf bps m x b fs : network c dirs lf bps m -> interconnector_flows m x = Ok (b, fs) ->
  Forall2 (fun f d => fl_inter f = in_inter d /\ fl_link f = in_link d
     /\ fl_flow f == link_flow m x (in_inter d) (in_link d)
     /\ (forall g, In g lf -> about_link d g = true -> exists q, fl_loss f = Some q /\ q == link_loss m x (in_inter d) (in_link d))) fs dirs.
Proof.
  intros N E. apply network_inv in N. destruct N as [_ [_ [n [nv T]]]].
  pose proof (flows_shown m x dirs lf n nv b fs T E) as F. clear T E.
  induction F as [|f d fs dirs [[F1 [F2 [F3 F4]]] F5] F IH]; constructor; auto.
  repeat split; auto. intros g Hg A. specialize (F5 g Hg A). destruct (fl_loss f) as [q|]; [|contradiction]. exists q. auto.
Qed.
