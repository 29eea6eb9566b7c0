(** Histories with losses: the problem, seen without its interpolation weights, is
    just the rules of the calls. *)

From Coq Require Import QArith Qabs Qminmax Lqa String List Bool Arith Lia ZArith Permutation Sorted.
Import ListNotations.
From Verif Require Import PandasModel TablesModel VariableIdsModel MarketConstraintsModel
  UnitConstraintsModel RampModel FcasModel InterModel ElasticModel MarketModel SolverModel
  SpecLp SpecHistory SpecIds SpecDispatch SpecRamp SpecFastStart SpecNetwork SpecElastic SpecOrder SpecReplace SpecExact SpecSoft SpecMixed SpecLosses PandasFacts StepFacts InvariantFacts OwnerFacts SolverFacts
  MeaningFacts LimitFacts TableFacts BidFacts JointRampFacts BalanceFacts LossFacts GenericFacts ExactFacts SoftFacts BookFacts MixedFacts WeightApartFacts LossExactFacts LossWeightFacts.
Open Scope string_scope.
Open Scope list_scope.

(** ** The rules do not mention the weights *)
Section Agree.
Variables (ops : list op) (m : market) (x y : assignment).
Hypothesis Gb : forall v, In v (rows_or_nil (m_bids m)) -> y (bv_id v) == x (bv_id v).
Hypothesis Gi : forall v, In v (rows_or_nil (m_inter m)) -> y (iv_id v) == x (iv_id v).
Hypothesis Gl : forall v, In v (rows_or_nil (m_loss m)) -> y (lv_id v) == x (lv_id v).

Lemma dispatch_agree u s d : dispatch m y u s d == dispatch m x u s d.
Proof. rewrite !dispatch_sum. apply sumQ_ext_in. intros v Hv. apply filter_In in Hv. now apply Gb. Qed.
Lemma band_agree u s d b : band_dispatch m y u s d b == band_dispatch m x u s d b.
Proof. rewrite !band_dispatch_sum. apply sumQ_ext_in. intros v Hv. apply filter_In in Hv. now apply Gb. Qed.
Lemma flow_agree i l : link_flow m y i l == link_flow m x i l.
Proof. rewrite !link_flow_sum. apply sumQ_ext_in. intros v Hv. apply filter_In in Hv. now apply Gi. Qed.
Lemma loss_agree i l : link_loss m y i l == link_loss m x i l.
Proof. rewrite !link_loss_sum. apply sumQ_ext_in. intros v Hv. apply filter_In in Hv. now apply Gl. Qed.
Lemma inter_flow_agree i : interconnector_flow m y i == interconnector_flow m x i.
Proof.
  unfold interconnector_flow. change (qsum (map ?f ?l)) with (sumQ f l). apply sumQ_ext_in. intros v Hv. apply filter_In in Hv.
  now rewrite Gi.
Qed.
Lemma region_supply_agree r s : region_supply m y r s == region_supply m x r s.
Proof. unfold region_supply. change (qsum (map ?f ?l)) with (sumQ f l). apply sumQ_ext. intros u. now rewrite dispatch_agree. Qed.
Lemma region_dispatch_agree r s : region_dispatch m y r s == region_dispatch m x r s.
Proof. unfold region_dispatch. change (qsum (map ?f ?l)) with (sumQ f l). apply sumQ_ext. intros u. now rewrite dispatch_agree. Qed.
Lemma unit_output_agree u s : unit_output m y u s == unit_output m x u s.
Proof.
  unfold unit_output. pose proof (dispatch_agree u s "generator") as G. pose proof (dispatch_agree u s "load") as L.
  destruct (_ && _ && _), (has_side (m_cfg m) u "generator"), (has_side (m_cfg m) u "load"); rewrite ?G, ?L; reflexivity.
Qed.
Lemma balance_agree r : energy_balance m y (directions ops) (loss_functions ops) r == energy_balance m x (directions ops) (loss_functions ops) r.
Proof.
  unfold energy_balance. rewrite region_supply_agree. unfold inflow, losses. change (qsum (map ?f ?l)) with (sumQ f l).
  rewrite (sumQ_ext _ (fun d => flow_effect d r (link_flow m x (in_inter d) (in_link d)))).
  - rewrite (sumQ_ext (fun d => qsum (map (fun f => loss_charge d f r * link_loss m y (in_inter d) (in_link d)) (filter (about_link d) (loss_functions ops))))
      (fun d => qsum (map (fun f => loss_charge d f r * link_loss m x (in_inter d) (in_link d)) (filter (about_link d) (loss_functions ops))))); [reflexivity|].
    intros d. change (qsum (map ?f ?l)) with (sumQ f l). apply sumQ_ext. intros f. now rewrite loss_agree.
  - intros d. unfold flow_effect. destruct (String.eqb (in_to d) r), (String.eqb (in_from d) r); rewrite ?flow_agree; reflexivity.
Qed.
Lemma linked_agree gu gr gi s : linked m y gu gr gi s == linked m x gu gr gi s.
Proof.
  unfold linked. change (qsum (map ?f ?l)) with (sumQ f l).
  apply Qplus_comp; [apply Qplus_comp|]; apply sumQ_ext; intros g.
  - now rewrite unit_output_agree.
  - now rewrite region_dispatch_agree.
  - now rewrite inter_flow_agree.
Qed.
Lemma set_supply_agree l s : set_supply m y l s == set_supply m x l s.
Proof. unfold set_supply. change (qsum (map ?f ?l)) with (sumQ f l). apply sumQ_ext. intros r. apply region_supply_agree. Qed.

Lemma interpolates_agree p1 q1 p2 q2 a b a' b' : a == a' -> b == b' -> interpolates p1 q1 p2 q2 a b -> interpolates p1 q1 p2 q2 a' b'.
Proof. clear. intros E F. unfold interpolates. now rewrite E, F. Qed.

Lemma obeys_agree o : obeys ops m x o -> obeys ops m y o.
Proof.
  intros Ob. destruct o; cbn [obeys] in *; auto.
  - intros r b Hr Hb. rewrite !band_agree. now apply Ob.
  - intros r Hr L. rewrite dispatch_agree. now apply Ob.
  - intros r Hr L. rewrite dispatch_agree. now apply Ob.
  - destruct Ob as [O1 O2]. split.
    + intros r Hr N L. destruct (O1 r Hr N L) as [up [down [U [D [L1 L2]]]]]. exists up, down. split; [exact U|]. split; [exact D|].
      rewrite !dispatch_agree. now split.
    + intros g ld T L. destruct (O2 g ld T L) as [top [bot [up [down [A1 [A2 [A3 [A4 L1]]]]]]]]. exists top, bot, up, down.
      split; [exact A1|]. split; [exact A2|]. split; [exact A3|]. split; [exact A4|]. unfold net_energy in *. rewrite !dispatch_agree. exact L1.
  - intros f d Hf L. specialize (Ob f d Hf L). revert Ob. unfold follows_profile. cbv zeta. now rewrite dispatch_agree.
  - intros d Hd L. rewrite balance_agree. now apply Ob.
  - intros pre b post El Fr L. apply (relation_iff _ _ _ _ _ (Qplus_comp _ _ (set_supply_agree _ _) _ _ (linked_agree _ _ _ _)) (Qeq_refl _)).
    now apply (Ob pre b post).
  - intros r Hr L. rewrite dispatch_agree. now apply Ob.
  - destruct Ob as [Oo Ob]. split.
    + intros r d Hr N. destruct (Oo r d Hr N) as [O1 O2]. split; intros L.
      * specialize (O1 L). destruct (String.eqb d "generator"); rewrite !dispatch_agree; exact O1.
      * specialize (O2 L). destruct (String.eqb d "generator"); rewrite !dispatch_agree; exact O2.
    + intros r Hr T. destruct (Ob r Hr T) as [O1 O2]. unfold net_energy in *. split; intros L; rewrite !dispatch_agree; auto.
  - intros t Ht. destruct (Ob t Ht) as [O1 O2]. split; intros L; rewrite !dispatch_agree; auto.
  - intros t Ht L. destruct (Ob t Ht L) as [O1 O2]. rewrite !dispatch_agree. now split.
  - destruct Ob as [O1 O2]. split.
    + intros d Hd. rewrite !flow_agree. now apply O1.
    + intros a b Ha Hb E D Na Nb. rewrite !flow_agree. now apply O2.
  - intros d f Hd Hf E. destruct (Ob d f Hd Hf E) as [O1 [a [b [Ad In]]]]. split; [now rewrite loss_agree|].
    exists a, b. split; [exact Ad|]. apply (interpolates_agree _ _ _ _ _ _ _ _ (Qeq_sym _ _ (flow_agree _ _)) (Qeq_sym _ _ (loss_agree _ _)) In).
  - intros g Hg L. apply (relation_iff _ _ _ _ _ (linked_agree _ _ _ _) (Qeq_refl _)). now apply Ob.
Qed.
End Agree.

Lemma carries_ext ws d f q e q' e' y y' : q == q' -> e == e' -> (forall w, In w (filter (of_link d) ws) -> y (wv_id w) == y' (wv_id w)) ->
  carries ws d f q e y -> carries ws d f q' e' y'.
Proof.
  intros Eq Ee G [C1 [C2 [C3 [C4 C5]]]]. unfold carries. cbv zeta. split; [|split; [|split; [|split]]].
  - intros w Hw. rewrite <- (G w Hw). now apply C1.
  - rewrite <- C2. apply sumQ_ext_in. intros w Hw. symmetry. now apply G.
  - rewrite <- Eq, <- C3. apply sumQ_ext_in. intros w Hw. now rewrite (G w Hw).
  - rewrite <- Ee, <- C4. apply sumQ_ext_in. intros w Hw. now rewrite (G w Hw).
  - assert (G' : forall i, In i (map wv_id (sort_rows by_seg (filter (of_link d) ws))) -> y i == y' i).
    { intros i Hi. apply in_map_iff in Hi. destruct Hi as [w [<- Hw]]. apply G. now apply (Permutation_in _ (Permutation_sym (sort_rows_perm by_seg _))). }
    intros i j a b Hij Ha Hb Na Nb. apply (C5 i j a b Hij Ha Hb).
    + rewrite (G' a); [exact Na|now apply nth_error_In in Ha].
    + rewrite (G' b); [exact Nb|now apply nth_error_In in Hb].
Qed.

(** ** Choosing the weights *)
Section Choose.
Variables (dirs : list inter_row) (bps : list bp_row) (nw : nat) (flow loss : string -> string -> Q).
Hypothesis UB : ForallOrdPairs (fun a b => same_link (bp_inter a) (bp_link a) (bp_inter b) (bp_link b)
                             && Z.eqb (bp_seg a) (bp_seg b) = false) bps.
Hypothesis UD : unique_links dirs.
Let ws := weight_variables bps nw.

Lemma link_of d f : about_link d f = true -> in_inter d = lf_inter f /\ in_link d = lf_link f.
Proof. clear. unfold about_link. rewrite andb_true_iff, !String.eqb_eq. auto. Qed.

Lemma one_direction d d' f : In d dirs -> In d' dirs -> about_link d f = true -> about_link d' f = true -> d = d'.
Proof.
  intros Hd Hd' E E'. apply link_of in E, E'. destruct E as [E1 E2], E' as [F1 F2]. revert Hd Hd'. unfold unique_links in UD. clear -UD E1 E2 F1 F2.
  induction UD as [|a l F U IH]; intros Hd Hd'; [destruct Hd|]. rewrite Forall_forall in F.
  destruct Hd as [<-|Hd], Hd' as [<-|Hd']; auto.
  - specialize (F _ Hd'). exfalso. apply not_true_iff_false in F. apply F. apply same_link_eq. split; congruence.
  - specialize (F _ Hd). exfalso. apply not_true_iff_false in F. apply F. apply same_link_eq. split; congruence.
Qed.

Definition carried_by (lf : list lossfn_row) (y : assignment) : Prop := forall d f, In d dirs -> In f lf -> about_link d f = true ->
  carries ws d f (flow (in_inter d) (in_link d)) (loss (in_inter d) (in_link d)) y.

Lemma choose_weights lf x : unique_losses lf ->
  (forall d f, In d dirs -> In f lf -> about_link d f = true -> rising d bps
     /\ exists a b, adjacent d bps a b
          /\ interpolates (bp_point a) (lf_fun f (bp_point a)) (bp_point b) (lf_fun f (bp_point b))
               (flow (in_inter d) (in_link d)) (loss (in_inter d) (in_link d))) ->
  exists y, (forall i, (forall w, In w ws -> wv_id w <> i) -> y i == x i) /\ carried_by lf y.
Proof.
  intros UL. unfold unique_losses in UL. induction UL as [|f lf Ff UL IH]; intros H.
  - exists x. split; [reflexivity|]. intros d f _ [].
  - destruct IH as [y [Sy Cy]]; [intros d f' Hd Hf; apply H; [exact Hd|now right]|]. rewrite Forall_forall in Ff.
    destruct (existsb (fun d => about_link d f) dirs) eqn:Ex.
    + apply existsb_exists in Ex. destruct Ex as [d [Hd Ed]].
      destruct (H d f Hd (or_introl eq_refl) Ed) as [Ri [a [b [Ad In_]]]].
      assert (Lt : bp_point a < bp_point b) by (destruct Ad as [Ia [Ib [La [Lb [Ls _]]]]]; now apply Ri).
      destruct (interpolate_carries bps nw d f UB _ _ a b Ad Lt In_) as [h Hh].
      set (ids := map wv_id (filter (of_link d) ws)).
      exists (fun i => if existsb (Nat.eqb i) ids then h i else y i). split.
      * intros i Ni. destruct (existsb (Nat.eqb i) ids) eqn:E; [|now apply Sy]. exfalso.
        apply existsb_exists in E. destruct E as [j [Hj Ej]]. apply Nat.eqb_eq in Ej. subst j. apply in_map_iff in Hj. destruct Hj as [w [Ew Hw]].
        apply filter_In in Hw. now apply (Ni w).
      * intros d' f' Hd' [<-|Hf'] Ed'.
        { rewrite (one_direction d' d f Hd' Hd Ed' Ed). apply Hh. intros w Hw.
          replace (existsb (Nat.eqb (wv_id w)) ids) with true; [reflexivity|]. symmetry. apply existsb_exists. exists (wv_id w).
          split; [|apply Nat.eqb_refl]. unfold ids. now apply in_map. }
        { specialize (Cy d' f' Hd' Hf' Ed'). refine (carries_ext _ _ _ _ _ _ _ _ _ (Qeq_refl _) (Qeq_refl _) _ Cy). intros w Hw.
          destruct (existsb (Nat.eqb (wv_id w)) ids) eqn:E; [|reflexivity]. exfalso.
          apply existsb_exists in E. destruct E as [j [Hj Ej]]. apply Nat.eqb_eq in Ej. subst j. apply in_map_iff in Hj. destruct Hj as [w' [Ew Hw']].
          apply filter_In in Hw, Hw'. destruct Hw as [Hw Lw], Hw' as [Hw' Lw'].
          assert (w' = w) by (apply (NoDup_map_inj wv_id ws); auto; apply ws_ids). subst w'.
          unfold of_link in Lw, Lw'. apply same_link_eq in Lw, Lw'. apply link_of in Ed, Ed'.
          specialize (Ff f' Hf'). apply not_true_iff_false in Ff. apply Ff. apply same_link_eq. intuition congruence. }
    + exists y. split; [exact Sy|]. intros d' f' Hd' [<-|Hf'] Ed'; [|now apply Cy].
      exfalso. apply not_true_iff_false in Ex. apply Ex. apply existsb_exists. now exists d'.
Qed.
End Choose.

(** ** Histories *)
Lemma no_shares vs nv : loss_variables vs [] nv = [].
Proof.
  destruct (loss_variables vs [] nv) as [|a l] eqn:E; [reflexivity|exfalso]. assert (H : In a (a :: l)) by now left.
  rewrite <- E in H. unfold loss_variables, loss_rows in H. apply in_map_iff in H. destruct H as [[p q] [_ H]]. apply in_merge in H. apply H.
Qed.
Lemma some_loss_function a b m : snd (step (OpLosses a b) m) = None -> exists f, In f a.
Proof.
  intros Ac. destruct a as [|f a]; [exfalso|exists f; now left]. cbn [step] in Ac. unfold set_losses, guard in Ac.
  destruct (check_losses [] b); [discriminate Ac|]. revert Ac. fields. intros Ac.
  destruct (m_directions m) as [dirs|]; [|discriminate Ac]. destruct (m_inter m) as [vs|]; [|discriminate Ac].
  destruct (m_reg_inter m) as [im|]; [|discriminate Ac].
  change (loss_shares [] dirs) with (@nil (lossfn_row * string)) in Ac. rewrite no_shares in Ac. discriminate Ac.
Qed.

Section Losses.
Variables (c : config) (m0 : market) (ops : list op) (p : problem) (ss : list soft).
Hypothesis H0 : new_market c = Ok m0.
Hypothesis Hs : sane ops m0.
Hypothesis Ha : accepted ops m0.
Hypothesis H1 : one_each (settings ops).
Hypothesis Hp : forall o, In o ops -> cost_arg o = None -> in_scope_losses c ops o.
Hypothesis Hw : forall v, ~ In (OpElastic "interpolation_weights" v) ops.
Let m := run ops m0.
Hypothesis So : all_softened c m ss.
Hypothesis Sg : soft_groups ops m ss.
Hypothesis To : together ops m.
Hypothesis A : assemble m = Ok p.

Lemma losses_hard a b : In (OpLosses a b) ops -> hard ops (OpLosses a b).
Proof.
  intros Ho k o' Hk Ho' Hk'. destruct (cost_arg o') as [v|] eqn:E; [exfalso|reflexivity].
  assert (Ne : forall v', o' <> OpElastic k v').
  { intros v' ->. cbn in Hk. destruct Hk as [<-|[<-|[]]]; [exact (Hw _ Ho')|].
    refine (no_elastic c m0 ops H0 Hs Ha H1 Hp "losses" v' _ Ho'). cbn. auto 10. }
  cbn in Hk. destruct o'; cbn in Hk', E; try discriminate E;
    try (destruct Hk' as [->|[]]; exact (Ne _ eq_refl)); destruct Hk as [<-|[<-|[]]]; intuition discriminate.
Qed.

Lemma plain_agree x y : same_but_weights m x y ->
  (forall v, In v (rows_or_nil (m_bids m)) -> y (bv_id v) == x (bv_id v))
  /\ (forall v, In v (rows_or_nil (m_inter m)) -> y (iv_id v) == x (iv_id v))
  /\ (forall v, In v (rows_or_nil (m_loss m)) -> y (lv_id v) == x (lv_id v)).
Proof.
  intros S. destruct (reached_owned c m (hist_reached c m0 ops H0 Hs)) as [[W _] _].
  pose proof (wf_vars_NoDup m W) as ND. unfold all_vars in ND. rewrite !map_app in ND.
  unfold bid_pvars, inter_pvars, loss_pvars, weight_pvars in ND. rewrite !map_map in ND. cbn [pv_id] in ND.
  split; [|split]; intros v Hv; apply S; intros w Hww E.
  - apply (NoDup_app_disjoint _ _ (bv_id v) ND); [now apply (in_map bv_id)|]. rewrite <- E.
    apply in_or_app. right. apply in_or_app. right. apply in_or_app. left. now apply (in_map wv_id).
  - apply NoDup_app_iff in ND. destruct ND as [_ [ND _]]. apply (NoDup_app_disjoint _ _ (iv_id v) ND); [now apply (in_map iv_id)|]. rewrite <- E.
    apply in_or_app. right. apply in_or_app. left. now apply (in_map wv_id).
  - apply NoDup_app_iff in ND. destruct ND as [_ [ND _]]. apply NoDup_app_iff in ND. destruct ND as [_ [ND _]].
    apply (NoDup_app_disjoint _ _ (lv_id v) ND); [now apply (in_map lv_id)|]. rewrite <- E.
    apply in_or_app. left. now apply (in_map wv_id).
Qed.
Lemma same_sym x y : same_but_weights m x y -> same_but_weights m y x.
Proof. intros S i Hi. symmetry. now apply S. Qed.
Lemma rules_agree x y o : same_but_weights m x y -> obeys ops m x o -> obeys ops m y o.
Proof. intros S. destruct (plain_agree x y S) as [B [I L]]. now apply obeys_agree. Qed.

Lemma plain_losses : lossy ops = false -> forall o, In o ops -> cost_arg o = None -> in_scope c ops o.
Proof.
  intros Z o Ho N. specialize (Hp o Ho N). destruct o; try exact Hp. exfalso. exact (lossy_out ops Z _ _ Ho).
Qed.

(** What the tables of losses are once a call set them. *)
Lemma loss_state a b : In (OpLosses a b) ops ->
  owned m /\ unit_map_keys m /\ (exists n nv q, network_tables (directions ops) a n nv m /\ loss_tables (directions ops) a b n nv q m)
  /\ ForallOrdPairs (fun a b => same_link (bp_inter a) (bp_link a) (bp_inter b) (bp_link b) && Z.eqb (bp_seg a) (bp_seg b) = false) b.
Proof.
  intros Ho. pose proof (table_network c m0 ops H0 Hs Ha H1 Hp Hw) as N. fold m in N.
  destruct (loss_tables_given ops H1 a b Ho) as [E1 E2]. rewrite E1, E2 in N.
  pose proof Ho as Hs'. apply in_split in Hs'. destruct Hs' as [pre [post E]].
  assert (Ac : snd (step (OpLosses a b) (run pre m0)) = None) by (apply (accepted_at _ _ post); rewrite <- E; exact Ha).
  destruct (some_loss_function a b _ Ac) as [f Hf]. destruct (loss_inv _ _ _ _ _ f N Hf) as [O [U T]].
  split; [exact O|]. split; [exact U|]. split; [exact T|]. exact (network_bps _ _ _ _ _ f N Hf).
Qed.

Lemma rows_all a b n nv q x : loss_tables (directions ops) a b n nv q m -> (loss_ok m0 ops x <-> all_rows_ok m q x).
Proof.
  intros T. unfold loss_ok, loss_rows_ok, all_rows_ok, weight_rows, wrows. fold m.
  rewrite (lt_rhs _ _ _ _ _ _ _ T), (lt_dyn _ _ _ _ _ _ _ T). reflexivity.
Qed.

Lemma losses_exact x : (exists y, same_but_weights m x y /\ hard_feasible p m ss y) <-> obeys_hard ops m x.
Proof.
  assert (R : forall y, hard_feasible p m ss y <-> obeys_rest m0 ops y /\ loss_ok m0 ops y)
    by (intros y; exact (losses_region c m0 ops H0 Hs Ha H1 Hp Hw y ss p So Sg To A)).
  destruct (lossy ops) eqn:Z.
  2:{ pose proof (plain_losses Z) as Hp'. split.
      - intros [y [S F]]. apply (mixed_region c m0 ops H0 Hs Ha H1 Hp' y ss p So Sg To A) in F.
        intros o Ho Hd. apply (rules_agree y x o (same_sym x y S)). now apply F.
      - intros F. exists x. split; [intros i _; reflexivity|]. now apply (mixed_region c m0 ops H0 Hs Ha H1 Hp' x ss p So Sg To A). }
  destruct (lossy_in ops Z) as [a [b Ho]]. destruct (loss_state a b Ho) as [O [U [[n [nv [q [NT T]]]] UB]]].
  destruct (Hp _ Ho eq_refl) as [B1 B2].
  assert (B2' : forall d f, In d (directions ops) -> In f a -> about_link d f = true -> exists b0, In b0 b /\ at_link d b0 = true).
  { intros d f Hd Hf Ed. destruct (B2 d f Hd Hf Ed) as [_ [b1 [_ [Hb1 [_ [L1 _]]]]]]. eauto. }
  assert (CI : forall y, loss_ok m0 ops y <-> all_carried m (directions ops) a q y).
  { intros y. rewrite (rows_all a b n nv q y T). apply (carried_iff m (directions ops) a b n nv q O U NT T B1 B2'). }
  split.
  - intros [y [S F]]. apply R in F. destruct F as [Or Lo]. apply CI in Lo. intros o Ho' Hd. apply (rules_agree y x o (same_sym x y S)).
    destruct (is_losses o) eqn:Il; [|now apply Or]. destruct o as [| | | | | | | | | | | | | |lf bps| | | | | | ]; try discriminate Il.
    destruct (loss_tables_given ops H1 lf bps Ho') as [E1 E2]. destruct (loss_tables_given ops H1 a b Ho) as [E1' E2'].
    rewrite E1 in E1'. rewrite E2 in E2'. subst a b. clear E1 E2. cbn [obeys].
    intros d f Hdd Hf Ed. destruct (Lo d f Hdd Hf Ed) as [Bd Cr]. split; [exact Bd|]. destruct (B2 d f Hdd Hf Ed) as [Ri Two].
    rewrite (lt_ws _ _ _ _ _ _ _ T) in Cr. exact (carries_interpolate bps (lp_nv q) d f UB _ _ y Cr Two Ri).
  - intros Ob. pose proof (Ob _ Ho (losses_hard a b Ho)) as Ol. cbn [obeys] in Ol.
    destruct (choose_weights (directions ops) b (lp_nv q) (link_flow m x) (link_loss m x) UB (nt_links _ _ _ _ _ NT) a x (nt_lf _ _ _ _ _ NT)) as [y [Sy Cy]].
    { intros d f Hd Hf Ed. split; [apply (B2 d f Hd Hf Ed)|apply (Ol d f Hd Hf Ed)]. }
    assert (S : same_but_weights m x y).
    { intros i Hi. apply Sy. intros w Hww. apply Hi. rewrite (lt_weights _ _ _ _ _ _ _ T). cbn [rows_or_nil]. now rewrite (lt_ws _ _ _ _ _ _ _ T). }
    exists y. split; [exact S|]. apply R. split.
    + intros o Ho' Hd _. apply (rules_agree x y o S). now apply Ob.
    + apply CI. intros d f Hd Hf Ed. destruct (plain_agree x y S) as [_ [Gi Gl]]. split.
      * rewrite (loss_agree m x y Gl). apply (Ol d f Hd Hf Ed).
      * rewrite (lt_ws _ _ _ _ _ _ _ T). refine (carries_ext _ _ _ _ _ _ _ _ _ _ _ _ (Cy d f Hd Hf Ed)); [| |reflexivity].
        -- symmetry. apply (flow_agree m x y Gi).
        -- symmetry. apply (loss_agree m x y Gl).
Qed.

Lemma losses_empty : (exists x, feasible p x) <-> exists x, obeys_hard ops m x.
Proof.
  split.
  - intros [x F]. exists x. apply losses_exact. exists x. split; [intros i _; reflexivity|now apply hard_of_feasible].
  - intros [x O]. apply losses_exact in O. destruct O as [y [_ F]]. destruct (soft_extends c m p ss y So A F) as [z [_ [Fz _]]]. now exists z.
Qed.
Lemma losses_weighed x y : same_but_weights m x y -> weighed p m ss y == weighed p m ss x.
Proof.
  apply (weighed_same c); auto; [exact (hist_reached c m0 ops H0 Hs)|]. exact (weights_not_soft m0 ops Hw ss Sg).
Qed.
Lemma losses_optimum x : optimal p x ->
  obeys_hard ops m x /\ objective p x == weighed p m ss x /\ forall y, obeys_hard ops m y -> weighed p m ss x <= weighed p m ss y.
Proof.
  intros O. destruct (soft_optimum c m p ss x So A O) as [F [E L]]. split; [|split; [exact E|]].
  - apply losses_exact. exists x. split; [intros i _; reflexivity|exact F].
  - intros y Hy. apply losses_exact in Hy. destruct Hy as [z [S Fz]]. rewrite <- (losses_weighed y z S). now apply L.
Qed.
Lemma losses_achieved x : obeys_hard ops m x -> (forall y, obeys_hard ops m y -> weighed p m ss x <= weighed p m ss y) ->
  exists z y, same_but_weights m x z /\ same_plain m ss z y /\ optimal p y /\ objective p y == weighed p m ss x.
Proof.
  intros O L. apply losses_exact in O. destruct O as [z [S Fz]]. exists z.
  destruct (soft_achieved c m p ss z So A Fz) as [y [Sy [Oy Ey]]].
  - intros y Hy. rewrite (losses_weighed x z S). apply L. apply losses_exact. exists y. split; [intros i _; reflexivity|exact Hy].
  - exists y. split; [exact S|]. split; [exact Sy|]. split; [exact Oy|]. now rewrite <- (losses_weighed x z S).
Qed.
End Losses.
