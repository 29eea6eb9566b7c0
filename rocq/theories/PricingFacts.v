(** The pricing run. *)

From Coq Require Import QArith Qabs Lqa String List Bool Arith Lia ZArith Permutation Sorted.
Import ListNotations.
From Verif Require Import PandasModel TablesModel VariableIdsModel MarketConstraintsModel
  UnitConstraintsModel RampModel FcasModel InterModel ElasticModel MarketModel SolverModel PricingModel
  SpecLp PandasFacts SpecHistory SpecIds SpecDispatch SpecElastic SpecNetwork SpecPricing StepFacts InvariantFacts OwnerFacts SolverFacts
  MeaningFacts LimitFacts TableFacts BidFacts BalanceFacts LossFacts.
Open Scope string_scope.
Open Scope list_scope.

(** Disabling variables that are zero keeps a point feasible. *)
Lemma disable_feasible ids p x : (forall i, In i ids -> x i == 0) -> feasible p x -> feasible (disable ids p) x.
Proof.
  intros Z [F1 [F2 [F3 F4]]]. repeat split; auto; intros; cbn [disable p_vars] in *; try (apply F3; auto; fail); try (apply F4; auto; fail).
  - apply in_map_iff in H. destruct H as [w [<- H]]. destruct (existsb _ ids) eqn:E; [|now apply F1].
    apply existsb_exists in E. destruct E as [i [Hi E]]. apply Nat.eqb_eq in E. cbn [pv_lb pv_id]. rewrite E, (Z i Hi). apply Qle_refl.
  - apply in_map_iff in H. destruct H as [w [<- H]]. destruct (existsb _ ids) eqn:E; [|now apply F1].
    apply existsb_exists in E. destruct E as [i [Hi E]]. apply Nat.eqb_eq in E. cbn [pv_ub pv_id]. rewrite E, (Z i Hi). apply Qle_refl.
Qed.

Lemma linear_feasible p x : feasible p x -> feasible (linear_problem p) x.
Proof. intros [F1 [F2 [F3 F4]]]. repeat split; auto; try (now apply F1); intros s []. Qed.

Lemma unused_links_zero x vs i : In i (unused_links x vs) -> x i == 0.
Proof.
  unfold unused_links. intros H. apply in_map_iff in H. destruct H as [v [<- H]]. apply filter_In in H. destruct H as [_ H].
  apply andb_true_iff in H. destruct H as [_ H]. now apply Qeq_bool_iff.
Qed.

(** A break point that is not among the three nearest has three others at most as far. *)
Lemma beyond_three l (a : Q * nat) : StronglySorted (fun a b => fst a <= fst b) l -> In a (skipn 3 l) ->
  exists a1 a2 a3 t, l = a1 :: a2 :: a3 :: t /\ In a t /\ fst a1 <= fst a /\ fst a2 <= fst a /\ fst a3 <= fst a.
Proof.
  intros S H. destruct l as [|a1 [|a2 [|a3 t]]]; try now destruct H. cbn in H. exists a1, a2, a3, t. split; [reflexivity|]. split; [exact H|].
  inversion S as [|? ? S1 F1]; subst. inversion S1 as [|? ? S2 F2]; subst. inversion S2 as [|? ? S3 F3]; subst.
  rewrite Forall_forall in F1, F2, F3. repeat split; [apply F1|apply F2|apply F3]; auto; now repeat right.
Qed.

(** The weights of one link with their distances. *)
Lemma near_rows x vs ws i l :
  map snd (filter (fun r : string * string * near => String.eqb (fst (fst r)) i && String.eqb (snd (fst r)) l) (weight_rows x vs ws))
  = flat_map (fun v => map (fun w => (Qabs (x (iv_id v) - wv_point w), wv_id w))
       (filter (fun w => String.eqb (iv_inter v) (wv_inter w) && String.eqb (iv_link v) (wv_link w)) ws))
     (filter (fun v => String.eqb (iv_inter v) i && String.eqb (iv_link v) l) vs).
Proof.
  induction vs as [|v t IH]; [reflexivity|]. unfold weight_rows, merge in *. cbn [flat_map]. rewrite map_app, filter_app, map_app.
  etransitivity; [apply f_equal2; [reflexivity|exact IH]|]. clear IH. cbn [filter]. destruct (String.eqb (iv_inter v) i && String.eqb (iv_link v) l) eqn:E.
  - cbn [flat_map]. f_equal. induction (filter _ ws) as [|w ws' IH]; [reflexivity|]. cbn [map filter fst snd]. rewrite E. cbn [map snd]. now f_equal.
  - rewrite <- (app_nil_l (flat_map _ (filter _ t))) at 2. f_equal. induction (filter _ ws) as [|w ws' IH]; [reflexivity|]. cbn [map filter fst snd]. now rewrite E.
Qed.

Lemma weight_seg_unique d bps nw w w' :
  ForallOrdPairs (fun a b => same_link (bp_inter a) (bp_link a) (bp_inter b) (bp_link b)
                             && Z.eqb (bp_seg a) (bp_seg b) = false) bps ->
  In w (filter (of_link d) (weight_variables bps nw)) -> In w' (filter (of_link d) (weight_variables bps nw)) ->
  wv_seg w = wv_seg w' -> w = w'.
Proof.
  intros UB Ha Hb E. apply filter_In in Ha, Hb. destruct Ha as [Ha La], Hb as [Hb Lb].
  unfold weight_variables in Ha, Hb. apply in_map_iff in Ha, Hb.
  destruct Ha as [[ja ba] [Ewa Hja]], Hb as [[jb bb] [Ewb Hjb]].
  assert (ba = bb).
  { apply (FOP_unique (fun a b => same_link (bp_inter a) (bp_link a) (bp_inter b) (bp_link b) && Z.eqb (bp_seg a) (bp_seg b)) bps); auto.
    - intros u v. rewrite same_link_sym, Z.eqb_sym. reflexivity.
    - apply in_save_index in Hja. tauto.
    - apply in_save_index in Hjb. tauto.
    - rewrite <- Ewa in La, E. rewrite <- Ewb in Lb, E. unfold of_link in La, Lb. cbn in La, Lb, E. apply same_link_eq in La, Lb.
      apply andb_true_iff. split; [apply same_link_eq; intuition congruence|]. now apply Z.eqb_eq. }
  subst bb. assert (ja = jb); [|now subst].
  assert (NB : NoDup bps).
  { apply (FOP_NoDup (fun a b => same_link (bp_inter a) (bp_link a) (bp_inter b) (bp_link b) && Z.eqb (bp_seg a) (bp_seg b))); auto.
    intros u. apply andb_true_iff. split; [now apply same_link_eq|apply Z.eqb_refl]. }
  clear -NB Hja Hjb. revert nw Hja Hjb. induction bps as [|c t IH]; intros k H1 H2; [destruct H1|].
  inversion NB as [|? ? M1 M2]; subst. rewrite save_index_cons in H1, H2.
  destruct H1 as [H1|H1], H2 as [H2|H2]; try congruence.
  - inversion H1; subst. apply in_save_index in H2. exfalso. apply M1. tauto.
  - inversion H2; subst. apply in_save_index in H1. exfalso. apply M1. tauto.
  - now apply (IH M2 (S k)).
Qed.

Lemma weight_bp d bps nw w : In w (filter (of_link d) (weight_variables bps nw)) ->
  exists b, In b bps /\ at_link d b = true /\ bp_seg b = wv_seg w /\ bp_point b = wv_point w.
Proof.
  intros Hw. apply filter_In in Hw. destruct Hw as [Hw Lw]. unfold weight_variables in Hw.
  apply in_map_iff in Hw. destruct Hw as [[j b] [<- Hw]]. apply in_save_index in Hw. exists b. cbn in *. intuition.
Qed.

Lemma filter_one {A} (R : A -> A -> bool) (f : A -> bool) l v :
  (forall a b, R a b = R b a) -> ForallOrdPairs (fun a b => R a b = false) l -> (forall a b, f a = true -> f b = true -> R a b = true) ->
  In v l -> f v = true -> filter f l = [v].
Proof.
  intros Sy U T. induction U as [|a l F U IH]; intros H E; [destruct H|]. cbn [filter].
  assert (Z : forall b, f b = true -> In b l -> f a = true -> False).
  { intros b Eb Hb Ea. rewrite Forall_forall in F. specialize (F b Hb). rewrite (T a b Ea Eb) in F. discriminate. }
  destruct (f a) eqn:Ea.
  - destruct H as [<-|H]; [|exfalso; apply (Z v E H eq_refl)]. f_equal.
    clear IH. induction l as [|b l IHl]; [reflexivity|]. cbn. destruct (f b) eqn:Eb; [exfalso; apply (Z b Eb); [now left|reflexivity]|].
    apply IHl; [now inversion F|now inversion U|]. intros c Ec Hc. apply (Z c Ec). now right.
  - destruct H as [<-|H]; [congruence|]. now apply IH.
Qed.

(** Distances and points. *)
Lemma far_left q a e : a < q -> e <= a -> Qabs (q - e) == q - e.
Proof. intros. apply Qabs_pos. lra. Qed.

Section Link.
Variables (c : config) (dirs : list inter_row) (lf : list lossfn_row) (bps : list bp_row) (m : market) (x : assignment).
Hypothesis N : network c dirs lf bps m.
Hypothesis So : solution m x.
Hypothesis All : all_losses lf bps.
Hypothesis Ri : forall d, In d dirs -> rising d bps.
Hypothesis Ba : forall d, In d dirs -> balanced d bps.

Lemma far_weight_zero d f nw w w1 w2 w3 : In d dirs -> In f lf -> about_link d f = true ->
  m_weights m = Some (weight_variables bps nw) ->
  let fl := filter (of_link d) (weight_variables bps nw) in
  let q := link_flow m x (in_inter d) (in_link d) in
  In w fl -> In w1 fl -> In w2 fl -> In w3 fl ->
  w <> w1 -> w <> w2 -> w <> w3 -> w1 <> w2 -> w1 <> w3 -> w2 <> w3 ->
  Qabs (q - wv_point w1) <= Qabs (q - wv_point w) ->
  Qabs (q - wv_point w2) <= Qabs (q - wv_point w) ->
  Qabs (q - wv_point w3) <= Qabs (q - wv_point w) ->
  x (wv_id w) == 0.
Proof.
  intros Hd Hf Ef Ew fl q H0 H1 H2 H3 D01 D02 D03 D12 D13 D23 L1 L2 L3.
  pose proof (network_bps c dirs lf bps m f N Hf) as UB.
  assert (Seg : forall u v, In u fl -> In v fl -> u <> v -> wv_seg u <> wv_seg v).
  { intros u v Hu Hv D E. apply D. eapply weight_seg_unique; eauto. }
  assert (Ord : forall u v, In u fl -> In v fl -> (wv_seg u < wv_seg v)%Z -> wv_point u < wv_point v).
  { intros u v Hu Hv L. destruct (weight_bp _ _ _ _ Hu) as [a [A1 [A2 [A3 A4]]]]. destruct (weight_bp _ _ _ _ Hv) as [b [B1 [B2 [B3 B4]]]].
    rewrite <- A4, <- B4. apply (Ri d Hd); auto. lia. }
  destruct (link_weights c dirs lf bps m x f d N So Hf Hd Ef) as [ws [a [b [wa [wb [Ew' [Ad [Ha [Hb [Pa [Pb [Z [X1 [Y1 [S1 [S2 _]]]]]]]]]]]]]]]].
  { destruct (weight_bp _ _ _ _ H0) as [b0 [B1 [B2 [B3 B4]]]]. destruct (weight_bp _ _ _ _ H1) as [b1 [C1 [C2 [C3 C4]]]].
    exists b0, b1. repeat split; auto. rewrite B3, C3. now apply Seg. }
  assert (ws = weight_variables bps nw) by congruence. subst ws. fold fl in Ha, Hb, Z. fold q in S2.
  pose proof Ad as [A1 [B1 [A2 [B2 [Ls Nb]]]]].
  pose proof (Ri d Hd a b A1 B1 A2 B2 Ls) as Lt.
  assert (Pt : forall u, In u fl -> wv_point u < bp_point a \/ u = wa \/ u = wb \/ bp_point b < wv_point u).
  { intros u Hu. destruct (weight_bp _ _ _ _ Hu) as [e [E1 [E2 [E3 E4]]]]. rewrite <- E4.
    destruct (Z_lt_ge_dec (bp_seg e) (bp_seg a)) as [L|L]; [left; now apply (Ri d Hd)|].
    destruct (Z_lt_ge_dec (bp_seg b) (bp_seg e)) as [L'|L']; [right; right; right; now apply (Ri d Hd)|].
    assert (Ne : forall e0 w0, In e0 bps -> at_link d e0 = true -> In w0 fl -> wv_point w0 = bp_point e0 -> wv_seg w0 = bp_seg e0).
    { intros e0 w0 He0 Le0 Hw0 Ew0. destruct (weight_bp _ _ _ _ Hw0) as [e' [E1' [E2' [E3' E4']]]].
      destruct (Z.lt_trichotomy (bp_seg e') (bp_seg e0)) as [T|[T|T]]; [|congruence|].
      - pose proof (Ri d Hd _ _ E1' He0 E2' Le0 T). rewrite E4', Ew0 in H. lra.
      - pose proof (Ri d Hd _ _ He0 E1' Le0 E2' T). rewrite E4', Ew0 in H. lra. }
    destruct (Z.eq_dec (bp_seg e) (bp_seg a)) as [Q1|Q1].
    - right. left. eapply weight_seg_unique; [exact UB|exact Hu|exact Ha|]. rewrite (Ne a wa A1 A2 Ha Pa). congruence.
    - destruct (Z.eq_dec (bp_seg e) (bp_seg b)) as [Q2|Q2].
      + right. right. left. eapply weight_seg_unique; [exact UB|exact Hu|exact Hb|]. rewrite (Ne b wb B1 B2 Hb Pb). congruence.
      + exfalso. apply (Nb e E1 E2). lia. }
  assert (Dist : forall u v, In u fl -> In v fl -> u <> v -> wv_point u < wv_point v \/ wv_point v < wv_point u).
  { intros u v Hu Hv D. destruct (Z.lt_trichotomy (wv_seg u) (wv_seg v)) as [T|[T|T]].
    - left. now apply Ord. - exfalso. revert T. now apply Seg. - right. now apply Ord. }
  assert (Q1 : bp_point a <= q <= bp_point b).
  { rewrite <- S2. set (u := x (wv_id wa)) in *. set (v := x (wv_id wb)) in *. assert (Ev : u == 1 - v) by lra. rewrite Ev in *. split; nra. }
  destruct (Qeq_dec (x (wv_id w)) 0) as [E|E]; [exact E|]. exfalso.
  destruct (Z w H0) as [->|[->|Z0]]; [| |contradiction].
  - (* the lower end *)
    assert (Qb : q < bp_point b).
    { apply Qlt_le_trans with (bp_point a * x (wv_id wa) + bp_point b * x (wv_id wb) + (bp_point b - bp_point a) * x (wv_id wa)); [|assert (Ev : x (wv_id wb) == 1 - x (wv_id wa)) by lra; rewrite Ev; apply Qle_lteq; right; ring].
      rewrite S2. assert (0 < x (wv_id wa)) by (destruct (Qlt_le_dec 0 (x (wv_id wa))); [auto|exfalso; apply E; lra]).
      assert (0 < (bp_point b - bp_point a) * x (wv_id wa)) by (apply Qmult_lt_0_compat; lra). lra. }
    rewrite Pa in L1, L2, L3. rewrite (Qabs_pos (q - bp_point a)) in L1, L2, L3 by lra.
    assert (Rt : forall u, In u fl -> wa <> u -> Qabs (q - wv_point u) <= q - bp_point a -> bp_point b <= wv_point u).
    { intros u Hu Du Lu. destruct (Pt u Hu) as [P|[P|[P|P]]]; [|congruence|subst; rewrite Pb; lra|lra].
      rewrite Qabs_pos in Lu by lra. lra. }
    assert (Tw : forall e e', In e fl -> In e' fl -> bp_point b < wv_point e -> wv_point e < wv_point e' ->
      Qabs (q - wv_point e') <= q - bp_point a -> False).
    { intros e e' He He' G1 G2 G3. destruct (weight_bp _ _ _ _ He) as [k [K1 [K2 [K3 K4]]]]. destruct (weight_bp _ _ _ _ He') as [k' [K1' [K2' [K3' K4']]]].
      destruct (Ba d Hd a b k k' Ad K1 K1' K2 K2') as [G _]. rewrite K4, K4' in G. specialize (G G1 G2).
      rewrite Qabs_neg in G3 by lra. lra. }
    pose proof (Rt w1 H1 D01 L1) as R1. pose proof (Rt w2 H2 D02 L2) as R2. pose proof (Rt w3 H3 D03 L3) as R3.
    destruct (Dist w1 w2 H1 H2 D12) as [O1|O1], (Dist w1 w3 H1 H3 D13) as [O2|O2], (Dist w2 w3 H2 H3 D23) as [O3|O3]; try lra;
      first [solve [apply (Tw w1 w2 H1 H2); first [assumption|lra]]|solve [apply (Tw w1 w3 H1 H3); first [assumption|lra]]|solve [apply (Tw w2 w3 H2 H3); first [assumption|lra]]|solve [apply (Tw w2 w1 H2 H1); first [assumption|lra]]|solve [apply (Tw w3 w1 H3 H1); first [assumption|lra]]|solve [apply (Tw w3 w2 H3 H2); first [assumption|lra]]].
  - assert (Qa : bp_point a < q).
    { apply Qle_lt_trans with (bp_point a * x (wv_id wa) + bp_point b * x (wv_id wb) - (bp_point b - bp_point a) * x (wv_id wb)); [assert (Ev : x (wv_id wa) == 1 - x (wv_id wb)) by lra; rewrite Ev; apply Qle_lteq; right; ring|].
      rewrite S2. assert (0 < x (wv_id wb)) by (destruct (Qlt_le_dec 0 (x (wv_id wb))); [auto|exfalso; apply E; lra]).
      assert (0 < (bp_point b - bp_point a) * x (wv_id wb)) by (apply Qmult_lt_0_compat; lra). lra. }
    rewrite Pb in L1, L2, L3. rewrite (Qabs_neg (q - bp_point b)) in L1, L2, L3 by lra.
    assert (Rt : forall u, In u fl -> wb <> u -> Qabs (q - wv_point u) <= - (q - bp_point b) -> wv_point u <= bp_point a).
    { intros u Hu Du Lu. destruct (Pt u Hu) as [P|[P|[P|P]]]; [lra|subst; rewrite Pa; lra|congruence|].
      rewrite Qabs_neg in Lu by lra. lra. }
    assert (Tw : forall e e', In e fl -> In e' fl -> wv_point e < bp_point a -> wv_point e' < wv_point e ->
      Qabs (q - wv_point e') <= - (q - bp_point b) -> False).
    { intros e e' He He' G1 G2 G3. destruct (weight_bp _ _ _ _ He) as [k [K1 [K2 [K3 K4]]]]. destruct (weight_bp _ _ _ _ He') as [k' [K1' [K2' [K3' K4']]]].
      destruct (Ba d Hd a b k k' Ad K1 K1' K2 K2') as [_ G]. rewrite K4, K4' in G. specialize (G G2 G1).
      rewrite Qabs_pos in G3 by lra. lra. }
    pose proof (Rt w1 H1 D01 L1) as R1. pose proof (Rt w2 H2 D02 L2) as R2. pose proof (Rt w3 H3 D03 L3) as R3.
    destruct (Dist w1 w2 H1 H2 D12) as [O1|O1], (Dist w1 w3 H1 H3 D13) as [O2|O2], (Dist w2 w3 H2 H3 D23) as [O3|O3]; try lra;
      first [solve [apply (Tw w1 w2 H1 H2); first [assumption|lra]]|solve [apply (Tw w1 w3 H1 H3); first [assumption|lra]]|solve [apply (Tw w2 w3 H2 H3); first [assumption|lra]]|solve [apply (Tw w2 w1 H2 H1); first [assumption|lra]]|solve [apply (Tw w3 w1 H3 H1); first [assumption|lra]]|solve [apply (Tw w3 w2 H3 H2); first [assumption|lra]]].
Qed.
End Link.


Lemma NoDup_four {A} (a1 a2 a3 : A) t a : NoDup (a1 :: a2 :: a3 :: t) -> In a t ->
  a <> a1 /\ a <> a2 /\ a <> a3 /\ a1 <> a2 /\ a1 <> a3 /\ a2 <> a3.
Proof.
  intros H Ht. inversion H as [|? ? N1 H1]; subst. inversion H1 as [|? ? N2 H2]; subst. inversion H2 as [|? ? N3 H3]; subst.
  cbn in N1, N2, N3. repeat split; intros ->; intuition congruence.
Qed.

Lemma unused_weights_zero c dirs lf bps m x sort i : network c dirs lf bps m -> solution m x -> all_losses lf bps -> lf <> [] ->
  (forall d, In d dirs -> rising d bps) -> (forall d, In d dirs -> balanced d bps) -> sorts sort ->
  In i (unused_weights sort x (rows_or_nil (m_inter m)) (rows_or_nil (m_weights m))) -> x i == 0.
Proof.
  intros N So All Ne Ri Ba Srt Hi. destruct lf as [|f0 lf0] eqn:El; [congruence|]. rewrite <- El in *. clear Ne.
  assert (Hf0 : In f0 lf) by (rewrite El; now left). clear El.
  destruct (loss_inv _ _ _ _ _ _ N Hf0) as [O [UK [n [nv [p [NT T]]]]]].
  set (ws := weight_variables bps (lp_nv p)).
  assert (Ew : m_weights m = Some ws) by (rewrite (lt_weights _ _ _ _ _ _ _ T); now rewrite (lt_ws _ _ _ _ _ _ _ T)).
  rewrite Ew, (nt_inter _ _ _ _ _ NT) in Hi. cbn [rows_or_nil] in Hi. unfold unused_weights in Hi.
  apply in_flat_map in Hi. destruct Hi as [[ki kl] [Hk Hi]]. cbn [fst snd] in Hi.
  rewrite keys_of_drop in Hk. apply drop_duplicates_incl in Hk. apply in_map_iff in Hk. destruct Hk as [[k' nr] [E Hr]]. cbn [fst] in E. subst k'.
  unfold weight_rows in Hr. apply in_map_iff in Hr. destruct Hr as [[v w0] [E Hr]]. apply in_merge in Hr. destruct Hr as [Hv [Hw0 Lw]].
  inversion E; subst ki kl nr. clear E. rewrite near_rows in Hi.
  assert (Hv' := Hv). unfold inter_variables in Hv'. apply in_map_iff in Hv'. destruct Hv' as [[j d] [Ev Hj]].
  rewrite (filter_one (fun a b => String.eqb (iv_inter a) (iv_inter b) && String.eqb (iv_link a) (iv_link b)) _ _ v) in Hi; auto.
  2:{ intros a b. now rewrite (String.eqb_sym (iv_inter a)), (String.eqb_sym (iv_link a)). }
  2:{ pose proof (nt_links _ _ _ _ _ NT) as U. unfold unique_links in U. clear -U. unfold inter_variables. revert n.
      induction U as [|a l F U IH]; intros n; [constructor|]. rewrite save_index_cons. cbn [map]. constructor; [|apply IH].
      rewrite Forall_forall in *. intros b Hb. apply in_map_iff in Hb. destruct Hb as [[k r] [<- Hb]]. apply in_save_index in Hb.
      cbn [iv_inter iv_link snd] in *. destruct Hb as [_ Hb]. exact (F r Hb). }
  2:{ intros a b Ha Hb. apply andb_true_iff in Ha, Hb. rewrite !String.eqb_eq in Ha, Hb. apply andb_true_iff. rewrite !String.eqb_eq. intuition congruence. }
  2:{ now rewrite !String.eqb_refl. }
  cbn [flat_map] in Hi. rewrite app_nil_r in Hi.
  set (fl := filter (of_link d) ws).
  assert (Efl : filter (fun w => String.eqb (iv_inter v) (wv_inter w) && String.eqb (iv_link v) (wv_link w)) ws = fl).
  { apply filter_ext. intros w. rewrite <- Ev. reflexivity. }
  rewrite Efl in Hi. clear Efl.
  set (dist := fun w => (Qabs (x (iv_id v) - wv_point w), wv_id w)) in *.
  apply in_map_iff in Hi. destruct Hi as [a [Ei Hi]]. destruct (Srt (map dist fl)) as [P S].
  destruct (beyond_three _ _ S Hi) as [a1 [a2 [a3 [t [Es [Ht [L1 [L2 L3]]]]]]]].
  assert (ND : NoDup (map dist fl)).
  { apply (NoDup_map_inv snd). rewrite map_map. cbn [dist snd].
    apply (NoDup_filter_map wv_id (of_link d)). unfold ws, weight_variables. rewrite map_map.
    rewrite (map_ext _ fst); [rewrite save_index_fst; apply seq_NoDup|]. intros [? ?]; reflexivity. }
  assert (ND' := Permutation_NoDup P ND). rewrite Es in ND'. destruct (NoDup_four _ _ _ _ _ ND' Ht) as [D1 [D2 [D3 [D4 [D5 D6]]]]].
  assert (Back : forall b, In b (a1 :: a2 :: a3 :: t) -> exists w, In w fl /\ dist w = b).
  { intros b Hb. rewrite <- Es in Hb. apply (Permutation_in _ (Permutation_sym P)) in Hb. apply in_map_iff in Hb. destruct Hb as [w [? ?]]. eauto. }
  destruct (Back a) as [w [Hw Dw]]; [now repeat right|]. destruct (Back a1) as [w1 [Hw1 Dw1]]; [now left|].
  destruct (Back a2) as [w2 [Hw2 Dw2]]; [right; now left|]. destruct (Back a3) as [w3 [Hw3 Dw3]]; [right; right; now left|].
  assert (Hd : In d dirs) by (apply in_save_index in Hj; apply Hj).
  assert (Ef : exists f, In f lf /\ about_link d f = true).
  { destruct (weight_bp _ _ _ _ Hw) as [b [Hb [Lb _]]]. destruct (All b Hb) as [f [Hf [F1 F2]]]. exists f. split; auto.
    unfold at_link in Lb. apply andb_true_iff in Lb. rewrite !String.eqb_eq in Lb. unfold about_link. apply andb_true_iff. rewrite !String.eqb_eq. intuition congruence. }
  destruct Ef as [f [Hf Ef]].
  assert (Fl : x (iv_id v) == link_flow m x (in_inter d) (in_link d)).
  { rewrite (flow_of m x dirs lf n nv j d NT Hj). rewrite <- Ev. reflexivity. }
  assert (Di : forall u, fst (dist u) == Qabs (link_flow m x (in_inter d) (in_link d) - wv_point u)).
  { intros u. cbn [dist fst]. now rewrite Fl. }
  rewrite <- Dw, <- Dw1, !Di in L1. rewrite <- Dw, <- Dw2, !Di in L2. rewrite <- Dw, <- Dw3, !Di in L3.
  assert (Ei' : i = wv_id w) by (rewrite <- Ei, <- Dw; reflexivity). rewrite Ei'.
  apply (far_weight_zero c dirs lf bps m x N So Ri Ba d f (lp_nv p) w w1 w2 w3); auto; congruence.
Qed.

Lemma no_loss_functions c dirs bps m : network c dirs [] bps m -> m_loss m = None.
Proof.
  intros [m0 [ops [H0 [Hs [H E]]]]].
  assert (Z : m_loss m0 = None) by (unfold new_market in H0; destruct (check_unit_info c); [discriminate|]; inversion H0; reflexivity).
  assert (K : leaves "losses" ops -> m_loss m = None).
  { intros L. destruct (run_same_table "losses" ops m0 L) as [_ [_ [_ [T _]]]]. destruct (T eq_refl) as [T1 _]. rewrite E, T1. exact Z. }
  destruct H as [[_ [_ [_ [_ L]]]]|[[_ [_ [_ L]]]|[pre [post [_ [_ [A _]]]]]]]; auto.
  exfalso. cbn [step] in A. unfold set_losses, guard in A. destruct (check_losses [] bps); [discriminate|].
  cbn zeta in A. destruct (m_directions _); try discriminate. destruct (m_inter _); try discriminate. destruct (m_reg_inter _); try discriminate.
  assert (EL : forall vs dirs n, loss_variables vs (loss_shares [] dirs) n = []).
  { intros. unfold loss_variables, loss_rows, loss_shares, merge. cbn [flat_map map].
    induction (save_index n vs); [reflexivity|]. cbn. assumption. }
  rewrite EL in A. cbn [map next_id] in A. discriminate.
Qed.

Theorem pricing_contains c dirs lf bps m x p sort : network c dirs lf bps m -> all_losses lf bps ->
  (forall d, In d dirs -> rising d bps) -> (forall d, In d dirs -> balanced d bps) -> sorts sort ->
  assemble m = Ok p -> feasible p x -> feasible (pricing_problem sort m x p) x.
Proof.
  intros N All Ri Ba Srt A F. unfold pricing_problem. destruct (m_loss m) eqn:El; [|now apply linear_feasible].
  assert (lf <> []) by (intros ->; rewrite (no_loss_functions _ _ _ _ N) in El; discriminate).
  apply disable_feasible; [intros i Hi; eapply unused_links_zero; eauto|].
  apply disable_feasible; [|now apply linear_feasible].
  intros i Hi. eapply (unused_weights_zero c dirs lf bps m x sort); eauto. exists p. auto.
Qed.
