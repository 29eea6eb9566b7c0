(** Less strict limits never make dispatch dearer. *)

From Coq Require Import QArith Qabs Qminmax Lqa String List Bool Arith Lia ZArith Permutation.
Import ListNotations.
From Verif Require Import PandasModel TablesModel VariableIdsModel MarketConstraintsModel
  UnitConstraintsModel RampModel FcasModel InterModel ElasticModel MarketModel SolverModel DispatchModel
  SpecLp SpecHistory SpecDispatch SpecRamp SpecFastStart SpecElastic SpecPrices SpecNetwork SpecOrder SpecExact SpecSoft SpecMixed SpecLosses SpecShuffle SpecSolver SpecEase
  PandasFacts StepFacts InvariantFacts OwnerFacts SolverFacts MeaningFacts LimitFacts TableFacts
  BidFacts BalanceFacts PriceStateFacts PriceFacts ExchangeFacts PlanFacts BookFacts ExactFacts SoftFacts MixedFacts LossTheoremFacts ShuffleFacts SettledFacts.
Open Scope string_scope.
Open Scope list_scope.

Lemma eased_relation ty a b b' : eased_rhs ty b b' -> relation ty a b -> relation ty a b'.
Proof.
  intros [E|[[-> L]|[-> L]]] R.
  - exact (proj1 (relation_iff ty a a b b' (Qeq_refl a) E) R).
  - destruct R as [[_ R]|[[N _]|[N _]]]; try discriminate N. left. split; [reflexivity|]. now apply Qle_trans with b.
  - destruct R as [[N _]|[[_ R]|[N _]]]; try discriminate N. right. left. split; [reflexivity|]. now apply Qle_trans with b.
Qed.

Lemma F2_split {A B} (R : A -> B -> Prop) l pre' b' post' : Forall2 R l (pre' ++ b' :: post') ->
  exists pre b post, l = pre ++ b :: post /\ Forall2 R pre pre' /\ R b b'.
Proof.
  intros F. apply Forall2_app_inv_r in F. destruct F as [pre [t [F1 [F2 ->]]]]. inversion F2 as [|b ? post ? Rb F3]; subst.
  exists pre, b, post. auto.
Qed.

(** ** Links without their flow limits *)

Definition bare (d : inter_row) : inter_row :=
  Inter (in_inter d) (in_link d) (in_to d) (in_from d) 0 0 (in_gcf d) (in_from_lf d) (in_to_lf d).
Definition bare_op (o : op) : op := match o with OpInterconnectors l => OpInterconnectors (map bare l) | o => o end.
Definition bare_ops (ops : list op) : list op := map bare_op ops.

Lemma bare_directions ops : directions (bare_ops ops) = map bare (directions ops).
Proof. unfold directions, bare_ops. induction ops as [|o t IH]; [reflexivity|]. cbn [map flat_map]. rewrite IH, map_app. f_equal. now destruct o. Qed.
Lemma bare_other {A} (f : op -> list A) ops : (forall l l', f (OpInterconnectors l) = f (OpInterconnectors l')) -> flat_map f (bare_ops ops) = flat_map f ops.
Proof. intros H. unfold bare_ops. induction ops as [|o t IH]; [reflexivity|]. cbn [map flat_map]. rewrite IH. f_equal. destruct o; cbn; auto. Qed.
Lemma bare_links ops : unit_links (bare_ops ops) = unit_links ops /\ region_links (bare_ops ops) = region_links ops
  /\ inter_links (bare_ops ops) = inter_links ops /\ loss_functions (bare_ops ops) = loss_functions ops.
Proof. split; [|split; [|split]]; now apply bare_other. Qed.
Lemma bare_supplied m dirs r : supplied m dirs r <-> supplied m (map bare dirs) r.
Proof.
  unfold supplied. split; (intros [H|[d [H E]]]; [now left|right]).
  - exists (bare d). split; [now apply in_map|exact E].
  - apply in_map_iff in H. destruct H as [d0 [<- H]]. now exists d0.
Qed.
Lemma bare_balance m x dirs lf r : energy_balance m x (map bare dirs) lf r = energy_balance m x dirs lf r.
Proof. unfold energy_balance, inflow, losses. now rewrite !map_map. Qed.
Lemma bare_shares lf dirs : loss_shares lf (map bare dirs) = loss_shares lf dirs.
Proof.
  unfold loss_shares, merge. induction lf as [|f t IH]; [reflexivity|]. cbn [flat_map]. rewrite !map_app, IH. f_equal.
  rewrite filter_map, !map_map. reflexivity.
Qed.
Lemma wider_bare d d' : wider d d' -> bare d = bare d'.
Proof. intros [E1 [E2 [E3 [E4 [E5 [E6 [E7 _]]]]]]]. unfold bare. now rewrite E1, E2, E3, E4, E5, E6, E7. Qed.
Lemma bare_fields d d' : bare d = bare d' -> in_inter d = in_inter d' /\ in_link d = in_link d'.
Proof. unfold bare. intros E. injection E. auto. Qed.

Definition about_flow (o : op) : bool := match o with OpInterconnectors _ | OpLosses _ _ => true | _ => false end.
Lemma bare_obeys ops m x o : about_flow o = false -> (obeys (bare_ops ops) m x o <-> obeys ops m x o).
Proof.
  intros N. destruct (bare_links ops) as [E1 [E2 [E3 E4]]]. destruct o; try discriminate N; cbn [obeys]; rewrite ?E1, ?E2, ?E3, ?E4, ?bare_directions; try reflexivity.
  split; intros H d Hd L; specialize (H d Hd); rewrite <- bare_supplied, bare_balance in *; auto.
Qed.

Section Transfer.
Variables (ops ops' : list op) (m m' : market) (x x' : assignment).
Hypothesis HB : Permutation (map (bcell x) (rows_or_nil (m_bids m))) (map (bcell x') (rows_or_nil (m_bids m'))).
Hypothesis HI : Permutation (map (icell x) (rows_or_nil (m_inter m))) (map (icell x') (rows_or_nil (m_inter m'))).
Hypothesis HL : Permutation (map (lcell x) (rows_or_nil (m_loss m))) (map (lcell x') (rows_or_nil (m_loss m'))).
Hypothesis HC : same_units (m_cfg m) (m_cfg m').
Hypothesis Hd : Permutation (map bare (directions ops)) (map bare (directions ops')).
Hypothesis Hw : forall d', In d' (directions ops') -> exists d, In d (directions ops) /\ bare d = bare d' /\ in_min d' <= in_min d /\ in_max d <= in_max d'.
Hypothesis Hf : forall d, In d (directions ops) -> in_min d <= in_max d.
Hypothesis Hu : Permutation (unit_links ops) (unit_links ops').
Hypothesis Hr : Permutation (region_links ops) (region_links ops').
Hypothesis Hi : Permutation (inter_links ops) (inter_links ops').
Hypothesis Hl : Permutation (loss_functions ops) (loss_functions ops').

Lemma eased_supply l l' s :
  Forall2 (fun r r' => fq_set r = fq_set r' /\ fq_region r = fq_region r' /\ fq_service r = fq_service r' /\ fq_type r = fq_type r'
       /\ eased_rhs (fq_type r) (fq_volume r) (fq_volume r')) l l' ->
  set_supply m x l s == set_supply m' x' l' s.
Proof.
  unfold set_supply. induction 1 as [|r r' l l' [E1 [E2 [E3 _]]] F IH]; [reflexivity|]. cbn [filter]. rewrite <- E1.
  destruct (String.eqb s (fq_set r)); [|exact IH]. rewrite !map_cons, E2, E3. apply Qplus_comp; [exact (region_supply_same m m' x x' HB HC _ _)|exact IH].
Qed.

Lemma eased_same o o' : about_flow o = false -> same_call o o' -> scada_once o -> obeys ops m x o -> obeys ops' m' x' o'.
Proof.
  intros B S N Ob. assert (B' : about_flow o' = false) by (destruct o, o'; try contradiction S; try discriminate B; reflexivity).
  apply (bare_obeys ops' m' x' o' B'). apply (bare_obeys ops m x o B) in Ob.
  destruct (bare_links ops) as [E1 [E2 [E3 E4]]], (bare_links ops') as [E1' [E2' [E3' E4']]].
  apply (obeys_same (bare_ops ops) (bare_ops ops') m m' x x' HB HI HL HC) with o; rewrite ?bare_directions, ?E1, ?E2, ?E3, ?E4, ?E1', ?E2', ?E3', ?E4'; assumption.
Qed.

Hypothesis Ht : 0 <= c_interval (m_cfg m).

Lemma faster_rate q q' s u : q <= q' -> smaller_rate q s u -> exists u', smaller_rate q' s u' /\ u <= u'.
Proof.
  clear. intros L. destruct s as [s|]; cbn [smaller_rate].
  - intros [A [B _]]. destruct (Qlt_le_dec s q') as [D|D].
    + exists s. split; [|exact B]. split; [now apply Qlt_le_weak|]. split; [apply Qle_refl|]. right. reflexivity.
    + exists q'. split; [|now apply Qle_trans with q]. split; [apply Qle_refl|]. split; [exact D|]. left. reflexivity.
  - intros E. exists q'. split; [reflexivity|]. now rewrite E.
Qed.
Lemma over_time u u' : u <= u' -> u * c_interval (m_cfg m) / 60 <= u' * c_interval (m_cfg m) / 60.
Proof.
  intros L. unfold Qdiv. apply Qmult_le_compat_r; [|discriminate]. now apply Qmult_le_compat_r.
Qed.
Lemma faster_limits rows s r r' : faster rows r r' -> usual_limits (m_cfg m) m x s r -> usual_limits (m_cfg m') m' x' s r'.
Proof.
  intros [E1 [E2 [E3 [L1 [L2 _]]]]] [up [down [U [D [A B]]]]].
  destruct (faster_rate _ _ _ _ L1 U) as [up' [U' L1']]. destruct (faster_rate _ _ _ _ L2 D) as [down' [D' L2']]. exists up', down'.
  rewrite <- E1, <- E2, <- E3, <- (proj2 HC), <- (dispatch_same m m' x x' HB). split; [exact U'|]. split; [exact D'|].
  pose proof (over_time _ _ L1') as T1. pose proof (over_time _ _ L2') as T2. split.
  - apply Qle_trans with (2 := A). apply Qplus_le_compat; [apply Qle_refl|]. now apply Qopp_le_compat.
  - apply Qle_trans with (1 := B). apply Qplus_le_compat; [apply Qle_refl|exact T1].
Qed.

Lemma wider_bound d d' q : in_min d' <= in_min d -> in_max d <= in_max d' -> in_min d <= in_max d ->
  q <= Qmax (Qabs (in_min d)) (Qabs (in_max d)) -> q <= Qmax (Qabs (in_min d')) (Qabs (in_max d')).
Proof.
  clear. intros A B C H. apply Qle_trans with (1 := H). apply Q.max_lub.
  - apply Qabs_case; intros _; [apply Qle_trans with (in_max d'); [lra|]|apply Qle_trans with (- in_min d'); [lra|]].
    + apply Qle_trans with (2 := Q.le_max_r _ _). apply Qle_Qabs.
    + apply Qle_trans with (2 := Q.le_max_l _ _). rewrite <- Qabs_opp. apply Qle_Qabs.
  - apply Qabs_case; intros _; [apply Qle_trans with (in_max d'); [lra|]|apply Qle_trans with (- in_min d'); [lra|]].
    + apply Qle_trans with (2 := Q.le_max_r _ _). apply Qle_Qabs.
    + apply Qle_trans with (2 := Q.le_max_l _ _). rewrite <- Qabs_opp. apply Qle_Qabs.
Qed.

Lemma eased_losses lf bps lf' bps' : Permutation lf lf' -> Permutation bps bps' ->
  obeys ops m x (OpLosses lf bps) -> obeys ops' m' x' (OpLosses lf' bps').
Proof.
  intros P1 P2 Ob. cbn [obeys] in *. intros d' f Hdd Hin E. destruct (Hw d' Hdd) as [d [Hd0 [Eb [W1 W2]]]]. destruct (bare_fields _ _ Eb) as [Ei El].
  destruct (Ob d f) as [O1 [a [b [[A1 [A2 [A3 [A4 [A5 A6]]]]] In']]]];
    [exact Hd0|now apply (perm_in _ _ f P1)|unfold about_link in *; now rewrite Ei, El|]. rewrite Ei, El in O1, In'. split.
  - rewrite <- (loss_same m m' x x' HL). now apply (wider_bound d d' _ W1 W2 (Hf d Hd0)).
  - exists a, b. unfold adjacent, at_link in *. rewrite Ei, El in A3, A4, A6. split.
    + split; [now apply (perm_in _ _ a P2)|]. split; [now apply (perm_in _ _ b P2)|]. repeat (split; [assumption|]).
      intros e He. apply A6. now apply (perm_in _ _ e P2).
    + exact (interpolates_agree _ _ _ _ _ _ _ _ (flow_same m m' x x' HI _ _) (loss_same m m' x x' HL _ _) In').
Qed.

Lemma eased_flows l l' : (forall d', In d' l' -> exists d, In d l /\ bare d = bare d' /\ in_min d' <= in_min d /\ in_max d <= in_max d') ->
  obeys ops m x (OpInterconnectors l) -> obeys ops' m' x' (OpInterconnectors l').
Proof.
  intros W [O1 O2]. cbn [obeys]. split.
  - intros d' Hin. destruct (W d' Hin) as [d [Hd0 [Eb [W1 W2]]]]. destruct (bare_fields _ _ Eb) as [Ei El]. destruct (O1 d Hd0) as [L1 L2].
    rewrite <- Ei, <- El, <- (flow_same m m' x x' HI). split; [now apply Qle_trans with (in_min d)|now apply Qle_trans with (in_max d)].
  - intros a' b' Ha' Hb'. destruct (W a' Ha') as [a [Ha0 [Ea _]]], (W b' Hb') as [b [Hb0 [Eb _]]].
    destruct (bare_fields _ _ Ea) as [Ai Al], (bare_fields _ _ Eb) as [Bi Bl]. rewrite <- Ai, <- Al, <- Bi, <- Bl, <- !(flow_same m m' x x' HI).
    now apply O2.
Qed.

Lemma obeys_eased o o' : eased_call o o' -> scada_once o -> obeys ops m x o -> obeys ops' m' x' o'.
Proof.
  intros [S|S] N Ob.
  { destruct (about_flow o) eqn:B; [|now apply (eased_same o o')]. destruct o, o'; try discriminate B; try contradiction S; cbn [same_call] in S.
    - apply (eased_flows l l0); [|exact Ob]. intros d Hin. exists d. split; [now apply (perm_in _ _ d S)|]. split; [reflexivity|]. split; apply Qle_refl.
    - destruct S as [P1 P2]. now apply (eased_losses lf bps lf0 bps0). }
  destruct o, o'; try contradiction S; cbn [eased_limits] in S; try (cbn [obeys] in *).
  - destruct S as [Eb F]. intros r' b Hr' Hb. destruct (F2_in_r _ _ _ _ F Hr') as [r [Hin [E1 [E2 [E3 V]]]]].
    rewrite <- Eb in Hb. destruct (V b Hb) as [L _]. rewrite <- E1, <- E2, <- E3, <- !(band_same m m' x x' HB).
    destruct (Ob r b Hin Hb) as [O1 O2]. split; [exact O1|]. now apply Qle_trans with (br_val r b).
  - intros r' Hr' L. destruct (S r' Hr') as [r [Hin [E1 [E2 V]]]]. rewrite <- E1, <- E2 in *. rewrite <- (dispatch_same m m' x x' HB).
    apply Qle_trans with (li_cap r); [|exact V]. apply Ob; [exact Hin|]. now apply (listed_same m m' x x' HB HC).
  - intros r' Hr' L. destruct (S r' Hr') as [r [Hin [E1 V]]]. rewrite <- E1 in *. rewrite <- (dispatch_same m m' x x' HB).
    apply Qle_trans with (ug_cap r); [|exact V]. apply Ob; [exact Hin|]. now apply (listed_same m m' x x' HB HC).
  - destruct S as [<- S]. destruct Ob as [Ob Ob2].
    assert (Sr : forall r', In r' (map ri_row (rt_rows t0)) -> forall q, In q (map ri_row (rt_rows t0)) -> rr_unit q = rr_unit r' -> q <> r' -> In r' (map ri_row (rt_rows t))).
    { intros r' Hr' q Hq E D. destruct (S r' Hr') as [r [Hin [->|F]]]; [exact Hin|]. elim D. now apply F. }
    split.
    + intros r' Hr' Nt L. destruct (S r' Hr') as [r [Hin [->|F]]].
      * apply (ramp_same m m' x x' HB HC s s r' eq_refl eq_refl). apply Ob; [exact Hin|now rewrite (two_sided_same m m' HC)|now apply (listed_same m m' x x' HB HC)].
      * apply (faster_limits _ s r r' F). destruct F as [E1 [E2 _]]. apply Ob; [exact Hin|now rewrite (two_sided_same m m' HC), E1|].
        rewrite E1, E2. now apply (listed_same m m' x x' HB HC).
    + intros g ld [G1 [G2 [G3 [G4 [G5 G6]]]]] L. assert (D : ld <> g) by congruence.
      apply (net_limits_same m m' x x' HB HC s s g ld eq_refl eq_refl). apply Ob2.
      * split; [now apply (Sr g G1 ld)|]. split; [apply (Sr ld G2 g); congruence|]. repeat (split; [assumption|]). now apply (two_sided_same m m' HC).
      * now rewrite !(offers_same m m' x x' HB).
  - intros pre' b' post' El' Fr' L. pose proof S as S0. rewrite El' in S. destruct (F2_split _ _ _ _ _ S) as [pre [b [post [El [Fp [E1 [E2 [E3 [E4 Rv]]]]]]]]].
    rewrite <- E1, <- E4 in *. apply (eased_relation _ _ _ _ Rv).
    apply (proj1 (relation_iff _ _ _ _ _ (Qplus_comp _ _ (eased_supply l l0 _ S0) _ _
      (linked_same ops ops' m m' x x' HB HI HC Hu Hr Hi _)) (Qeq_refl _))).
    apply (Ob pre b post El).
    + intros r Hin. destruct (F2_in_r _ _ _ _ (F2_flip _ _ _ Fp) Hin) as [r' [Hin' [Es _]]]. rewrite Es. now apply Fr'.
    + destruct L as [[r' [Hin' [Es O]]]|L]; [left|right].
      * destruct (F2_in_r _ _ _ _ S0 Hin') as [r [Hin [G1 [G2 [G3 _]]]]]. exists r. split; [exact Hin|]. split; [congruence|].
        rewrite G2, G3. now apply (region_offers_same m m' x x' HB HC).
      * now apply (some_linked_same ops ops' m m' x x' HB HI HC Hu Hr Hi).
  - intros r' Hr' L. destruct (S r' Hr') as [r [Hin [E1 [E2 [E3 V]]]]]. rewrite <- E1, <- E2, <- E3 in *. rewrite <- (dispatch_same m m' x x' HB).
    apply Qle_trans with (ma_max r); [|exact V]. apply Ob; [exact Hin|]. now apply (listed_same m m' x x' HB HC).
  - destruct Ob as [Ob Ob2]. split.
    + intros r' d Hr' Nt. destruct (S r' Hr') as [r [Hin [E1 [E2 [L1 L2]]]]]. rewrite <- E1, <- E2 in *.
      destruct (Ob r d Hin) as [O1 O2]; [now rewrite (two_sided_same m m' HC)|].
      pose proof (over_time _ _ L1) as T1. pose proof (over_time _ _ L2) as T2.
      split; intros L; apply (listed_same m m' x x' HB HC) in L; [specialize (O1 L)|specialize (O2 L)]; cbv zeta in *;
        destruct (String.eqb d "generator"); rewrite <- (proj2 HC), <- !(dispatch_same m m' x x' HB); lra.
    + intros r' Hr' T. destruct (S r' Hr') as [r [Hin [E1 [E2 [L1 L2]]]]]. rewrite <- E1, <- E2 in *.
      destruct (Ob2 r Hin) as [O1 O2]; [now rewrite (two_sided_same m m' HC)|].
      pose proof (over_time _ _ L1) as T1. pose proof (over_time _ _ L2) as T2.
      split; intros L; rewrite <- !(offers_same m m' x x' HB) in L; [specialize (O1 L)|specialize (O2 L)]; cbv zeta in *;
        rewrite <- (proj2 HC), <- (net_same m m' x x' HB), <- !(dispatch_same m m' x x' HB); lra.
  - apply (eased_flows l l0); [|exact Ob]. intros d' Hin. destruct (F2_in_r _ _ _ _ S Hin) as [d [Hd0 W]]. exists d. split; [exact Hd0|].
    split; [now apply wider_bare|]. unfold wider in W. tauto.
  - intros g' Hg' L. destruct (S g' Hg') as [g [Hin [E1 [E2 Rv]]]]. rewrite <- E1, <- E2 in *. apply (eased_relation _ _ _ _ Rv).
    apply (proj1 (relation_iff _ _ _ _ _ (linked_same ops ops' m m' x x' HB HI HC Hu Hr Hi _) (Qeq_refl _))).
    apply Ob; [exact Hin|]. now apply (some_linked_same ops ops' m m' x x' HB HI HC Hu Hr Hi).
Qed.
End Transfer.

Lemma eased_perm {A} (f : op -> list A) ops ops' : (forall o o', eased_call o o' -> Permutation (f o) (f o')) -> eased_calls ops ops' ->
  Permutation (flat_map f ops) (flat_map f ops').
Proof.
  intros H [k [P F]]. transitivity (flat_map f k); [now apply Permutation_flat_map|].
  clear P. induction F as [|a b l l' R F IH]; [constructor|]. cbn. apply Permutation_app; auto.
Qed.
Ltac by_eased S := apply eased_perm; [|exact S]; intros o o' [E|E]; destruct o, o'; cbn [same_call eased_limits] in E; try contradiction E; cbn; auto.
Lemma directions_eased ops ops' : eased_calls ops ops' -> Permutation (map bare (directions ops)) (map bare (directions ops')).
Proof.
  intros S. unfold directions. rewrite !map_flat. apply eased_perm; [|exact S].
  intros o o' [E|E]; destruct o, o'; cbn [same_call eased_limits] in E; try contradiction E; cbn; auto using Permutation_map.
  match goal with |- Permutation ?a ?b => replace b with a; [reflexivity|] end. induction E as [|d d' l l' W F IH]; [reflexivity|]. cbn. now rewrite (wider_bare _ _ W), IH.
Qed.
Lemma directions_wider ops ops' : eased_calls ops ops' ->
  forall d', In d' (directions ops') -> exists d, In d (directions ops) /\ bare d = bare d' /\ in_min d' <= in_min d /\ in_max d <= in_max d'.
Proof.
  intros [k [P F]] d' H. apply in_flat_map in H. destruct H as [o' [Ho' Hd']]. destruct (F2_in_r _ _ _ _ F Ho') as [o [Ho E]].
  apply (perm_in _ _ o P) in Ho. destruct o'; try contradiction Hd'. destruct E as [E|E]; destruct o; try contradiction E; cbn in E.
  - exists d'. split; [apply in_flat_map; eexists; split; [exact Ho|]; cbn; now apply (perm_in _ _ d' E)|]. split; [reflexivity|]. split; apply Qle_refl.
  - destruct (F2_in_r _ _ _ _ E Hd') as [d [Hd W]]. exists d. split; [apply in_flat_map; eexists; split; [exact Ho|exact Hd]|].
    split; [now apply wider_bare|]. unfold wider in W. tauto.
Qed.
Lemma unit_links_eased ops ops' : eased_calls ops ops' -> Permutation (unit_links ops) (unit_links ops').
Proof. intros S. unfold unit_links. by_eased S. Qed.
Lemma region_links_eased ops ops' : eased_calls ops ops' -> Permutation (region_links ops) (region_links ops').
Proof. intros S. unfold region_links. by_eased S. Qed.
Lemma inter_links_eased ops ops' : eased_calls ops ops' -> Permutation (inter_links ops) (inter_links ops').
Proof. intros S. unfold inter_links. by_eased S. Qed.
Lemma loss_functions_eased ops ops' : eased_calls ops ops' -> Permutation (loss_functions ops) (loss_functions ops').
Proof. intros S. unfold loss_functions. by_eased S. now destruct E. Qed.

Lemma more_keys t t' n n' : more_volume t t' -> Permutation (map bkey (bid_variables t n)) (map bkey (bid_variables t' n')).
Proof.
  intros [Eb F]. rewrite !bid_keys. unfold stack_bids. rewrite <- Eb.
  match goal with |- Permutation ?a ?b => replace b with a; [reflexivity|] end.
  assert (G : forall bands, (forall b, In b bands -> In b (bt_bands t)) ->
    map (fun p => let '(r, band, _) := p in (br_unit r, br_service r, br_dt r, band))
      (filter (fun p => Qle_bool min_bid_volume (snd p)) (flat_map (fun band => map (fun r => (r, band, br_val r band)) (bt_rows t)) bands))
    = map (fun p => let '(r, band, _) := p in (br_unit r, br_service r, br_dt r, band))
      (filter (fun p => Qle_bool min_bid_volume (snd p)) (flat_map (fun band => map (fun r => (r, band, br_val r band)) (bt_rows t')) bands))).
  { induction bands as [|b bs IH]; intros Hb; [reflexivity|]. cbn [flat_map]. rewrite !filter_app, !map_app. f_equal; [|apply IH; intros; apply Hb; now right].
    assert (Hin : In b (bt_bands t)) by (apply Hb; now left). clear IH Hb Eb.
    induction F as [|r r' l l' [E1 [E2 [E3 V]]] F IH]; [reflexivity|]. cbn [map filter snd].
    assert (E : Qle_bool min_bid_volume (br_val r b) = Qle_bool min_bid_volume (br_val r' b)).
    { destruct (V b Hin) as [_ I]. apply Bool.eq_iff_eq_true. rewrite !Qle_bool_iff. exact I. }
    rewrite E. destruct (Qle_bool min_bid_volume (br_val r' b)); [|exact IH]. cbn [map]. rewrite E1, E2, E3. f_equal. exact IH. }
  apply G. auto.
Qed.

Section Two.
Variables (c c' : config) (m0 m0' : market) (ops ops' : list op).
Hypothesis H0 : new_market c = Ok m0.
Hypothesis H0' : new_market c' = Ok m0'.
Hypothesis Hs : sane ops m0.
Hypothesis Hs' : sane ops' m0'.
Hypothesis Ha : accepted ops m0.
Hypothesis Ha' : accepted ops' m0'.
Hypothesis H1 : one_each ops.
Hypothesis H1' : one_each ops'.
Hypothesis Hp : forall o, In o ops -> cost_arg o = None /\ in_scope_losses c ops o.
Hypothesis Hp' : forall o, In o ops' -> cost_arg o = None /\ in_scope_losses c' ops' o.
Hypothesis HT : 0 <= c_interval c.
Hypothesis HU : same_units c c'.
Hypothesis HS : eased_calls ops ops'.
Let m := run ops m0.
Let m' := run ops' m0'.

Lemma eased_twin o' : In o' ops' -> exists o, In o ops /\ eased_call o o'.
Proof.
  intros H. destruct HS as [k [P F]]. destruct (F2_in_r _ _ _ _ F H) as [o [Ho E]]. exists o. split; [|exact E]. now apply (perm_in _ _ o P).
Qed.
Lemma eased_back o : In o ops -> exists o', In o' ops' /\ eased_call o o'.
Proof.
  intros H. destruct HS as [k [P F]]. apply (perm_in _ _ o P) in H. destruct (F2_in_r _ _ _ _ (F2_flip _ _ _ F) H) as [o' [Ho E]]. now exists o'.
Qed.

Lemma eased_volumes t o' : eased_call (OpVolumeBids t) o' -> exists t', o' = OpVolumeBids t'.
Proof. intros [E|E]; destruct o'; try contradiction E; eauto. Qed.
Lemma eased_prices tp o' : eased_call (OpPriceBids tp) o' -> exists tp', o' = OpPriceBids tp' /\ same_bid_table tp tp'.
Proof. intros [E|E]; destruct o'; try contradiction E; eauto. Qed.

Lemma eased_bids : Permutation (map bkey (rows_or_nil (m_bids m))) (map bkey (rows_or_nil (m_bids m'))).
Proof.
  destruct (free_bids c m0 ops H0 Hs Ha H1 Hp) as [[t [n [Ht [E _]]]]|[E N]];
  destruct (free_bids c' m0' ops' H0' Hs' Ha' H1' Hp') as [[t' [n' [Ht' [E' _]]]]|[E' N']].
  - fold m in E. fold m' in E'. rewrite E, E'. destruct (eased_twin _ Ht') as [o [Ho S]].
    destruct o; try (destruct S as [S|S]; contradiction S). rewrite <- (one_volume ops t t0 H1 Ht Ho) in S.
    destruct S as [S|S]; [|now apply more_keys]. rewrite !bid_keys. apply Permutation_map, perm_filter, stack_perm. exact S.
  - exfalso. destruct (eased_back _ Ht) as [o' [Ho S]]. destruct (eased_volumes _ _ S) as [t' ->]. exact (N' _ Ho).
  - exfalso. destruct (eased_twin _ Ht') as [o [Ho S]]. destruct o; try (destruct S as [S|S]; contradiction S). exact (N _ Ho).
  - fold m in E. fold m' in E'. rewrite E, E'. constructor.
Qed.
Lemma eased_inter : Permutation (map ikey (rows_or_nil (m_inter m))) (map ikey (rows_or_nil (m_inter m'))).
Proof.
  destruct (network_inv _ _ _ _ _ (free_network c m0 ops H0 Hs Ha H1 Hp)) as [_ [_ [n [nv T]]]].
  destruct (network_inv _ _ _ _ _ (free_network c' m0' ops' H0' Hs' Ha' H1' Hp')) as [_ [_ [n' [nv' T']]]].
  fold m in T. fold m' in T'. rewrite (nt_inter _ _ _ _ _ T), (nt_inter _ _ _ _ _ T'), !inter_keys.
  pose proof (Permutation_map (fun r => (in_inter r, in_link r, in_gcf r)) (directions_eased _ _ HS)) as K. rewrite !map_map in K. exact K.
Qed.
Lemma eased_loss : Permutation (map lkey (rows_or_nil (m_loss m))) (map lkey (rows_or_nil (m_loss m'))).
Proof.
  destruct (network_inv _ _ _ _ _ (free_network c m0 ops H0 Hs Ha H1 Hp)) as [_ [_ [n [nv T]]]].
  destruct (network_inv _ _ _ _ _ (free_network c' m0' ops' H0' Hs' Ha' H1' Hp')) as [_ [_ [n' [nv' T']]]].
  fold m in T. fold m' in T'. pose proof eased_inter as K. rewrite (nt_inter _ _ _ _ _ T), (nt_inter _ _ _ _ _ T') in K.
  rewrite (nt_loss _ _ _ _ _ T), (nt_loss _ _ _ _ _ T'), !loss_keys. apply perm_flat; [|exact K].
  intros k. rewrite <- (bare_shares _ (directions ops)), <- (bare_shares _ (directions ops')).
  apply Permutation_map, perm_filter, shares_perm; [now apply loss_functions_eased|now apply directions_eased].
Qed.

Lemma eased_counterpart x : exists x',
  Permutation (map (bcell x) (rows_or_nil (m_bids m))) (map (bcell x') (rows_or_nil (m_bids m')))
  /\ Permutation (map (icell x) (rows_or_nil (m_inter m))) (map (icell x') (rows_or_nil (m_inter m')))
  /\ Permutation (map (lcell x) (rows_or_nil (m_loss m))) (map (lcell x') (rows_or_nil (m_loss m'))).
Proof.
  destruct (relabel bkey bv_id _ _ eased_bids x) as [qb [Lb Kb]]. destruct (relabel ikey iv_id _ _ eased_inter x) as [qi [Li Ki]].
  destruct (relabel lkey lv_id _ _ eased_loss x) as [ql [Ll Kl]].
  destruct (reached_owned c' m' (hist_reached c' m0' ops' H0' Hs')) as [[W _] _]. pose proof (proj1 (wf_vars _ W)) as N.
  unfold var_ids in N. rewrite !app_assoc in N. apply NoDup_app_inv in N. destruct N as [N _]. apply NoDup_app_inv in N. destruct N as [N _].
  rewrite <- app_assoc in N.
  set (ids := map bv_id (rows_or_nil (m_bids m')) ++ map iv_id (rows_or_nil (m_inter m')) ++ map lv_id (rows_or_nil (m_loss m'))) in *.
  set (qs := qb ++ qi ++ ql). exists (fun i => look i ids qs).
  assert (L : length ids = length qs) by (unfold ids, qs; rewrite !app_length, !map_length; congruence).
  pose proof (look_all ids qs N L) as E. unfold ids at 2, qs at 2 in E. rewrite !map_app, !map_map in E.
  apply app_inv_len in E; [|rewrite map_length; congruence]. destruct E as [E1 E2].
  apply app_inv_len in E2; [|rewrite map_length; congruence]. destruct E2 as [E2 E3].
  split; [exact (Kb (fun i => look i ids qs) E1)|]. split; [exact (Ki (fun i => look i ids qs) E2)|exact (Kl (fun i => look i ids qs) E3)].
Qed.

(** What the stricter calls allow, the eased ones allow at the same cost. *)
Lemma eased p p' x : assemble m = Ok p -> assemble m' = Ok p' -> feasible p x ->
  exists x', feasible p' x' /\ same_dispatch m x m' x' /\ objective p x == objective p' x'.
Proof.
  intros A A' F. destruct (eased_counterpart x) as [x' [KB [KI KL]]].
  assert (C : same_units (m_cfg m) (m_cfg m')).
  { unfold m, m'. rewrite (hist_cfg c m0 ops H0), (hist_cfg c' m0' ops' H0'). exact HU. }
  pose proof (band_same m m' x x' KB) as SB. pose proof (flow_same m m' x x' KI) as SF. pose proof (loss_same m m' x x' KL) as SL.
  assert (O : forall o, In o ops -> obeys ops m x o).
  { apply (free_exact c m0 ops H0 Hs Ha H1 Hp x p A). exists x. split; [intros i _; reflexivity|exact F]. }
  assert (Hti : 0 <= c_interval (m_cfg m)) by (unfold m; now rewrite (hist_cfg c m0 ops H0)).
  assert (Fl : forall d, In d (directions ops) -> in_min d <= in_max d).
  { intros d H. apply in_flat_map in H. destruct H as [o [Ho H]]. destruct o; try contradiction H. destruct (O _ Ho) as [L _].
    destruct (L d H) as [L1 L2]. exact (Qle_trans _ _ _ L1 L2). }
  assert (O' : forall o, In o ops' -> obeys ops' m' x' o).
  { intros o' Ho'. destruct (eased_twin o' Ho') as [o [Ho E]].
    apply (obeys_eased ops ops' m m' x x' KB KI KL C (directions_eased _ _ HS) (directions_wider _ _ HS) Fl (unit_links_eased _ _ HS) (region_links_eased _ _ HS) (inter_links_eased _ _ HS)
      (loss_functions_eased _ _ HS) Hti o o' E); [exact (scada_ok m0 ops Ha o Ho)|now apply O]. }
  apply (free_exact c' m0' ops' H0' Hs' Ha' H1' Hp' x' p' A') in O'. destruct O' as [y [Sy Fy]]. exists y. split; [exact Fy|].
  destruct (free_agree c' m0' ops' H0' Hs' x' y Sy) as [GB [GF GL]]. fold m' in GB, GF, GL.
  assert (SB' : forall u s d b, band_dispatch m x u s d b == band_dispatch m' y u s d b) by (intros; now rewrite SB, GB).
  split.
  - split; [exact SB'|]. split; intros; [now rewrite SF, GF|now rewrite SL, GL].
  - destruct (hist_cost c m0 ops H0 Hs Ha H1 Hp p x A) as [[tp [Ht E]]|[N E]];
    destruct (hist_cost c' m0' ops' H0' Hs' Ha' H1' Hp' p' y A') as [[tp' [Ht' E']]|[N' E']]; rewrite E, E'.
    + destruct (eased_twin _ Ht') as [o [Ho S]]. destruct o; try (destruct S as [S|S]; contradiction S).
      rewrite (one_price ops tp t H1 Ht Ho). destruct S as [S|S]; [|contradiction S]. now apply (bids_cost_same c c' m0 m0' ops ops' HU).
    + exfalso. destruct (eased_back _ Ht) as [o' [Ho S]]. destruct (eased_prices _ _ S) as [t' [-> _]]. exact (N' _ Ho).
    + exfalso. destruct (eased_twin _ Ht') as [o [Ho S]]. destruct o; try (destruct S as [S|S]; contradiction S). exact (N _ Ho).
    + reflexivity.
Qed.

Lemma eased_optimum p p' x x' : assemble m = Ok p -> assemble m' = Ok p' -> optimal p x -> optimal p' x' -> objective p' x' <= objective p x.
Proof.
  intros A A' [F _] [_ O']. destruct (eased p p' x A A' F) as [y [Fy [_ E]]]. rewrite E. now apply O'.
Qed.

Lemma eased_recorded s s' a a' old old' new new' : sound s -> sound s' ->
  dispatch_market s a m old = (new, None) -> dispatch_market s' a' m' old' = (new', None) ->
  exists o o', d_objective new = Some o /\ d_objective new' = Some o' /\ o' <= o.
Proof.
  intros S S' D D'. destruct (records c s a m old new (hist_reached c m0 ops H0 Hs) S D) as [p [x [A [O [_ [o [E1 E2]]]]]]].
  destruct (records c' s' a' m' old' new' (hist_reached c' m0' ops' H0' Hs') S' D') as [p' [x' [A' [O' [_ [o' [E1' E2']]]]]]].
  exists o, o'. split; [exact E1|]. split; [exact E1'|]. rewrite E2, E2'. now apply eased_optimum.
Qed.
End Two.
