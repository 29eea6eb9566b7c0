(** The order of rows and calls does not matter for dispatch. *)

From Coq Require Import QArith Qminmax Lqa String List Bool Arith Lia ZArith Permutation.
Import ListNotations.
From Verif Require Import PandasModel TablesModel VariableIdsModel MarketConstraintsModel
  UnitConstraintsModel RampModel FcasModel InterModel ElasticModel MarketModel SolverModel
  SpecLp SpecHistory SpecDispatch SpecRamp SpecFastStart SpecElastic SpecPrices SpecNetwork SpecOrder SpecExact SpecSoft SpecMixed SpecLosses SpecShuffle
  PandasFacts StepFacts InvariantFacts OwnerFacts SolverFacts MeaningFacts LimitFacts TableFacts
  BidFacts BalanceFacts PriceStateFacts PriceFacts ExchangeFacts PlanFacts BookFacts ExactFacts SoftFacts MixedFacts LossTheoremFacts.
Open Scope string_scope.
Open Scope list_scope.

(** ** Lists *)

Lemma perm_filter {A} (f : A -> bool) l l' : Permutation l l' -> Permutation (filter f l) (filter f l').
Proof.
  induction 1 as [|a l l' P IH|a b l|l l' l'' P1 IH1 P2 IH2]; cbn; auto.
  - destruct (f a); auto.
  - destruct (f a), (f b); auto. apply perm_swap.
  - now transitivity (filter f l').
Qed.

Lemma filter_map {A B} (k : A -> B) (q : B -> bool) l : filter q (map k l) = map k (filter (fun a => q (k a)) l).
Proof. induction l as [|a t IH]; [reflexivity|]. cbn. rewrite IH. now destruct (q (k a)). Qed.

Lemma perm_in {A} (l l' : list A) a : Permutation l l' -> (In a l <-> In a l').
Proof. intros P. split; apply Permutation_in; [exact P|now apply Permutation_sym]. Qed.

Lemma perm_existsb {A} (f : A -> bool) l l' : Permutation l l' -> existsb f l = existsb f l'.
Proof.
  intros P. apply Bool.eq_iff_eq_true. rewrite !existsb_exists. split; intros [a [H E]]; exists a; split; auto; now apply (perm_in _ _ a P).
Qed.

(** Sums that look at the cells of the rows only. *)
Lemma cells_sum {A B} (k k' : A -> B) (h : B -> Q) (q : B -> bool) l l' : Permutation (map k l) (map k' l') ->
  sumQ (fun a => h (k a)) (filter (fun a => q (k a)) l) == sumQ (fun a => h (k' a)) (filter (fun a => q (k' a)) l').
Proof.
  intros P. apply (perm_filter q) in P. rewrite !filter_map in P.
  rewrite <- (sumQ_map h k), <- (sumQ_map h k'). now apply sumQ_perm.
Qed.
Lemma cells_in {A B} (k k' : A -> B) l l' b : Permutation (map k l) (map k' l') ->
  (exists a, In a l /\ k a = b) <-> (exists a, In a l' /\ k' a = b).
Proof.
  intros P. pose proof (perm_in _ _ b P) as E. rewrite !in_map_iff in E. split; intros [a [H1 H2]].
  - destruct (proj1 E) as [a' [H3 H4]]; eauto.
  - destruct (proj2 E) as [a' [H3 H4]]; eauto.
Qed.

(** A rule that names the values of the rows of a table. *)
Fixpoint look (i : nat) (ids : list nat) (qs : list Q) : Q :=
  match ids, qs with
  | j :: ids, q :: qs => if Nat.eqb i j then q else look i ids qs
  | _, _ => 0
  end.
Lemma look_all ids qs : NoDup ids -> length ids = length qs -> map (fun i => look i ids qs) ids = qs.
Proof.
  revert qs. induction ids as [|i t IH]; intros [|q qs] N L; cbn in *; try discriminate; [reflexivity|].
  inversion N as [|? ? N1 N2]; subst. rewrite Nat.eqb_refl. f_equal. injection L as L. transitivity (map (fun j => look j t qs) t); [|now apply IH]. apply map_ext_in. intros j Hj.
  destruct (Nat.eqb j i) eqn:E; [|reflexivity]. apply Nat.eqb_eq in E. subst. contradiction.
Qed.

Lemma combine_map {A B} (k : A -> B) (f : A -> Q) l : map (fun a => (k a, f a)) l = combine (map k l) (map f l).
Proof. induction l as [|a t IH]; [reflexivity|]. cbn. now rewrite IH. Qed.

Lemma relabel {A B} (k : A -> B) (id : A -> nat) l l' : Permutation (map k l) (map k l') ->
  forall x : assignment, exists qs, length qs = length l'
    /\ forall x' : assignment, map (fun a => x' (id a)) l' = qs ->
         Permutation (map (fun a => (k a, x (id a))) l) (map (fun a => (k a, x' (id a))) l').
Proof.
  intros P x. destruct (Permutation_map_inv k l (Permutation_sym P)) as [l3 [E P3]].
  exists (map (fun a => x (id a)) l3). split.
  - rewrite map_length, <- (map_length k l3), <- E. apply map_length.
  - intros x' E'. rewrite (combine_map k (fun a => x' (id a)) l'), E', E, <- combine_map. apply Permutation_map. exact P3.
Qed.

Section Transfer.
Variables (ops ops' : list op) (m m' : market) (x x' : assignment).

Definition bcell (x : assignment) (v : bidvar) := (bv_unit v, bv_service v, bv_dt v, bv_band v, x (bv_id v)).
Definition icell (x : assignment) (v : intervar) := (iv_inter v, iv_link v, iv_gcf v, x (iv_id v)).
Definition lcell (x : assignment) (v : lossvar) := (lv_inter v, lv_link v, x (lv_id v)).

Hypothesis HB : Permutation (map (bcell x) (rows_or_nil (m_bids m))) (map (bcell x') (rows_or_nil (m_bids m'))).
Hypothesis HI : Permutation (map (icell x) (rows_or_nil (m_inter m))) (map (icell x') (rows_or_nil (m_inter m'))).
Hypothesis HL : Permutation (map (lcell x) (rows_or_nil (m_loss m))) (map (lcell x') (rows_or_nil (m_loss m'))).
Hypothesis HC : same_units (m_cfg m) (m_cfg m').
Hypothesis Hd : Permutation (directions ops) (directions ops').
Hypothesis Hu : Permutation (unit_links ops) (unit_links ops').
Hypothesis Hr : Permutation (region_links ops) (region_links ops').
Hypothesis Hi : Permutation (inter_links ops) (inter_links ops').
Hypothesis Hl : Permutation (loss_functions ops) (loss_functions ops').

Lemma dispatch_same u s d : dispatch m x u s d == dispatch m' x' u s d.
Proof.
  rewrite !dispatch_sum. exact (cells_sum (bcell x) (bcell x') snd (fun c => let '(a, b, e, _, _) := c in String.eqb u a && String.eqb s b && String.eqb d e) _ _ HB).
Qed.
Lemma band_same u s d b : band_dispatch m x u s d b == band_dispatch m' x' u s d b.
Proof.
  rewrite !band_dispatch_sum. exact (cells_sum (bcell x) (bcell x') snd
    (fun c => let '(a, a', e, g, _) := c in String.eqb u a && String.eqb s a' && String.eqb d e && String.eqb b g) _ _ HB).
Qed.
Lemma flow_same i l : link_flow m x i l == link_flow m' x' i l.
Proof.
  rewrite !link_flow_sum. exact (cells_sum (icell x) (icell x') snd
    (fun c => let '(a, b, _, _) := c in String.eqb i a && String.eqb l b) _ _ HI).
Qed.
Lemma loss_same i l : link_loss m x i l == link_loss m' x' i l.
Proof.
  rewrite !link_loss_sum. exact (cells_sum (lcell x) (lcell x') snd
    (fun c => let '(a, b, _) := c in String.eqb i a && String.eqb l b) _ _ HL).
Qed.
Lemma inter_flow_same i : interconnector_flow m x i == interconnector_flow m' x' i.
Proof.
  unfold interconnector_flow. exact (cells_sum (icell x) (icell x') (fun c => let '(_, _, g, q) := c in inject_Z g * q)
    (fun c => let '(a, _, _, _) := c in String.eqb i a) _ _ HI).
Qed.

Lemma offers_same u s d : offers m u s d <-> offers m' u s d.
Proof.
  unfold offers. split; intros [v [Hv [E1 [E2 E3]]]].
  - destruct (proj1 (cells_in _ _ _ _ _ HB) (ex_intro _ v (conj Hv eq_refl))) as [v' [Hv' E]]. exists v'. unfold bcell in E. inversion E. split; [exact Hv'|]. repeat split; congruence.
  - destruct (proj2 (cells_in _ _ _ _ _ HB) (ex_intro _ v (conj Hv eq_refl))) as [v' [Hv' E]]. exists v'. unfold bcell in E. inversion E. split; [exact Hv'|]. repeat split; congruence.
Qed.
Lemma inter_there i : (exists v, In v (rows_or_nil (m_inter m)) /\ iv_inter v = i) <-> (exists v, In v (rows_or_nil (m_inter m')) /\ iv_inter v = i).
Proof.
  split; intros [v [Hv E1]].
  - destruct (proj1 (cells_in _ _ _ _ _ HI) (ex_intro _ v (conj Hv eq_refl))) as [v' [Hv' E]]. exists v'. unfold icell in E. inversion E. split; [exact Hv'|]. congruence.
  - destruct (proj2 (cells_in _ _ _ _ _ HI) (ex_intro _ v (conj Hv eq_refl))) as [v' [Hv' E]]. exists v'. unfold icell in E. inversion E. split; [exact Hv'|]. congruence.
Qed.
Lemma ui_same r : In r (c_ui (m_cfg m)) <-> In r (c_ui (m_cfg m')).
Proof. apply perm_in, HC. Qed.
Lemma registered_same u d : registered (m_cfg m) u d <-> registered (m_cfg m') u d.
Proof. unfold registered. split; intros [r [H E]]; exists r; (split; [now apply ui_same|exact E]). Qed.
Lemma two_sided_same u : two_sided (m_cfg m) u <-> two_sided (m_cfg m') u.
Proof. unfold two_sided. now rewrite !registered_same. Qed.
Lemma listed_same u d ss : listed_offer m u d ss <-> listed_offer m' u d ss.
Proof.
  unfold listed_offer. rewrite registered_same. split; intros [R [s [H O]]]; (split; [exact R|]); exists s; (split; [exact H|]); now apply offers_same.
Qed.
Lemma region_offers_same r s : region_offers m r s <-> region_offers m' r s.
Proof.
  unfold region_offers. split; intros [u [H [E O]]]; exists u; (split; [now apply ui_same|]); (split; [exact E|]); now apply offers_same.
Qed.
Lemma region_supply_same r s : region_supply m x r s == region_supply m' x' r s.
Proof.
  unfold region_supply. change (qsum (map ?f ?l)) with (sumQ f l).
  rewrite (sumQ_perm _ _ _ (perm_filter _ _ _ (proj1 HC))). apply sumQ_ext. intros u. now rewrite dispatch_same.
Qed.
Lemma region_dispatch_same r s : region_dispatch m x r s == region_dispatch m' x' r s.
Proof.
  unfold region_dispatch. change (qsum (map ?f ?l)) with (sumQ f l).
  rewrite (sumQ_perm _ _ _ (perm_filter _ _ _ (proj1 HC))). apply sumQ_ext. intros u. now rewrite dispatch_same.
Qed.
Lemma unit_output_same u s : unit_output m x u s == unit_output m' x' u s.
Proof.
  unfold unit_output. assert (E : forall d, has_side (m_cfg m) u d = has_side (m_cfg m') u d) by (intros d; apply perm_existsb, HC).
  rewrite !E. pose proof (dispatch_same u s "generator") as G. pose proof (dispatch_same u s "load") as L.
  destruct (_ && _ && _), (has_side (m_cfg m') u "generator"), (has_side (m_cfg m') u "load"); rewrite ?G, ?L; reflexivity.
Qed.
Lemma supplied_same r : supplied m (directions ops) r <-> supplied m' (directions ops') r.
Proof.
  unfold supplied. rewrite region_offers_same. split; (intros [H|[d [H E]]]; [now left|right; exists d; split; [|exact E]]); now apply (perm_in _ _ d Hd).
Qed.
Lemma losses_same r : losses m x (directions ops) (loss_functions ops) r == losses m' x' (directions ops') (loss_functions ops') r.
Proof.
  unfold losses. change (qsum (map ?f ?l)) with (sumQ f l). rewrite (sumQ_perm _ _ _ Hd). apply sumQ_ext. intros d.
  change (qsum (map ?f ?l)) with (sumQ f l). rewrite (sumQ_perm _ _ _ (perm_filter _ _ _ Hl)). apply sumQ_ext. intros f. now rewrite loss_same.
Qed.
Lemma balance_same r : energy_balance m x (directions ops) (loss_functions ops) r
  == energy_balance m' x' (directions ops') (loss_functions ops') r.
Proof.
  unfold energy_balance. rewrite region_supply_same, losses_same.
  unfold inflow. change (qsum (map ?f ?l)) with (sumQ f l). rewrite (sumQ_perm _ _ _ Hd).
  rewrite (sumQ_ext _ (fun d => flow_effect d r (link_flow m' x' (in_inter d) (in_link d)))); [reflexivity|].
  intros d. unfold flow_effect. destruct (String.eqb (in_to d) r), (String.eqb (in_from d) r); rewrite ?flow_same; reflexivity.
Qed.
Lemma linked_same s : linked m x (unit_links ops) (region_links ops) (inter_links ops) s
  == linked m' x' (unit_links ops') (region_links ops') (inter_links ops') s.
Proof.
  unfold linked. change (qsum (map ?f ?l)) with (sumQ f l).
  rewrite (sumQ_perm _ _ _ (perm_filter _ _ _ Hu)), (sumQ_perm _ _ _ (perm_filter _ _ _ Hr)), (sumQ_perm _ _ _ (perm_filter _ _ _ Hi)).
  apply Qplus_comp; [apply Qplus_comp|]; apply sumQ_ext; intros g.
  - now rewrite unit_output_same.
  - now rewrite region_dispatch_same.
  - now rewrite inter_flow_same.
Qed.
Lemma some_linked_same s : some_linked m (unit_links ops) (region_links ops) (inter_links ops) s
  <-> some_linked m' (unit_links ops') (region_links ops') (inter_links ops') s.
Proof.
  unfold some_linked. split; intros [[g [d [H [E [R O]]]]]|[[g [H [E R]]]|[g [v [H [E [Hv Ev]]]]]]].
  - left. exists g, d. split; [now apply (perm_in _ _ g Hu)|]. split; [exact E|]. split; [now apply registered_same|now apply offers_same].
  - right. left. exists g. split; [now apply (perm_in _ _ g Hr)|]. split; [exact E|]. now apply region_offers_same.
  - right. right. destruct (proj1 (inter_there (gi_inter g))) as [w [Hw Ew]]; [now exists v|]. exists g, w. split; [now apply (perm_in _ _ g Hi)|]. auto.
  - left. exists g, d. split; [now apply (perm_in _ _ g Hu)|]. split; [exact E|]. split; [now apply registered_same|now apply offers_same].
  - right. left. exists g. split; [now apply (perm_in _ _ g Hr)|]. split; [exact E|]. now apply region_offers_same.
  - right. right. destruct (proj2 (inter_there (gi_inter g))) as [w [Hw Ew]]; [now exists v|]. exists g, w. split; [now apply (perm_in _ _ g Hi)|]. auto.
Qed.
Lemma set_supply_same l l' s : Permutation l l' -> set_supply m x l s == set_supply m' x' l' s.
Proof.
  intros P. unfold set_supply. change (qsum (map ?f ?l)) with (sumQ f l). rewrite (sumQ_perm _ _ _ (perm_filter _ _ _ P)).
  apply sumQ_ext. intros r0. apply region_supply_same.
Qed.

Lemma find_perm {A} (k : A -> string) u l l' : Permutation l l' -> NoDup (map k l) ->
  find (fun r => String.eqb (k r) u) l = find (fun r => String.eqb (k r) u) l'.
Proof.
  clear. induction 1 as [|a l l' P IH|a b l|l l' l'' P1 IH1 P2 IH2]; intros N; [reflexivity|..].
  - cbn. inversion N; subst. destruct (String.eqb (k a) u); auto.
  - cbn. destruct (String.eqb (k b) u) eqn:Eb, (String.eqb (k a) u) eqn:Ea; try reflexivity.
    apply String.eqb_eq in Ea, Eb. cbn in N. inversion N as [|? ? N1 _]. elim N1. left. congruence.
  - rewrite IH1 by exact N. apply IH2. now apply (Permutation_NoDup (Permutation_map k P1)).
Qed.

Definition scada_once (o : op) : Prop :=
  match o with OpRamp _ (Some s) _ _ _ => NoDup (map sc_unit (st_rows s)) | _ => True end.

Lemma rates_same s s' u : same_scada s s' -> match s with Some s => NoDup (map sc_unit (st_rows s)) | None => True end ->
  scada_up s u = scada_up s' u /\ scada_down s u = scada_down s' u.
Proof.
  clear. destruct s as [s|], s' as [s'|]; cbn; try contradiction; [|now split]. intros [E1 [E2 P]] N.
  rewrite E1, E2, (find_perm sc_unit u _ _ P N). now split.
Qed.

Lemma ramp_same s s' r : scada_up s (rr_unit r) = scada_up s' (rr_unit r) -> scada_down s (rr_unit r) = scada_down s' (rr_unit r) ->
  usual_limits (m_cfg m) m x s r -> usual_limits (m_cfg m') m' x' s' r.
Proof.
  intros E1 E2 [up [down [U [D [L1 L2]]]]]. exists up, down. rewrite <- E1, <- E2. split; [exact U|]. split; [exact D|].
  rewrite <- (proj2 HC). rewrite <- dispatch_same. now split.
Qed.

Lemma net_same u : net_energy m x u == net_energy m' x' u.
Proof. unfold net_energy. now rewrite !dispatch_same. Qed.

Lemma net_limits_same s s' g ld : scada_up s (rr_unit g) = scada_up s' (rr_unit g) -> scada_down s (rr_unit g) = scada_down s' (rr_unit g) ->
  net_limits (m_cfg m) m x s g ld -> net_limits (m_cfg m') m' x' s' g ld.
Proof.
  intros E1 E2 [top [bot [up [down [A1 [A2 [A3 [A4 [L1 L2]]]]]]]]]. exists top, bot, up, down. rewrite <- E1, <- E2, <- (proj2 HC), <- net_same.
  split; [exact A1|]. split; [exact A2|]. split; [exact A3|]. split; [exact A4|]. now split.
Qed.

Lemma profile_same f e e' : e == e' -> follows_profile f e -> follows_profile f e'.
Proof. clear. intros E. unfold follows_profile. cbv zeta. now rewrite E. Qed.

Lemma obeys_same o o' : same_call o o' -> scada_once o -> obeys ops m x o -> obeys ops' m' x' o'.
Proof.
  intros S N Ob. destruct o, o'; try contradiction S; cbn [same_call] in S; cbn [obeys] in *; auto.
  - destruct S as [P1 P2]. intros r b Hr' Hb. rewrite <- !band_same. apply Ob; [now apply (perm_in _ _ r P1)|now apply (perm_in _ _ b P2)].
  - destruct S as [P _]. intros r Hr' L. rewrite <- dispatch_same. apply Ob; [now apply (perm_in _ _ r P)|now apply listed_same].
  - destruct S as [P _]. intros r Hr' L. rewrite <- dispatch_same. apply Ob; [now apply (perm_in _ _ r P)|now apply listed_same].
  - destruct S as [[_ [_ P]] [Ss _]]. cbn [scada_once] in N. destruct Ob as [Ob Ob2].
    assert (Sr : forall u, scada_up s u = scada_up s0 u /\ scada_down s u = scada_down s0 u) by (intros u; apply rates_same; [exact Ss|now destruct s]).
    assert (Pr : forall r, In r (map ri_row (rt_rows t0)) -> In r (map ri_row (rt_rows t))) by (intros r Hr'; now apply (perm_in _ _ r (Permutation_map ri_row P))).
    split.
    + intros r Hr' Nt L. apply (ramp_same s s0 r (proj1 (Sr _)) (proj2 (Sr _))). apply Ob; [now apply Pr|now rewrite two_sided_same|now apply listed_same].
    + intros g ld [H1 [H2 [H3 [H4 [H5 H6]]]]] L. apply (net_limits_same s s0 g ld (proj1 (Sr _)) (proj2 (Sr _))). apply Ob2.
      * repeat split; auto; now apply two_sided_same.
      * now rewrite !offers_same.
  - destruct S as [P _]. intros f d Hf L. apply (profile_same f _ _ (dispatch_same _ _ _)). apply Ob; [now apply (perm_in _ _ f P)|now apply listed_same].
  - destruct S as [P _]. intros d Hd' L. rewrite <- balance_same. apply Ob; [now apply (perm_in _ _ d P)|now apply supplied_same].
  - destruct S as [Ag [P _]]. intros pre b post El Fr L.
    assert (Hb : In b l) by (apply (perm_in _ _ b P); rewrite El; apply in_or_app; right; now left).
    (* the first row of the set in the other table *)
    assert (F : exists pre' b' post', l = pre' ++ b' :: post' /\ fq_set b' = fq_set b /\ forall r, In r pre' -> fq_set r <> fq_set b').
    { clear -Hb. induction l as [|a t IH]; [destruct Hb|]. destruct (string_dec (fq_set a) (fq_set b)) as [E|E].
      - exists [], a, t. split; [reflexivity|]. split; [exact E|]. intros r [].
      - destruct Hb as [->|Hb]; [now elim E|]. destruct (IH Hb) as [pre [b' [post [-> [E' Fr]]]]].
        exists (a :: pre), b', post. split; [reflexivity|]. split; [exact E'|]. intros r [<-|Hr]; [congruence|now apply Fr]. }
    destruct F as [pre' [b' [post' [El' [Eb Fr']]]]].
    assert (Hb' : In b' l) by (rewrite El'; apply in_or_app; right; now left).
    destruct (Ag b' b Hb' Hb Eb) as [Et Ev]. rewrite <- Et, <- Ev, <- Eb in *.
    apply (relation_iff _ _ _ _ _ (Qplus_comp _ _ (set_supply_same l l0 _ P) _ _ (linked_same _)) (Qeq_refl _)).
    apply (Ob pre' b' post' El' Fr'). destruct L as [[r [Hr' [Er O]]]|L]; [left|right].
    + exists r. split; [now apply (perm_in _ _ r P)|]. split; [congruence|]. now apply region_offers_same.
    + now apply some_linked_same.
  - destruct S as [P _]. intros r Hr' L. rewrite <- dispatch_same. apply Ob; [now apply (perm_in _ _ r P)|now apply listed_same].
  - destruct S as [P _]. destruct Ob as [Ob Ob2]. split.
    + intros r d Hr' Nt. destruct (Ob r d) as [O1 O2]; [now apply (perm_in _ _ r P)|now rewrite two_sided_same|]. split; intros L; apply listed_same in L.
      * specialize (O1 L). destruct (String.eqb d "generator"); rewrite <- (proj2 HC), <- !dispatch_same; exact O1.
      * specialize (O2 L). destruct (String.eqb d "generator"); rewrite <- (proj2 HC), <- !dispatch_same; exact O2.
    + intros r Hr' T. destruct (Ob2 r) as [O1 O2]; [now apply (perm_in _ _ r P)|now rewrite two_sided_same|].
      split; intros L; rewrite <- !offers_same in L; rewrite <- (proj2 HC), <- net_same, <- !dispatch_same; auto.
  - destruct S as [P _]. intros t Ht. destruct (Ob t) as [O1 O2]; [now apply (perm_in _ _ t P)|]. split; intros L; apply listed_same in L; rewrite <- !dispatch_same; auto.
  - destruct S as [P _]. intros t Ht L. apply listed_same in L. cbv zeta in Ob. destruct (Ob t) as [O1 O2]; [now apply (perm_in _ _ t P)|exact L|].
    rewrite <- !dispatch_same. now split.
  - destruct Ob as [O1 O2]. split.
    + intros d Hd'. rewrite <- flow_same. apply O1. now apply (perm_in _ _ d S).
    + intros a b Ha Hb E D Na Nb. rewrite <- !flow_same. apply O2; auto; [now apply (perm_in _ _ a S)|now apply (perm_in _ _ b S)].
  - destruct S as [P1 P2]. intros d f Hdd Hf E. destruct (Ob d f) as [O1 [a [b [[A1 [A2 [A3 [A4 [A5 A6]]]]] In']]]];
      [now apply (perm_in _ _ d Hd)|now apply (perm_in _ _ f P1)|exact E|]. split; [now rewrite <- loss_same|]. exists a, b. split.
    + split; [now apply (perm_in _ _ a P2)|]. split; [now apply (perm_in _ _ b P2)|]. repeat (split; [assumption|]).
      intros e He. apply A6. now apply (perm_in _ _ e P2).
    + exact (interpolates_agree _ _ _ _ _ _ _ _ (flow_same _ _) (loss_same _ _) In').
  - destruct S as [P _]. intros g Hg L. apply (relation_iff _ _ _ _ _ (linked_same _) (Qeq_refl _)). apply Ob; [now apply (perm_in _ _ g P)|now apply some_linked_same].
Qed.

End Transfer.

(** ** Histories *)

Lemma F2_in_r {A B} (R : A -> B -> Prop) l l' b : Forall2 R l l' -> In b l' -> exists a, In a l /\ R a b.
Proof.
  induction 1 as [|a0 b0 l l' H0 F IH]; intros H; [destruct H|]. destruct H as [<-|H]; [exists a0; split; [now left|exact H0]|].
  destruct (IH H) as [a [H1 H2]]. exists a. split; [now right|exact H2].
Qed.

Lemma F2_perm {A B} (R : A -> B -> Prop) l l' : Forall2 R l l' -> forall k', Permutation l' k' -> exists k, Permutation l k /\ Forall2 R k k'.
Proof.
  intros F k' P. revert l F. induction P as [|b l' k' P IH|a b l'|l' k' j' P1 IH1 P2 IH2]; intros l F.
  - inversion F; subst. exists []. now split.
  - inversion F; subst. destruct (IH _ H3) as [k [P1 F1]]. exists (x :: k). split; [now constructor|now constructor].
  - inversion F as [|a1 b1 l1 l1' R1 F1]; subst. inversion F1 as [|a2 b2 l2 l2' R2 F2]; subst.
    exists (a2 :: a1 :: l2). split; [apply perm_swap|]. constructor; auto.
  - destruct (IH1 _ F) as [k [Q1 G1]]. destruct (IH2 _ G1) as [j [Q2 G2]]. exists j. split; [now transitivity k|exact G2].
Qed.

Lemma F2_flip {A B} (R : A -> B -> Prop) l l' : Forall2 R l l' -> Forall2 (fun b a => R a b) l' l.
Proof. induction 1; constructor; auto. Qed.
Lemma F2_impl {A B} (R S : A -> B -> Prop) l l' : (forall a b, R a b -> S a b) -> Forall2 R l l' -> Forall2 S l l'.
Proof. induction 2; constructor; auto. Qed.

Lemma agreeing_perm l l' : Permutation l l' -> agreeing l -> agreeing l'.
Proof. intros P A a b Ha Hb. apply A; [now apply (perm_in _ _ a P)|now apply (perm_in _ _ b P)]. Qed.

Lemma same_scada_sym s s' : same_scada s s' -> same_scada s' s.
Proof. destruct s, s'; cbn; try contradiction; auto. intros [E1 [E2 P]]. repeat split; try congruence. now apply Permutation_sym. Qed.
Lemma same_profiles_sym p p' : same_profiles p p' -> same_profiles p' p.
Proof. destruct p, p'; cbn; try contradiction; auto. apply Permutation_sym. Qed.
Lemma same_bid_table_sym t t' : same_bid_table t t' -> same_bid_table t' t.
Proof. intros [P1 P2]. split; now apply Permutation_sym. Qed.
Lemma same_ramps_sym t t' : same_ramps t t' -> same_ramps t' t.
Proof. intros [E1 [E2 P]]. split; [congruence|]. split; [congruence|]. now apply Permutation_sym. Qed.

Lemma same_call_sym o o' : same_call o o' -> same_call o' o.
Proof.
  destruct o, o'; cbn [same_call]; try contradiction; try apply same_bid_table_sym; try (intros P; now apply Permutation_sym);
    try (intros [P E]; split; [now apply Permutation_sym|congruence]).
  - intros [A [B [C [D E]]]]. split; [now apply same_ramps_sym|]. split; [now apply same_scada_sym|]. split; [now apply same_profiles_sym|].
    split; congruence.
  - intros [A [B C]]. split; [now apply (agreeing_perm l)|]. split; [now apply Permutation_sym|congruence].
  - intros [A [B [C D]]]. split; [now apply Permutation_sym|]. split; [now apply same_profiles_sym|]. split; congruence.
  - intros [A B]. split; now apply Permutation_sym.
Qed.

Lemma same_calls_sym ops ops' : same_calls ops ops' -> same_calls ops' ops.
Proof.
  intros [k [P F]]. apply F2_flip in F. destruct (F2_perm _ _ _ F ops (Permutation_sym P)) as [j [Pj Fj]].
  exists j. split; [exact Pj|]. revert Fj. apply F2_impl. intros a b. apply same_call_sym.
Qed.

Lemma same_units_sym c c' : same_units c c' -> same_units c' c.
Proof. intros [P E]. split; [now apply Permutation_sym|congruence]. Qed.

Lemma same_touches o o' : same_call o o' -> touches o = touches o'.
Proof. destruct o, o'; cbn [same_call]; try contradiction; reflexivity. Qed.

Lemma table_perm {A} (f : op -> list A) ops ops' : (forall o o', same_call o o' -> Permutation (f o) (f o')) -> same_calls ops ops' ->
  Permutation (flat_map f ops) (flat_map f ops').
Proof.
  intros H [k [P F]]. transitivity (flat_map f k); [now apply Permutation_flat_map|].
  clear P. induction F as [|a b l l' R F IH]; [constructor|]. cbn. apply Permutation_app; auto.
Qed.

Lemma one_each_same ops ops' : same_calls ops ops' -> one_each ops -> one_each ops'.
Proof.
  intros S. unfold one_each. apply Permutation_NoDup. apply table_perm; [|exact S]. intros o o' E. now rewrite (same_touches _ _ E).
Qed.

Ltac by_table S := apply table_perm; [|exact S]; intros o o' E; destruct o, o'; cbn [same_call] in E; try contradiction E; cbn; auto.
Lemma directions_same ops ops' : same_calls ops ops' -> Permutation (directions ops) (directions ops').
Proof. intros S. unfold directions. by_table S. Qed.
Lemma unit_links_same ops ops' : same_calls ops ops' -> Permutation (unit_links ops) (unit_links ops').
Proof. intros S. unfold unit_links. by_table S. Qed.
Lemma region_links_same ops ops' : same_calls ops ops' -> Permutation (region_links ops) (region_links ops').
Proof. intros S. unfold region_links. by_table S. Qed.
Lemma inter_links_same ops ops' : same_calls ops ops' -> Permutation (inter_links ops) (inter_links ops').
Proof. intros S. unfold inter_links. by_table S. Qed.

Lemma loss_functions_same ops ops' : same_calls ops ops' -> Permutation (loss_functions ops) (loss_functions ops').
Proof. intros S. unfold loss_functions. by_table S. apply E. Qed.

Lemma two_sided_units c c' u : same_units c c' -> (two_sided c u <-> two_sided c' u).
Proof.
  intros [P _]. unfold two_sided, registered. split; intros [[r [H E]] [r' [H' E']]]; (split; [exists r|exists r']); split; auto;
    now apply (perm_in _ _ _ P).
Qed.

Lemma bids_for_same ops ops' u s d : same_calls ops ops' -> bids_for ops u s d -> bids_for ops' u s d.
Proof.
  intros S [t [r [b [Ht [Hr [Hb [E1 [E2 [E3 L]]]]]]]]]. apply same_calls_sym in S. destruct S as [k [P F]].
  assert (Hk : exists o', In o' ops' /\ same_call o' (OpVolumeBids t)).
  { destruct (F2_in_r _ _ _ _ F Ht) as [o [Ho E]]. exists o. split; [now apply (perm_in _ _ o P)|exact E]. }
  destruct Hk as [o' [Ho' E]]. destruct o'; cbn [same_call] in E; try contradiction E. destruct E as [P1 P2].
  exists t0, r, b. split; [exact Ho'|]. split; [now apply (perm_in _ _ r P1)|]. split; [now apply (perm_in _ _ b P2)|]. auto.
Qed.

Lemma in_scope_same c c' ops ops' o o' : same_units c c' -> same_calls ops ops' -> same_call o o' -> in_scope c ops o -> in_scope c' ops' o'.
Proof.
  intros U S E [Ca Sc]. assert (T : forall u, ~ two_sided c u -> ~ two_sided c' u) by (intros u N H; apply N; now apply (two_sided_units c c')).
  destruct o, o'; cbn [same_call] in E; try contradiction E; cbn [cost_arg] in *; (split; [cbn [cost_arg]; try reflexivity; decompose [and] E; congruence|]); cbn [in_scope] in *; auto.
  - destruct E as [[E1 [E2 P]] [_ [_ [E3 _]]]]. destruct Sc as [S1 [S2 [S3 S4]]]. split; [congruence|]. split; [congruence|]. split; [congruence|].
    intros g ld [H1 [H2 [H3 [H4 [H5 H6]]]]]. rewrite <- (proj2 U). apply S4.
    repeat split; auto; try now apply (perm_in _ _ _ (Permutation_map ri_row P)). all: now apply (two_sided_units c c').
  - destruct E as [P _]. intros f Hf. destruct (Sc f) as [S1 S2]; [now apply (perm_in _ _ f P)|]. split; [now apply T|exact S2].
  - intros d Hd. apply Sc. now apply (perm_in _ _ d (directions_same _ _ S)).
  - destruct E as [_ [P _]]. intros r Hr. apply Sc. now apply (perm_in _ _ r P).
  - destruct E as [P [_ [E _]]]. destruct Sc as [S1 S2]. split; [congruence|].
    intros r Hr Tw s Hsv. assert (Z : bids_for ops (rg_unit r) s "generator" <-> bids_for ops (rg_unit r) s "load").
    { apply S2; [now apply (perm_in _ _ r P)|now apply (two_sided_units c c')|exact Hsv]. }
    pose proof (same_calls_sym _ _ S) as S'.
    split; intros B; apply (bids_for_same _ _ _ _ _ S), Z, (bids_for_same _ _ _ _ _ S'), B.
  - destruct E as [P _]. intros t Ht. destruct (Sc t) as [S1 S2]; [now apply (perm_in _ _ t P)|]. split; [exact S1|now apply T].
  - destruct E as [P _]. intros t Ht. destruct (Sc t) as [S1 S2]; [now apply (perm_in _ _ t P)|]. split; [exact S1|].
    intros N. apply S2. now apply (two_sided_units c c').
Qed.

Lemma in_scope_losses_same c c' ops ops' o o' : same_units c c' -> same_calls ops ops' -> same_call o o' ->
  in_scope_losses c ops o -> in_scope_losses c' ops' o'.
Proof.
  intros U S E Sc. destruct o, o'; try contradiction E; try exact (in_scope_same c c' ops ops' _ _ U S E Sc).
  cbn [same_call] in E. destruct E as [P1 P2], Sc as [S1 S2]. split.
  - intros b Hb. destruct (S1 b) as [f [Hf E]]; [now apply (perm_in _ _ b P2)|]. exists f. split; [now apply (perm_in _ _ f P1)|exact E].
  - intros d f Hd Hf E. destruct (S2 d f) as [R [a [b [Ha [Hb T]]]]];
      [now apply (perm_in _ _ d (directions_same _ _ S))|now apply (perm_in _ _ f P1)|exact E|]. split.
    + intros e g He Hg. apply R; [now apply (perm_in _ _ e P2)|now apply (perm_in _ _ g P2)].
    + exists a, b. split; [now apply (perm_in _ _ a P2)|]. split; [now apply (perm_in _ _ b P2)|exact T].
Qed.

Lemma scope_same c c' ops ops' : same_units c c' -> same_calls ops ops' -> (forall o, In o ops -> cost_arg o = None /\ in_scope_losses c ops o) ->
  forall o, In o ops' -> cost_arg o = None /\ in_scope_losses c' ops' o.
Proof.
  intros U S H o' Ho'. pose proof S as [k [P F]]. destruct (F2_in_r _ _ _ _ F Ho') as [o [Ho E]].
  destruct (H o) as [Co Sc]; [now apply (perm_in _ _ o P)|]. split; [|exact (in_scope_losses_same c c' ops ops' o o' U S E Sc)].
  destruct o, o'; cbn [same_call] in E; try contradiction E; cbn [cost_arg] in *; try reflexivity; decompose [and] E; congruence.
Qed.

(** The variables of two such markets. *)
Definition bkey (v : bidvar) := (bv_unit v, bv_service v, bv_dt v, bv_band v).
Definition ikey (v : intervar) := (iv_inter v, iv_link v, iv_gcf v).
Definition lkey (v : lossvar) := (lv_inter v, lv_link v).

Lemma stack_perm t t' : same_bid_table t t' -> Permutation (stack_bids t) (stack_bids t').
Proof.
  intros [P1 P2]. unfold stack_bids. transitivity (flat_map (fun band => map (fun r => (r, band, br_val r band)) (bt_rows t)) (bt_bands t')).
  - now apply Permutation_flat_map.
  - clear P2. induction (bt_bands t') as [|b l IH]; [constructor|]. cbn. apply Permutation_app; [now apply Permutation_map|exact IH].
Qed.

Lemma map_save {A B} (f : A -> B) n l : map (fun p => f (snd p)) (save_index n l) = map f l.
Proof. now rewrite <- (map_map snd f), save_index_snd. Qed.

Lemma app_inv_len {A} (a b a' b' : list A) : a ++ b = a' ++ b' -> length a = length a' -> a = a' /\ b = b'.
Proof.
  revert a'. induction a as [|x a IH]; intros [|y a'] E L; cbn in *; try discriminate; auto.
  injection E as E1 E2. injection L as L. destruct (IH a' E2 L) as [-> ->]. subst. auto.
Qed.

Lemma bid_keys t n : Permutation (map bkey (bid_variables t n))
  (map (fun p => let '(r, band, _) := p in (br_unit r, br_service r, br_dt r, band))
     (filter (fun p => Qle_bool min_bid_volume (snd p)) (stack_bids t))).
Proof.
  unfold bid_variables. rewrite map_map. set (l := sort_rows _ _).
  set (k := fun q : bid_row * string * Q => let '(r, band, _) := q in (br_unit r, br_service r, br_dt r, band)).
  transitivity (map k l); [|unfold l; apply Permutation_map, Permutation_sym, sort_rows_perm].
  rewrite <- (map_save k n l). match goal with |- Permutation ?a ?b => replace a with b; [reflexivity|] end.
  apply map_ext. intros [i [[r band] v]]. reflexivity.
Qed.
Lemma inter_keys l n : map ikey (inter_variables l n) = map (fun r => (in_inter r, in_link r, in_gcf r)) l.
Proof.
  unfold inter_variables. rewrite map_map, <- (map_save (fun r => (in_inter r, in_link r, in_gcf r)) n l).
  apply map_ext. intros [i r]. reflexivity.
Qed.

Lemma map_flat {A B C} (f : B -> C) (g : A -> list B) l : map f (flat_map g l) = flat_map (fun a => map f (g a)) l.
Proof. induction l as [|a t IH]; [reflexivity|]. cbn. now rewrite map_app, IH. Qed.
Lemma flat_map_map {A B C} (f : A -> B) (g : B -> list C) l : flat_map g (map f l) = flat_map (fun a => g (f a)) l.
Proof. induction l as [|a t IH]; [reflexivity|]. cbn. now rewrite IH. Qed.
Lemma perm_flat {A B} (f g : A -> list B) l l' : (forall a, Permutation (f a) (g a)) -> Permutation l l' -> Permutation (flat_map f l) (flat_map g l').
Proof.
  intros E P. transitivity (flat_map f l'); [now apply Permutation_flat_map|]. clear P. induction l' as [|a t IH]; [constructor|].
  cbn. now apply Permutation_app.
Qed.
Lemma shares_perm lf lf' dirs dirs' : Permutation lf lf' -> Permutation dirs dirs' -> Permutation (loss_shares lf dirs) (loss_shares lf' dirs').
Proof.
  intros P1 P2. unfold loss_shares, merge. apply Permutation_map, perm_flat; [|exact P1]. intros f. now apply Permutation_map, perm_filter.
Qed.
Lemma loss_keys vs ls n : map lkey (loss_variables vs ls n)
  = flat_map (fun k => map (fun _ => fst k) (filter (fun q => same_link (fst (fst k)) (snd (fst k)) (lf_inter (fst q)) (lf_link (fst q))) ls)) (map ikey vs).
Proof.
  unfold loss_variables, loss_rows, merge. rewrite map_map, map_flat, flat_map_map.
  set (g := fun v => map (fun _ => fst (ikey v)) (filter (fun q : lossfn_row * string => same_link (fst (fst (ikey v))) (snd (fst (ikey v))) (lf_inter (fst q)) (lf_link (fst q))) ls)).
  transitivity (flat_map g (map snd (save_index n vs))); [|now rewrite save_index_snd].
  rewrite flat_map_map. apply flat_map_ext. intros [i v]. rewrite map_map. reflexivity.
Qed.

(** ** Histories without violation costs *)

Section Free.
Variables (c : config) (m0 : market) (ops : list op).
Hypothesis H0 : new_market c = Ok m0.
Hypothesis Hs : sane ops m0.
Hypothesis Ha : accepted ops m0.
Hypothesis H1 : one_each ops.
Hypothesis Hp : forall o, In o ops -> cost_arg o = None /\ in_scope_losses c ops o.
Let m := run ops m0.

Lemma free_elastic k v : ~ In (OpElastic k v) ops.
Proof. intros H. destruct (Hp _ H) as [E _]. discriminate E. Qed.
Lemma free_settings : one_each (settings ops).
Proof.
  replace (settings ops) with ops; [exact H1|]. assert (N := free_elastic). clear -N.
  induction ops as [|o t IH]; [reflexivity|]. cbn [settings filter]. fold (settings t).
  rewrite <- IH by (intros k v H; apply (N k v); now right). destruct o; try reflexivity. exfalso. apply (N k v). now left.
Qed.
Lemma free_scope o : In o ops -> cost_arg o = None -> in_scope_losses c ops o.
Proof. intros Ho _. now apply Hp. Qed.
Lemma free_network : network c (directions ops) (loss_functions ops) (break_points ops) m.
Proof. apply (table_network c m0 ops H0 Hs Ha free_settings free_scope). intros v. apply free_elastic. Qed.
Lemma free_bids : (exists t n, In (OpVolumeBids t) ops /\ rows_or_nil (m_bids m) = bid_variables t n
     /\ exists m', m_cfg m' = c /\ check_bids true m' t = None)
  \/ (m_bids m = None /\ forall t, ~ In (OpVolumeBids t) ops).
Proof. exact (bids_or_none c m0 ops H0 Hs Ha free_settings free_scope). Qed.
Lemma free_soft : soft_groups ops m [].
Proof. intros k. split; [|intros []]. intros [_ [o [Ho [_ Hc]]]]. apply Hc. apply (Hp o Ho). Qed.
Lemma free_deficits : m_deficits m = [].
Proof.
  destruct (booked c ops m0 ops H0 Hs Ha free_settings free_scope) as [B [F [_ [Bk [Fl _]]]]]. fold m in Bk.
  destruct (m_deficits m) as [|[k l] t] eqn:D; [reflexivity|]. exfalso.
  destruct (bk_def _ _ _ _ Bk k l) as [k' [Hk' _]]; [rewrite D; now left|].
  destruct (Fl k' Hk') as [o [Ho [_ Hc]]]. apply Hc. apply (Hp o Ho).
Qed.
Lemma free_exact x p : assemble m = Ok p ->
  ((exists y, same_but_weights m x y /\ feasible p y) <-> forall o, In o ops -> obeys ops m x o).
Proof.
  intros A. assert (So : all_softened c m []) by (split; [constructor|intros s []]).
  assert (To : together ops m). { intros o k k' _ _ _ S _. apply free_soft in S. destruct S. }
  pose proof (losses_exact c m0 ops p [] H0 Hs Ha free_settings free_scope (free_elastic _) So free_soft To A x) as E. fold m in E.
  assert (F : forall y, hard_feasible p m [] y <-> feasible p y).
  { intros y. unfold hard_feasible, feasible. cbn [is_slack existsb]. split; intros [V [K R]]; (split; [|split; [|exact R]]).
    - intros v Hv. now apply V. - intros k Hk. apply K; [exact Hk|]. intros s [].
    - intros v Hv _. now apply V. - intros k Hk _. now apply K. }
  split.
  - intros [y [S Fy]] o Ho. apply E; [exists y; split; [exact S|now apply F]|exact Ho|]. intros k o' _ Ho' _. apply (Hp o' Ho').
  - intros O. destruct (proj2 E) as [y [S Fy]]; [intros o Ho _; now apply O|]. exists y. split; [exact S|now apply F].
Qed.
Lemma free_agree x y : same_but_weights m x y -> same_dispatch m x m y.
Proof.
  intros S. destruct (plain_agree c m0 ops H0 Hs x y S) as [B [I L]]. split; [|split]; intros; symmetry.
  - now apply band_agree. - now apply flow_agree. - now apply loss_agree.
Qed.
End Free.

(** ** What dispatch costs *)

Section Cost.
Variables (c : config) (m0 : market) (ops : list op).
Hypothesis H0 : new_market c = Ok m0.
Hypothesis Hs : sane ops m0.
Hypothesis Ha : accepted ops m0.
Hypothesis H1 : one_each ops.
Hypothesis Hp : forall o, In o ops -> cost_arg o = None /\ in_scope_losses c ops o.
Let m := run ops m0.

Lemma no_violations x : violations_cost m x == 0.
Proof.
  unfold violations_cost. change (qsum (map ?f ?l)) with (sumQ f l). apply sumQ_zero. intros k Hk. exfalso.
  pose proof (cost_is_def m k (reached_paired c m (hist_reached c m0 ops H0 Hs)) Hk) as D. unfold m in D. rewrite (free_deficits c m0 ops H0 Hs Ha H1 Hp) in D. destruct D.
Qed.

Lemma price_after_volume tp : In (OpPriceBids tp) ops -> exists tv, SpecPrices.priced c tv tp m.
Proof.
  intros Hin. destruct (in_split _ _ Hin) as [pre [post E]].
  pose proof Ha as Ac. rewrite E in Ac. apply accepted_at in Ac. cbn [step] in Ac. unfold set_price_bids in Ac.
  destruct (isb (fun o => match o with OpVolumeBids _ => true | _ => false end) pre) as [[o [Ho Eo]]|N].
  2:{ exfalso. assert (L : leaves "bids" pre).
      { intros o Ho Hk. specialize (N o Ho). destruct o; cbn in Hk; try (intuition discriminate).
        apply (free_elastic c ops Hp k v). rewrite E. apply in_or_app. now left. }
      destruct (run_same_table "bids" pre m0 L) as [K _]. destruct (K eq_refl) as [K1 _]. rewrite K1 in Ac.
      unfold new_market in H0. destruct (check_unit_info c); inversion H0; subst m0. discriminate Ac. }
  destruct o as [tv| | | | | | | | | | | | | | | | | | | |]; try discriminate Eo. destruct (in_split _ _ Ho) as [pre1 [mid Ep]]. exists tv. exists m0, pre1, mid, post.
  assert (E2 : ops = pre1 ++ OpVolumeBids tv :: mid ++ OpPriceBids tp :: post) by (rewrite E, Ep, <- app_assoc; reflexivity).
  pose proof Ha as A2. rewrite E2 in A2. pose proof (accepted_at _ _ _ _ A2) as A1.
  pose proof H1 as N1. rewrite E2 in N1.
  assert (Lb : leaves "bids" (mid ++ OpPriceBids tp :: post)).
  { intros o Ho' Hk. unfold one_each in N1. rewrite flat_map_app in N1. apply NoDup_app_inv in N1. destruct N1 as [_ [N1 _]].
    cbn [flat_map touches app] in N1. inversion N1 as [|? ? N2 _]. apply N2. apply in_flat_map. eauto. }
  assert (Lp : leaves "prices" post).
  { intros o Ho' Hk. pose proof H1 as N3. rewrite E in N3. unfold one_each in N3. rewrite flat_map_app in N3. apply NoDup_app_inv in N3.
    destruct N3 as [_ [N3 _]]. cbn [flat_map touches app] in N3. inversion N3 as [|? ? N4 _]. apply N4. apply in_flat_map. eauto. }
  split; [exact H0|]. split; [rewrite <- E2; exact Hs|]. split; [exact A1|]. split.
  { rewrite <- Ep. cbn [step]. unfold set_price_bids. exact Ac. }
  split; [intros o Ho'; apply Lb; apply in_or_app; now left|]. split; [intros o Ho'; apply Lb; apply in_or_app; right; now right|].
  split; [exact Lp|]. unfold m. now rewrite E2.
Qed.

Lemma hist_cost p x : assemble m = Ok p ->
  (exists tp, In (OpPriceBids tp) ops /\ objective p x == bids_cost c m tp x)
  \/ ((forall tp, ~ In (OpPriceBids tp) ops) /\ objective p x == 0).
Proof.
  intros A. destruct (isb (fun o => match o with OpPriceBids _ => true | _ => false end) ops) as [[o [Ho Eo]]|N].
  - left. destruct o as [|tp| | | | | | | | | | | | | | | | | | |]; try discriminate Eo. exists tp. split; [exact Ho|].
    destruct (price_after_volume tp Ho) as [tv P]. rewrite (bids_objective c tv tp m p x P A), no_violations. ring.
  - right. split; [intros tp Ht; specialize (N _ Ht); discriminate N|].
    assert (L : leaves "prices" ops).
    { intros o Ho Hk. specialize (N o Ho). destruct o; cbn in Hk; try (intuition discriminate). now apply (free_elastic c ops Hp k v). }
    destruct (run_same_table "prices" ops m0 L) as [_ [K _]]. specialize (K eq_refl). fold m in K.
    assert (Z : m_obj_bids m = None).
    { rewrite K. unfold new_market in H0. destruct (check_unit_info c); inversion H0; subst m0. reflexivity. }
    apply assemble_parts in A. destruct A as [_ [Ao _]]. unfold objective. rewrite Ao, linear_sum. unfold all_costs. rewrite Z. cbn [rows_or_nil map app].
    rewrite sumQ_map. cbn [fst snd]. rewrite <- (no_violations x). unfold violations_cost. change (qsum (map ?f ?l)) with (sumQ f l). apply sumQ_ext. intros; ring.
Qed.

End Cost.

Section Two.
Variables (c c' : config) (m0 m0' : market) (ops ops' : list op).
Hypothesis H0 : new_market c = Ok m0.
Hypothesis H0' : new_market c' = Ok m0'.
Hypothesis Hs : sane ops m0.
Hypothesis Hs' : sane ops' m0'.
Hypothesis Ha : accepted ops m0.
Hypothesis Ha' : accepted ops' m0'.
Hypothesis H1 : one_each ops.
Hypothesis Hp : forall o, In o ops -> cost_arg o = None /\ in_scope_losses c ops o.
Hypothesis HU : same_units c c'.
Hypothesis HS : same_calls ops ops'.
Let m := run ops m0.
Let m' := run ops' m0'.

Lemma H1' : one_each ops'.
Proof. exact (one_each_same _ _ HS H1). Qed.
Lemma Hp' : forall o, In o ops' -> cost_arg o = None /\ in_scope_losses c' ops' o.
Proof. exact (scope_same _ _ _ _ HU HS Hp). Qed.

Lemma twin o' : In o' ops' -> exists o, In o ops /\ same_call o o'.
Proof.
  intros H. destruct HS as [k [P F]]. destruct (F2_in_r _ _ _ _ F H) as [o [Ho E]]. exists o. split; [|exact E]. now apply (perm_in _ _ o P).
Qed.
Lemma twin_back o : In o ops -> exists o', In o' ops' /\ same_call o o'.
Proof.
  intros H. destruct (same_calls_sym _ _ HS) as [k [P F]]. destruct (F2_in_r _ _ _ _ F H) as [o' [Ho E]].
  exists o'. split; [now apply (perm_in _ _ o' P)|]. now apply same_call_sym.
Qed.

Lemma one_volume ops1 t t1 : one_each ops1 -> In (OpVolumeBids t) ops1 -> In (OpVolumeBids t1) ops1 -> t = t1.
Proof.
  clear. intros H1 Ht Ht1. destruct (in_split _ _ Ht) as [pre [post Eo]]. rewrite Eo in Ht1, H1. unfold one_each in H1.
  rewrite flat_map_app in H1. cbn [flat_map] in H1. apply NoDup_app_inv in H1. destruct H1 as [_ [N2 N3]].
  inversion N2 as [|? ? N4 _]; subst. apply in_app_or in Ht1. destruct Ht1 as [Ht'|[Ht'|Ht']]; [exfalso|now inversion Ht'|exfalso].
  - apply (N3 "bids"); [|now left]. apply in_flat_map. exists (OpVolumeBids t1). split; [exact Ht'|now left].
  - apply N4. cbn [app]. apply in_flat_map. exists (OpVolumeBids t1). split; [exact Ht'|now left].
Qed.

Lemma bids_keys_same : Permutation (map bkey (rows_or_nil (m_bids m))) (map bkey (rows_or_nil (m_bids m'))).
Proof.
  destruct (free_bids c m0 ops H0 Hs Ha H1 Hp) as [[t [n [Ht [E _]]]]|[E N]];
  destruct (free_bids c' m0' ops' H0' Hs' Ha' H1' Hp') as [[t' [n' [Ht' [E' _]]]]|[E' N']].
  - fold m in E. fold m' in E'. rewrite E, E', !bid_keys. apply Permutation_map, perm_filter, stack_perm.
    destruct (twin _ Ht') as [o [Ho S]]. destruct o; try contradiction S. now rewrite (one_volume ops t t0 H1 Ht Ho).
  - exfalso. destruct (twin_back _ Ht) as [o' [Ho S]]. destruct o'; try contradiction S. exact (N' _ Ho).
  - exfalso. destruct (twin _ Ht') as [o [Ho S]]. destruct o; try contradiction S. exact (N _ Ho).
  - fold m in E. fold m' in E'. rewrite E, E'. constructor.
Qed.
Lemma inter_keys_same : Permutation (map ikey (rows_or_nil (m_inter m))) (map ikey (rows_or_nil (m_inter m'))).
Proof.
  destruct (network_inv _ _ _ _ _ (free_network c m0 ops H0 Hs Ha H1 Hp)) as [_ [_ [n [nv T]]]].
  destruct (network_inv _ _ _ _ _ (free_network c' m0' ops' H0' Hs' Ha' H1' Hp')) as [_ [_ [n' [nv' T']]]].
  fold m in T. fold m' in T'. rewrite (nt_inter _ _ _ _ _ T), (nt_inter _ _ _ _ _ T'), !inter_keys.
  apply Permutation_map. now apply directions_same.
Qed.
Lemma loss_keys_same : Permutation (map lkey (rows_or_nil (m_loss m))) (map lkey (rows_or_nil (m_loss m'))).
Proof.
  destruct (network_inv _ _ _ _ _ (free_network c m0 ops H0 Hs Ha H1 Hp)) as [_ [_ [n [nv T]]]].
  destruct (network_inv _ _ _ _ _ (free_network c' m0' ops' H0' Hs' Ha' H1' Hp')) as [_ [_ [n' [nv' T']]]].
  fold m in T. fold m' in T'. pose proof inter_keys_same as K. rewrite (nt_inter _ _ _ _ _ T), (nt_inter _ _ _ _ _ T') in K.
  rewrite (nt_loss _ _ _ _ _ T), (nt_loss _ _ _ _ _ T'), !loss_keys. apply perm_flat; [|exact K].
  intros k. apply Permutation_map, perm_filter, shares_perm; [now apply loss_functions_same|now apply directions_same].
Qed.

(** Every assignment of one market has a counterpart in the other. *)
Lemma counterpart x : exists x',
  Permutation (map (bcell x) (rows_or_nil (m_bids m))) (map (bcell x') (rows_or_nil (m_bids m')))
  /\ Permutation (map (icell x) (rows_or_nil (m_inter m))) (map (icell x') (rows_or_nil (m_inter m')))
  /\ Permutation (map (lcell x) (rows_or_nil (m_loss m))) (map (lcell x') (rows_or_nil (m_loss m'))).
Proof.
  destruct (relabel bkey bv_id _ _ bids_keys_same x) as [qb [Lb Kb]]. destruct (relabel ikey iv_id _ _ inter_keys_same x) as [qi [Li Ki]].
  destruct (relabel lkey lv_id _ _ loss_keys_same x) as [ql [Ll Kl]].
  destruct (reached_owned c' m' (hist_reached c' m0' ops' H0' Hs')) as [[W _] _]. pose proof (proj1 (wf_vars _ W)) as N.
  unfold var_ids in N. rewrite !app_assoc in N. apply NoDup_app_inv in N. destruct N as [N _]. apply NoDup_app_inv in N. destruct N as [N _].
  rewrite <- app_assoc in N.
  set (ids := map bv_id (rows_or_nil (m_bids m')) ++ map iv_id (rows_or_nil (m_inter m')) ++ map lv_id (rows_or_nil (m_loss m'))) in *.
  set (qs := qb ++ qi ++ ql). exists (fun i => look i ids qs).
  assert (L : length ids = length qs) by (unfold ids, qs; rewrite !app_length, !map_length; congruence).
  pose proof (look_all ids qs N L) as E. unfold ids at 2, qs at 2 in E. rewrite !map_app, !map_map in E.
  apply app_inv_len in E; [|rewrite map_length; congruence]. destruct E as [E1 E2].
  apply app_inv_len in E2; [|rewrite map_length; congruence]. destruct E2 as [E2 E3].
  split; [exact (Kb (fun i => look i ids qs) E1)|]. split; [exact (Ki (fun i => look i ids qs) E2)|exact (Kl (fun i => look i ids qs) E3)].
Qed.

Lemma one_price ops1 t t1 : one_each ops1 -> In (OpPriceBids t) ops1 -> In (OpPriceBids t1) ops1 -> t = t1.
Proof.
  clear. intros H1 Ht Ht1. destruct (in_split _ _ Ht) as [pre [post Eo]]. rewrite Eo in Ht1, H1. unfold one_each in H1.
  rewrite flat_map_app in H1. cbn [flat_map] in H1. apply NoDup_app_inv in H1. destruct H1 as [_ [N2 N3]].
  inversion N2 as [|? ? N4 _]; subst. apply in_app_or in Ht1. destruct Ht1 as [Ht'|[Ht'|Ht']]; [exfalso|now inversion Ht'|exfalso].
  - apply (N3 "prices"); [|now left]. apply in_flat_map. exists (OpPriceBids t1). split; [exact Ht'|now left].
  - apply N4. cbn [app]. apply in_flat_map. exists (OpPriceBids t1). split; [exact Ht'|now left].
Qed.

Lemma bids_cost_same tp tp' x x' : same_bid_table tp tp' ->
  (forall u s d b, band_dispatch m x u s d b == band_dispatch m' x' u s d b) -> bids_cost c m tp x == bids_cost c' m' tp' x'.
Proof.
  intros [P1 P2] E. unfold bids_cost. change (qsum (map ?f ?l)) with (sumQ f l). rewrite (sumQ_perm _ _ _ P1). apply sumQ_ext. intros r.
  change (qsum (map ?f ?l)) with (sumQ f l). rewrite (sumQ_perm _ _ _ P2). apply sumQ_ext. intros b.
  change (qsum (map ?f ?l)) with (sumQ f l). rewrite (sumQ_perm _ _ _ (perm_filter _ _ _ (proj1 HU))). apply sumQ_ext. intros u. now rewrite E.
Qed.

Lemma scada_ok o : In o ops -> scada_once o.
Proof.
  intros Ho. destruct o; cbn; auto. destruct s as [s|]; [|exact I].
  destruct (in_split _ _ Ho) as [pre [post E]]. pose proof Ha as Ac. rewrite E in Ac. apply accepted_at in Ac. cbn [step] in Ac. unfold set_ramp in Ac.
  apply guard_none in Ac. destruct Ac as [_ Ac]. apply guard_none in Ac. destruct Ac as [_ Ac].
  apply guard_none in Ac. destruct Ac as [_ Ac]. apply guard_none in Ac. destruct Ac as [Cs _].
  unfold check_scada in Cs. pose proof (no_repeats_in (fun a b => String.eqb (sc_unit a) (sc_unit b)) (st_rows s) _ Cs ltac:(cbn; auto)) as F.
  clear -F. induction F as [|a l Fa F IH]; cbn; constructor; auto. intros H. apply in_map_iff in H. destruct H as [b [E H]].
  rewrite Forall_forall in Fa. specialize (Fa b H). cbn in Fa. apply String.eqb_neq in Fa. congruence.
Qed.

Lemma shuffled p p' x : assemble m = Ok p -> assemble m' = Ok p' -> feasible p x ->
  exists x', feasible p' x' /\ same_dispatch m x m' x' /\ objective p x == objective p' x'.
Proof.
  intros A A' F. destruct (counterpart x) as [x' [KB [KI KL]]].
  assert (C : same_units (m_cfg m) (m_cfg m')).
  { unfold m, m'. rewrite (hist_cfg c m0 ops H0), (hist_cfg c' m0' ops' H0'). exact HU. }
  pose proof (band_same m m' x x' KB) as SB. pose proof (flow_same m m' x x' KI) as SF. pose proof (loss_same m m' x x' KL) as SL.
  assert (O : forall o, In o ops -> obeys ops m x o).
  { apply (free_exact c m0 ops H0 Hs Ha H1 Hp x p A). exists x. split; [intros i _; reflexivity|exact F]. }
  assert (O' : forall o, In o ops' -> obeys ops' m' x' o).
  { intros o' Ho'. destruct (twin o' Ho') as [o [Ho E]].
    apply (obeys_same ops ops' m m' x x' KB KI KL C (directions_same _ _ HS) (unit_links_same _ _ HS) (region_links_same _ _ HS) (inter_links_same _ _ HS)
      (loss_functions_same _ _ HS) o o' E); [now apply scada_ok|now apply O]. }
  apply (free_exact c' m0' ops' H0' Hs' Ha' H1' Hp' x' p' A') in O'. destruct O' as [y [Sy Fy]]. exists y. split; [exact Fy|].
  destruct (free_agree c' m0' ops' H0' Hs' x' y Sy) as [GB [GF GL]]. fold m' in GB, GF, GL.
  assert (SB' : forall u s d b, band_dispatch m x u s d b == band_dispatch m' y u s d b) by (intros; now rewrite SB, GB).
  split.
  - split; [exact SB'|]. split; intros; [now rewrite SF, GF|now rewrite SL, GL].
  - destruct (hist_cost c m0 ops H0 Hs Ha H1 Hp p x A) as [[tp [Ht E]]|[N E]];
    destruct (hist_cost c' m0' ops' H0' Hs' Ha' H1' Hp' p' y A') as [[tp' [Ht' E']]|[N' E']]; rewrite E, E'.
    + destruct (twin _ Ht') as [o [Ho S]]. destruct o; try contradiction S. rewrite (one_price ops tp t H1 Ht Ho). now apply bids_cost_same.
    + exfalso. destruct (twin_back _ Ht) as [o' [Ho S]]. destruct o'; try contradiction S. exact (N' _ Ho).
    + exfalso. destruct (twin _ Ht') as [o [Ho S]]. destruct o; try contradiction S. exact (N _ Ho).
    + reflexivity.
Qed.

End Two.

Lemma shuffled_history c c' m0 m0' ops ops' p p' x :
  new_market c = Ok m0 -> new_market c' = Ok m0' -> sane ops m0 -> sane ops' m0' -> accepted ops m0 -> accepted ops' m0' ->
  one_each ops -> (forall o, In o ops -> cost_arg o = None /\ in_scope_losses c ops o) -> same_units c c' -> same_calls ops ops' ->
  assemble (run ops m0) = Ok p -> assemble (run ops' m0') = Ok p' -> feasible p x ->
  exists x', feasible p' x' /\ same_dispatch (run ops m0) x (run ops' m0') x' /\ objective p x == objective p' x'.
Proof. intros. now apply (shuffled c c' m0 m0' ops ops'). Qed.

Lemma shuffled_optimum c c' m0 m0' ops ops' p p' x :
  new_market c = Ok m0 -> new_market c' = Ok m0' -> sane ops m0 -> sane ops' m0' -> accepted ops m0 -> accepted ops' m0' ->
  one_each ops -> (forall o, In o ops -> cost_arg o = None /\ in_scope_losses c ops o) -> same_units c c' -> same_calls ops ops' ->
  assemble (run ops m0) = Ok p -> assemble (run ops' m0') = Ok p' -> optimal p x ->
  exists x', optimal p' x' /\ same_dispatch (run ops m0) x (run ops' m0') x' /\ objective p x == objective p' x'.
Proof.
  intros A1 A2 A3 A4 A5 A6 A7 A8 A9 A10 A11 A12 [F O].
  destruct (shuffled_history c c' m0 m0' ops ops' p p' x A1 A2 A3 A4 A5 A6 A7 A8 A9 A10 A11 A12 F) as [x' [F' [S E]]].
  exists x'. split; [|now split]. split; [exact F'|]. intros y Fy.
  destruct (shuffled_history c' c m0' m0 ops' ops p' p y A2 A1 A4 A3 A6 A5 (one_each_same _ _ A10 A7) (scope_same _ _ _ _ A9 A10 A8)
    (same_units_sym _ _ A9) (same_calls_sym _ _ A10) A12 A11 Fy) as [y' [Fy' [_ Ey]]].
  rewrite <- E, Ey. now apply O.
Qed.
