(** Lemmas for C82: how dispatch answers to price bids. *)

From Coq Require Import QArith Lqa String List Bool Arith Lia Permutation.
Import ListNotations.
From Verif Require Import PandasModel TablesModel MarketModel SolverModel DispatchModel SpecLp SpecHistory SpecDispatch SpecPrices SpecSolver SpecSupply
  PandasFacts InvariantFacts BidFacts BalanceFacts SolverFacts PriceFacts PriceTheoremFacts ExchangeFacts StepFacts DispatchFacts.
Open Scope string_scope.
Open Scope list_scope.

(** ** The cells of a table *)

Definition cell := (string * string * string * string)%type.
Definition cells (t : bid_table) : list (cell * Q) :=
  flat_map (fun r => map (fun b => ((br_unit r, br_service r, br_dt r, b), br_val r b)) (bt_bands t)) (bt_rows t).

Lemma cells_offered : forall t u s d b q, In ((u, s, d, b), q) (cells t) <-> offered t u s d b q.
Proof.
  intros t u s d b q. unfold cells. rewrite in_flat_map. split.
  - intros [r [R H]]. apply in_map_iff in H. destruct H as [b' [E B]]. injection E as <- <- <- <- <-. exists r. auto 10.
  - intros [r [R [<- [<- [<- [B ->]]]]]]. exists r. split; [exact R|]. apply in_map_iff. eauto.
Qed.

Lemma cells_keys : forall pos m t, check_bids pos m t = None -> NoDup (map fst (cells t)).
Proof.
  intros pos m t Ck. unfold cells. pose proof (check_bids_bands pos m t Ck) as B. pose proof (check_bids_rows pos m t Ck) as R.
  induction R as [|r l Hr R IH]; [constructor|]. cbn [flat_map]. rewrite map_app. apply NoDup_app_iff. split; [|split; [exact IH|]].
  - rewrite map_map. cbn [fst]. apply FinFun.Injective_map_NoDup; [|exact B]. intros b b' E. now injection E.
  - intros k H1 H2. rewrite map_map in H1. apply in_map_iff in H1. destruct H1 as [b [<- _]].
    apply in_map_iff in H2. destruct H2 as [[k' q] [E H2]]. cbn [fst] in E. apply in_flat_map in H2. destruct H2 as [r' [Hr' H2]].
    apply in_map_iff in H2. destruct H2 as [b' [E' _]]. injection E' as <- _. injection E as E1 E2 E3 _.
    rewrite Forall_forall in Hr. specialize (Hr r' Hr'). unfold same_bid in Hr. rewrite E1, E2, E3, !String.eqb_refl in Hr. discriminate.
Qed.

(** ** What a cell costs per dollar *)

Definition factor (c : config) (k : cell) : Q :=
  let '(u, s, d, b) := k in
  sumQ (fun ui => mw_cost (ui_lf ui) s d 1) (filter (fun ui => String.eqb u (ui_unit ui) && String.eqb d (ui_dt ui)) (c_ui c)).
Definition taken (m : market) (x : assignment) (k : cell) : Q := let '(u, s, d, b) := k in band_dispatch m x u s d b.

Lemma mw_cost_linear : forall lf s d q, mw_cost lf s d q == q * mw_cost lf s d 1.
Proof. intros. unfold mw_cost. destruct (String.eqb s "energy"); [destruct (String.eqb d "load")|]; unfold Qdiv; ring. Qed.

Lemma cost_by_cells : forall c m t x, bids_cost c m t x == sumQ (fun a => snd a * (factor c (fst a) * taken m x (fst a))) (cells t).
Proof.
  intros c m t x. unfold cells, bids_cost. rewrite sumQ_flat_map. change (qsum (map ?f ?l)) with (sumQ f l). apply sumQ_ext. intros r.
  rewrite sumQ_map. apply sumQ_ext. intros b. cbn [fst snd]. unfold factor, taken.
  rewrite <- sumQ_const_scale, <- sumQ_scale. apply sumQ_ext. intros ui. rewrite mw_cost_linear. ring.
Qed.

Lemma factor_plus : forall c u s d b, positive_factors c -> String.eqb s "energy" && String.eqb d "load" = false -> 0 <= factor c (u, s, d, b).
Proof.
  intros c u s d b P E. apply sumQ_nonneg. intros ui H. apply filter_In in H. destruct H as [H _]. specialize (P ui H). unfold mw_cost.
  destruct (String.eqb s "energy"); [|lra]. destruct (String.eqb d "load"); [discriminate|]. apply Qle_shift_div_l; lra.
Qed.
Lemma factor_minus : forall c u s d b, positive_factors c -> String.eqb s "energy" && String.eqb d "load" = true -> factor c (u, s, d, b) <= 0.
Proof.
  intros c u s d b P E. unfold factor. rewrite <- (sumQ_zero (fun _ => 0) (filter (fun ui => String.eqb u (ui_unit ui) && String.eqb d (ui_dt ui)) (c_ui c))) by reflexivity.
  apply sumQ_le. intros ui H. apply filter_In in H. destruct H as [H _]. specialize (P ui H). unfold mw_cost.
  apply andb_true_iff in E. destruct E as [-> ->]. assert (0 <= 1 / ui_lf ui) by (apply Qle_shift_div_l; lra). lra.
Qed.
Lemma sumQ_pos : forall {A} (f : A -> Q) l a, In a l -> 0 < f a -> (forall b, In b l -> 0 <= f b) -> 0 < sumQ f l.
Proof.
  intros A f l a H Fa F. induction l as [|b l IH]; [destruct H|]. rewrite sumQ_cons. destruct H as [->|H].
  - assert (0 <= sumQ f l) by (apply sumQ_nonneg; intros; apply F; now right). lra.
  - assert (0 <= f b) by (apply F; now left). assert (0 < sumQ f l) by (apply IH; auto; intros; apply F; now right). lra.
Qed.
Lemma factor_registered : forall c u s d b, positive_factors c -> registered c u d ->
  if String.eqb s "energy" && String.eqb d "load" then factor c (u, s, d, b) < 0 else 0 < factor c (u, s, d, b).
Proof.
  intros c u s d b P [ui [H [<- <-]]].
  assert (I : In ui (filter (fun w => String.eqb (ui_unit ui) (ui_unit w) && String.eqb (ui_dt ui) (ui_dt w)) (c_ui c))) by (apply filter_In; rewrite !String.eqb_refl; auto).
  assert (D : forall w, In w (c_ui c) -> 0 < 1 / ui_lf w) by (intros w K; specialize (P w K); apply Qlt_shift_div_l; lra).
  unfold factor. destruct (String.eqb s "energy" && String.eqb (ui_dt ui) "load") eqn:E.
  - assert (0 < sumQ (fun w => - mw_cost (ui_lf w) s (ui_dt ui) 1) (filter (fun w => String.eqb (ui_unit ui) (ui_unit w) && String.eqb (ui_dt ui) (ui_dt w)) (c_ui c))).
    { apply andb_true_iff in E. destruct E as [E1 E2].
      apply sumQ_pos with ui; [exact I| |]; unfold mw_cost; rewrite E1, E2; [specialize (D ui H); lra|].
      intros w K. apply filter_In in K. destruct K as [K _]. specialize (D w K). lra. }
    assert (Z : forall (l : list unit_info_row), sumQ (fun w => - mw_cost (ui_lf w) s (ui_dt ui) 1) l == - sumQ (fun w => mw_cost (ui_lf w) s (ui_dt ui) 1) l).
    { intros l. induction l as [|w l IH]; [reflexivity|]. rewrite !sumQ_cons, IH. ring. }
    rewrite Z in H0. lra.
  - apply sumQ_pos with ui; [exact I| |]; unfold mw_cost.
    + specialize (D ui H). destruct (String.eqb s "energy"); [destruct (String.eqb (ui_dt ui) "load"); [discriminate|exact D]|lra].
    + intros w K. apply filter_In in K. destruct K as [K _]. specialize (D w K). destruct (String.eqb s "energy"); [destruct (String.eqb (ui_dt ui) "load"); [discriminate|lra]|lra].
Qed.

(** ** Comparing two tables *)

Lemma align : forall l l' : list (cell * Q), NoDup (map fst l) -> NoDup (map fst l') -> (forall k, In k (map fst l) <-> In k (map fst l')) ->
  exists l'', Permutation l' l'' /\ map fst l'' = map fst l.
Proof.
  intros l l' N N' S. assert (P : Permutation (map fst l) (map fst l')) by (apply NoDup_Permutation; auto).
  apply Permutation_map_inv in P. destruct P as [l3 [E P]]. exists l3. auto.
Qed.
Lemma aligned_sum : forall (W : cell -> Q) l l', map fst l' = map fst l ->
  sumQ (fun a => snd a * W (fst a)) l' - sumQ (fun a => snd a * W (fst a)) l
  == sumQ (fun p => (snd (snd p) - snd (fst p)) * W (fst (fst p))) (combine l l').
Proof.
  intros W l. induction l as [|a l IH]; intros [|a' l'] E; try discriminate; cbn [combine]; rewrite ?sumQ_nil, ?sumQ_cons; [ring|].
  injection E as Ea E. rewrite <- IH by exact E. cbn [fst snd]. rewrite Ea. ring.
Qed.
Lemma combine_fst : forall (l l' : list (cell * Q)) p, map fst l' = map fst l -> In p (combine l l') -> In (fst p) l /\ In (snd p) l' /\ fst (fst p) = fst (snd p).
Proof.
  intros l. induction l as [|a l IH]; intros [|a' l'] p E H; try discriminate; [destruct H|]. injection E as Ea E. destruct H as [<-|H].
  - cbn. auto.
  - destruct (IH l' p E H) as [A [B C]]. cbn. auto.
Qed.

Lemma keys_of_offers : forall t k, In k (map fst (cells t)) <-> exists q, let '(u, s, d, b) := k in offered t u s d b q.
Proof.
  intros t [[[u s] d] b]. rewrite in_map_iff. split.
  - intros [[k q] [E H]]. cbn in E. subst k. exists q. now apply cells_offered.
  - intros [q H]. exists ((u, s, d, b), q). split; [reflexivity|]. now apply cells_offered.
Qed.

Lemma change_by_cells : forall c m pos m1 m2 t t' , check_bids pos m1 t = None -> check_bids pos m2 t' = None -> same_bands t t' ->
  exists l, (forall p, In p l -> exists u s d b, fst (fst p) = (u, s, d, b) /\ offered t u s d b (snd (fst p)) /\ offered t' u s d b (snd (snd p)))
    /\ (forall k q, let '(u, s, d, b) := k in offered t u s d b q -> exists q', In ((k, q), (k, q')) l)
    /\ NoDup (map (fun p => fst (fst p)) l)
    /\ forall x, repriced c m t t' x == sumQ (fun p => (snd (snd p) - snd (fst p)) * (factor c (fst (fst p)) * taken m x (fst (fst p)))) l.
Proof.
  intros c m pos m1 m2 t t' C1 C2 S. destruct (align (cells t) (cells t')) as [l' [P E]].
  - now apply cells_keys with pos m1.
  - now apply cells_keys with pos m2.
  - intros [[[u s] d] b]. rewrite !keys_of_offers. apply S.
  - exists (combine (cells t) l'). split; [|split; [|split]].
    + intros p H. destruct (combine_fst _ _ p E H) as [A [B K]]. destruct p as [[k q] [k' q']]. cbn in *. subst k'. destruct k as [[[u s] d] b].
      exists u, s, d, b. split; [reflexivity|]. split; [now apply cells_offered|]. apply cells_offered. apply (Permutation_in _ (Permutation_sym P) B).
    + intros [[[u s] d] b] q O. apply cells_offered in O. revert E O. generalize (cells t) as l. clear. intros l. revert l'.
      induction l as [|a l IH]; intros [|a' l'] E O; try discriminate; [destruct O|]. injection E as Ea E. destruct O as [->|O].
      * destruct a' as [k' q']. cbn in Ea. subst k'. exists q'. now left.
      * destruct (IH l' E O) as [q' H]. exists q'. now right.
    + assert (Z : forall l l2 : list (cell * Q), map fst l2 = map fst l -> map (fun p => fst (fst p)) (combine l l2) = map fst l).
      { intros l. induction l as [|a l IH]; intros [|a' l2] X; try discriminate; [reflexivity|]. injection X as _ X. cbn. now rewrite IH. }
      rewrite Z by exact E. now apply cells_keys with pos m1.
    + intros x. unfold repriced. rewrite !cost_by_cells. rewrite (sumQ_perm _ _ _ P). apply (aligned_sum (fun k => factor c k * taken m x k)). exact E.
Qed.

(** ** Price bids enter the objective only *)

Definition reprices (b : option (list objrow)) (r : outcome) : outcome := (set_m_obj_bids b (fst r), snd r).
Definition blind (b : option (list objrow)) (k : market -> outcome) : Prop := forall m, k (set_m_obj_bids b m) = reprices b (k m).
Lemma guard_rp b e m k : blind b k -> guard e (set_m_obj_bids b m) k = reprices b (guard e m k).
Proof. intros H. destruct e; [reflexivity|apply H]. Qed.
Lemma then_rp b r r' k : r' = reprices b r -> blind b k -> andthen r' k = reprices b (andthen r k).
Proof. intros -> H. destruct r as [m [e|]]; [reflexivity|apply H]. Qed.
Ltac walk := repeat match goal with
  | |- guard ?e (set_m_obj_bids ?b ?m) ?k = reprices ?b (guard ?e' ?m ?k') =>
      change (guard e (set_m_obj_bids b m) k) with (guard e' (set_m_obj_bids b m) k'); apply guard_rp; intros ?; cbv zeta
  | |- andthen _ _ = reprices _ (andthen _ _) => apply then_rp; [|intros ?; cbv zeta]
  | |- (if ?e then _ else _) = reprices _ (if ?e' then _ else _) => change e with e'; destruct e'
  | |- match ?e with _ => _ end = reprices _ (match ?e' with _ => _ end) => change e with e'; destruct e'
  | |- new_unit_group _ _ _ _ = _ => unfold new_unit_group; cbv zeta
  | |- new_unit_group_if _ _ _ _ _ = _ => unfold new_unit_group_if
  | |- new_regional_group _ _ _ _ = _ => unfold new_regional_group; cbv zeta
  | |- need_bids _ _ = _ => unfold need_bids; cbv zeta
  | |- maybe_elastic _ _ _ = _ => unfold maybe_elastic
  | |- elastic_if_present _ _ _ = _ => unfold elastic_if_present
  | |- make_elastic _ _ _ = _ => unfold make_elastic
  | |- add_deficits _ _ _ = _ => unfold add_deficits; cbv zeta
  | |- _ = reprices _ _ => reflexivity
  end.
Lemma price_moves : forall o b m, match o with OpPriceBids _ | OpTieBreak _ => False | _ => True end ->
  step o (set_m_obj_bids b m) = reprices b (step o m).
Proof.
  intros o b m H. destruct o; try destruct H; cbn [step].
  - unfold set_volume_bids; walk.
  - unfold set_capacity; walk.
  - unfold set_uigf; walk.
  - unfold set_ramp; walk.
  - unfold set_fast_start; walk.
  - unfold remove_fast_start. cbv zeta. change (m_rhs (set_m_obj_bids b m)) with (m_rhs m). destruct (dhas "fast_start" (m_rhs m)); cbv iota.
    + set (A := set_m_c2v_unit _ (set_m_rhs _ (set_m_obj_bids b m))). set (B := set_m_c2v_unit _ (set_m_rhs _ m)).
      change (m_deficits A) with (m_deficits m). change (m_deficits B) with (m_deficits m). destruct (dhas "fast_start_deficit" (m_deficits m)); reflexivity.
    + change (m_deficits (set_m_obj_bids b m)) with (m_deficits m). destruct (dhas "fast_start_deficit" (m_deficits m)); reflexivity.
  - unfold set_demand; walk.
  - unfold set_fcas_req; walk.
  - unfold set_max_avail; walk.
  - unfold set_joint_ramping; walk.
  - unfold set_joint_capacity; walk.
  - unfold set_energy_reg; walk.
  - unfold set_interconnectors; walk.
  - unfold set_losses; walk. change (m_nc (set_m_shares (Some lf) (set_m_obj_bids b m0))) with (m_nc m0).
    change (m_nc (set_m_shares (Some lf) m0)) with (m_nc m0). destruct (m_nc m0); reflexivity.
  - unfold set_generic. apply guard_rp. intros m1. cbv zeta. change (m_nc (set_m_obj_bids b m1)) with (m_nc m1). destruct (m_nc m1).
    + set (A := set_m_nc _ (set_m_rhs _ (set_m_obj_bids b m1))). set (B := set_m_nc _ (set_m_rhs _ m1)). change A with (set_m_obj_bids b B). generalize B. intros M. walk.
    + set (A := set_m_rhs _ (set_m_obj_bids b m1)). set (B := set_m_rhs _ m1). change A with (set_m_obj_bids b B). generalize B. intros M. walk.
  - unfold link_units; walk.
  - unfold link_regions; walk.
  - unfold link_inters; walk.
  - walk.
Qed.

Lemma blind_run : forall ops b m, leaves "prices" ops -> leaves "tie_break" ops ->
  run ops (set_m_obj_bids b m) = set_m_obj_bids b (run ops m) /\ (sane ops m -> sane ops (set_m_obj_bids b m)).
Proof.
  intros ops. induction ops as [|o ops IH]; intros b m P T; [split; auto|].
  assert (H : match o with OpPriceBids _ | OpTieBreak _ => False | _ => True end).
  { destruct o; try exact I; [apply (P _ (or_introl eq_refl)); now left|apply (T _ (or_introl eq_refl)); now left]. }
  pose proof (price_moves o b m H) as E. destruct (IH b (fst (step o m))) as [A B].
  { intros o' Ho. apply P. now right. }
  { intros o' Ho. apply T. now right. }
  split.
  - change (run (o :: ops) (set_m_obj_bids b m)) with (run ops (fst (step o (set_m_obj_bids b m)))). rewrite E. exact A.
  - unfold sane. cbn [along]. rewrite E. cbn [reprices fst]. intros [C D]. split; [|now apply B]. destruct o; exact C.
Qed.

Lemma price_step : forall t m, snd (step (OpPriceBids t) m) = None -> check_bids false m t = None /\ exists b, fst (step (OpPriceBids t) m) = set_m_obj_bids b m.
Proof.
  intros t m. cbn [step]. unfold set_price_bids. destruct (m_bids m); [|discriminate]. destruct (check_bids false m t); [discriminate|]. cbn [guard].
  destruct (check_bdu m (energy_units t)); [discriminate|]. cbn. eauto.
Qed.

Lemma two_histories : forall c tv t t' m m', two_prices c tv t t' m m' ->
  priced c tv t m /\ priced c tv t' m' /\ (exists b, m' = set_m_obj_bids b m) /\ exists m2, check_bids false m2 t = None /\ check_bids false m2 t' = None.
Proof.
  intros c tv t t' m m' [m0 [pre [mid [post [N [S [A1 [A2 [A3 [L1 [L2 [L3 [L4 [-> ->]]]]]]]]]]]]]].
  destruct (price_step t _ A2) as [C1 [b E1]]. destruct (price_step t' _ A3) as [C2 [b' E2]].
  unfold sane in S. rewrite along_app in S. destruct S as [S1 [_ S2]].
  assert (R : forall q, run ((pre ++ OpVolumeBids tv :: mid) ++ OpPriceBids q :: post) m0 = run post (fst (step (OpPriceBids q) (run (pre ++ OpVolumeBids tv :: mid) m0)))).
  { intros q. rewrite run_app. reflexivity. }
  set (M := run (pre ++ OpVolumeBids tv :: mid) m0) in *. fold M in S2.
  assert (S3 : sane post (set_m_obj_bids b' M)).
  { rewrite E1 in S2. change (set_m_obj_bids b' M) with (set_m_obj_bids b' (set_m_obj_bids b M)). now apply blind_run. }
  split; [|split; [|split]].
  - exists m0, pre, mid, post. repeat split; auto.
    + unfold sane. change (OpVolumeBids tv :: mid ++ OpPriceBids t :: post) with ((OpVolumeBids tv :: mid) ++ OpPriceBids t :: post).
      rewrite app_assoc. apply along_app. split; [exact S1|]. split; [exact I|]. exact S2.
    + rewrite <- !app_assoc. reflexivity.
  - exists m0, pre, mid, post. repeat split; auto.
    + unfold sane. change (OpVolumeBids tv :: mid ++ OpPriceBids t' :: post) with ((OpVolumeBids tv :: mid) ++ OpPriceBids t' :: post).
      rewrite app_assoc. apply along_app. split; [exact S1|]. split; [exact I|]. fold M. rewrite E2. exact S3.
    + rewrite <- !app_assoc. reflexivity.
  - exists (m_obj_bids (run post (set_m_obj_bids b' M))). rewrite !R, E1, E2.
    destruct (blind_run post b' (set_m_obj_bids b M) L3 L4) as [X _]. change (set_m_obj_bids b' (set_m_obj_bids b M)) with (set_m_obj_bids b' M) in X.
    rewrite X. reflexivity.
  - exists M. auto.
Qed.

Lemma same_points : forall b m p p', assemble m = Ok p -> assemble (set_m_obj_bids b m) = Ok p' -> forall x, feasible p x <-> feasible p' x.
Proof.
  intros b m p p' A A' x. apply assemble_parts in A. apply assemble_parts in A'.
  destruct A as [V [_ [S2 [S1 [C _]]]]]. destruct A' as [V' [_ [S2' [S1' [C' _]]]]].
  change (add_constraints (set_m_obj_bids b m)) with (add_constraints m) in C'. rewrite C in C'. injection C' as C'.
  change (all_vars (set_m_obj_bids b m)) with (all_vars m) in V'. change (m_weights (set_m_obj_bids b m)) with (m_weights m) in S2'.
  change (m_inter (set_m_obj_bids b m)) with (m_inter m) in S1'. unfold feasible. rewrite V, V', S2, S2', S1, S1', C'. reflexivity.
Qed.

Lemma cost_change : forall c tv t t' m m' p p' x x', two_prices c tv t t' m m' -> assemble m = Ok p -> assemble m' = Ok p' ->
  optimal p x -> optimal p' x' -> repriced c m t t' x' <= objective p' x' - objective p x <= repriced c m t t' x.
Proof.
  intros c tv t t' m m' p p' x x' H A A' [F O] [F' O']. destruct (two_histories c tv t t' m m' H) as [P [P' [[b ->] _]]].
  pose proof (same_points b m p p' A A') as S.
  assert (X : forall y, objective p y == bids_cost c m t y + violations_cost m y) by (intros y; now apply bids_objective with tv).
  assert (X' : forall y, objective p' y == bids_cost c m t' y + violations_cost m y) by (intros y; exact (bids_objective c tv t' _ p' y P' A')).
  specialize (O x' (proj2 (S x') F')). specialize (O' x (proj1 (S x) F)). unfold repriced. pose proof (X x). pose proof (X x'). pose proof (X' x). pose proof (X' x'). lra.
Qed.

Lemma one_cell : forall c tv t t' m m' u s d b q q', two_prices c tv t t' m m' -> same_elsewhere u s d b t t' -> offered t u s d b q -> offered t' u s d b q' ->
  forall x, repriced c m t t' x == (q' - q) * (factor c (u, s, d, b) * band_dispatch m x u s d b).
Proof.
  intros c tv t t' m m' u s d b q q' H E O O' x. destruct (two_histories c tv t t' m m' H) as [_ [_ [_ [m2 [C C']]]]].
  assert (dec : forall k k' : cell, {k = k'} + {k <> k'}) by (repeat decide equality).
  assert (S : same_bands t t').
  { intros u' s' d' b'. destruct (dec (u', s', d', b') (u, s, d, b)) as [K|K].
    - injection K as -> -> -> ->. split; intros _; eauto.
    - split; intros [w W]; exists w; apply (E _ _ _ _ w K); exact W. }
  destruct (change_by_cells c m false m2 m2 t t' C C' S) as [l [In1 [In2 [N R]]]]. rewrite R. clear R.
  destruct (In2 (u, s, d, b) q O) as [q2 I]. destruct (In1 _ I) as [u1 [s1 [d1 [b1 [K [_ O2]]]]]]. cbn in K, O2. injection K as <- <- <- <-.
  assert (U : forall T u s d b q1 q2, check_bids false m2 T = None -> offered T u s d b q1 -> offered T u s d b q2 -> q1 = q2).
  { clear. intros T u s d b q1 q2 Ck A B. apply cells_offered in A. apply cells_offered in B. pose proof (cells_keys _ _ _ Ck) as N.
    assert (Z : ((u, s, d, b), q1) = ((u, s, d, b), q2)) by (apply (NoDup_map_inj fst (cells T)); auto). now injection Z. }
  assert (q2 = q') by (now apply U with t' u s d b). subst q2.
  rewrite (sumQ_single _ (((u, s, d, b), q), ((u, s, d, b), q')) l); [reflexivity|now apply NoDup_map_inv in N|exact I|].
  intros [[k w] [k' w']] Hp D. destruct (In1 _ Hp) as [u1 [s1 [d1 [b1 [K [P1 P2]]]]]]. cbn in K, P1, P2 |- *. subst k.
  destruct (dec (u1, s1, d1, b1) (u, s, d, b)) as [K|K].
  - exfalso. apply D. apply (NoDup_map_inj (fun p => fst (fst p)) l); auto.
  - apply (E u1 s1 d1 b1 w K) in P1. assert (w = w') by (now apply U with t' u1 s1 d1 b1). subst w'. ring.
Qed.

Lemma law_of_supply : forall c tv t t' m m' p p' x x' u s d b q q', two_prices c tv t t' m m' -> assemble m = Ok p -> assemble m' = Ok p' ->
  optimal p x -> optimal p' x' -> positive_factors c -> registered c u d ->
  same_elsewhere u s d b t t' -> offered t u s d b q -> offered t' u s d b q' -> q < q' ->
  if String.eqb s "energy" && String.eqb d "load" then band_dispatch m x u s d b <= band_dispatch m' x' u s d b
  else band_dispatch m' x' u s d b <= band_dispatch m x u s d b.
Proof.
  intros c tv t t' m m' p p' x x' u s d b q q' H A A' X X' P R E O O' L.
  pose proof (cost_change c tv t t' m m' p p' x x' H A A' X X') as I.
  pose proof (one_cell c tv t t' m m' u s d b q q' H E O O') as Z. pose proof (Z x) as Z1. pose proof (Z x') as Z2.
  destruct (two_histories c tv t t' m m' H) as [_ [_ [[bb ->] _]]].
  change (band_dispatch (set_m_obj_bids bb m) x' u s d b) with (band_dispatch m x' u s d b).
  pose proof (factor_registered c u s d b P R) as F. set (f := factor c (u, s, d, b)) in *. set (B := band_dispatch m x u s d b) in *. set (B' := band_dispatch m x' u s d b) in *.
  rewrite Z1, Z2 in I. destruct I as [I1 I2]. assert (K : (q' - q) * (f * B') <= (q' - q) * (f * B)) by lra. clearbody f B B'. clear - K F L.
  destruct (String.eqb s "energy" && String.eqb d "load"); apply Qnot_lt_le; intros C.
  - assert (0 < (q' - q) * (- f * (B - B'))) by (apply Qmult_lt_0_compat; [lra|apply Qmult_lt_0_compat; lra]).
    assert (Y : (q' - q) * (- f * (B - B')) == (q' - q) * (f * B') - (q' - q) * (f * B)) by ring. lra.
  - assert (0 < (q' - q) * (f * (B' - B))) by (apply Qmult_lt_0_compat; [lra|apply Qmult_lt_0_compat; lra]).
    assert (Y : (q' - q) * (f * (B' - B)) == (q' - q) * (f * B') - (q' - q) * (f * B)) by ring. lra.
Qed.

Lemma dearer_costs : forall c tv t t' m m' p p' x x', two_prices c tv t t' m m' -> assemble m = Ok p -> assemble m' = Ok p' ->
  optimal p x -> optimal p' x' -> positive_factors c -> same_bands t t' -> dearer t t' -> objective p x <= objective p' x'.
Proof.
  intros c tv t t' m m' p p' x x' H A A' X X' P S D. destruct (cost_change c tv t t' m m' p p' x x' H A A' X X') as [L _].
  destruct (two_histories c tv t t' m m' H) as [Pm [_ [[bb E] [m2 [C C']]]]].
  destruct (change_by_cells c m false m2 m2 t t' C C' S) as [l [In1 [_ [_ R]]]]. rewrite R in L.
  assert (0 <= sumQ (fun p0 => (snd (snd p0) - snd (fst p0)) * (factor c (fst (fst p0)) * taken m x' (fst (fst p0)))) l); [|lra].
  destruct (priced_inv c tv t m Pm) as [Rm _]. apply sumQ_nonneg. intros [[k q] [k' q']] I. destruct (In1 _ I) as [u [s [d [b [K [O1 O2]]]]]]. cbn in K, O1, O2 |- *. subst k.
  assert (B : 0 <= band_dispatch m x' u s d b).
  { apply (band_dispatch_nonneg c m x' u s d b Rm). exists p. split; [exact A|]. subst m'. apply (same_points bb m p p' A A'). apply X'. }
  specialize (D u s d b q q' O1 O2). unfold taken. destruct (String.eqb s "energy" && String.eqb d "load") eqn:E1.
  - pose proof (factor_minus c u s d b P E1) as F. assert (0 <= (q - q') * (- factor c (u, s, d, b) * band_dispatch m x' u s d b)) by (apply Qmult_le_0_compat; [lra|apply Qmult_le_0_compat; lra]).
    assert (Y : (q - q') * (- factor c (u, s, d, b) * band_dispatch m x' u s d b) == (q' - q) * (factor c (u, s, d, b) * band_dispatch m x' u s d b)) by ring. lra.
  - pose proof (factor_plus c u s d b P E1) as F. apply Qmult_le_0_compat; [lra|apply Qmult_le_0_compat; lra].
Qed.

Lemma recorded_supply : forall c tv t t' m m' u s d b q q' sv a old new sv' a' old' new', two_prices c tv t t' m m' ->
  sound sv -> dispatch_market sv a m old = (new, None) -> sound sv' -> dispatch_market sv' a' m' old' = (new', None) ->
  positive_factors c -> registered c u d -> same_elsewhere u s d b t t' -> offered t u s d b q -> offered t' u s d b q' -> q < q' ->
  exists x x', d_value new = Some x /\ d_value new' = Some x'
    /\ if String.eqb s "energy" && String.eqb d "load" then band_dispatch m x u s d b <= band_dispatch m' x' u s d b
       else band_dispatch m' x' u s d b <= band_dispatch m x u s d b.
Proof.
  intros c tv t t' m m' u s d b q q' sv a old new sv' a' old' new' H S D S' D' P R E O O' L.
  destruct (two_histories c tv t t' m m' H) as [Pm [Pm' _]]. destruct (priced_inv c tv t m Pm) as [Rm _]. destruct (priced_inv c tv t' m' Pm') as [Rm' _].
  destruct (dispatch_records c sv a m old new Rm S D) as [p [x [_ [_ [_ [A [X [V _]]]]]]]].
  destruct (dispatch_records c sv' a' m' old' new' Rm' S' D') as [p' [x' [_ [_ [_ [A' [X' [V' _]]]]]]]].
  exists x, x'. split; [exact V|]. split; [exact V'|]. now apply (law_of_supply c tv t t' m m' p p' x x' u s d b q q').
Qed.
