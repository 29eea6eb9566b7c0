(** Lemmas: what setting FCAS requirements again does to the prices of the sets. *)

From Coq Require Import QArith Lqa String List Bool Arith Lia Permutation.
Import ListNotations.
From Verif Require Import PandasModel TablesModel MarketConstraintsModel MarketModel SolverModel PricingModel ReportsModel FcasReportsModel DispatchPricesModel DispatchModel
  SpecLp SpecHistory SpecDispatch SpecNetwork SpecElastic SpecPricing SpecPrices SpecDual SpecSolver SpecReports SpecReplace SpecNarrow SpecRequirement
  PandasFacts StepFacts InvariantFacts SolverFacts OwnerFacts ElasticFacts ElasticTheoremFacts MeaningFacts BidFacts BalanceFacts GenericFacts FcasReportFacts LimitFacts
  ElasticStateFacts DualFacts DualMarketFacts DispatchFacts ReplaceFacts NarrowFacts DemandPriceFacts.
Open Scope string_scope.
Open Scope list_scope.

(** ** One market, its shadow prices, and another dispatch *)

Section OneWay.
  Variables (c : config) (l : list fcas_req_row) (v : option vcost) (gu : list gunit_row) (gr : list gregion_row) (gi : list ginter_row)
    (m : market) (p : problem).
  Hypothesis H_req : held c (OpFcasReq l v) m.
  Hypothesis H_hard : violation_vars m "fcas" = [].
  Hypothesis H_links : link_tables gu gr gi m.
  Hypothesis H_services : forall b, In b l -> fq_service b <> "energy".
  Hypothesis H_assemble : assemble m = Ok p.

  Lemma set_gap n con b y : dget "fcas" (m_mrhs m) = Some (fcas_rhs l n) -> In con (p_cons p) -> In (pc_id con, b) (fcas_ids l n) ->
    pc_type con = fq_type b /\ gap con y == set_total m y l gu gr gi (fq_set b) - fq_volume b.
  Proof.
    intros D Hc Hb. pose proof (held_reached _ _ _ H_req) as R. pose proof (reached_energy_only c m R) as EO.
    destruct (held_fcas _ _ _ _ H_req) as [O [_ [n' [D1 [D2 G]]]]].
    assert (En : fcas_rhs l n = fcas_rhs l n') by congruence.
    set (row := CRow (pc_id con) (fq_type b) (fq_volume b) (KSet (fq_set b))).
    assert (Hr : In row (fcas_rhs l n)) by (unfold fcas_rhs; apply in_map_iff; exists (pc_id con, b); auto).
    rewrite En in Hr.
    assert (Hb' : In (pc_id con, b) (fcas_ids l n')).
    { unfold fcas_rhs in Hr. apply in_map_iff in Hr. destruct Hr as [[i b'] [E Hi]]. unfold row in E. injection E as E1 E2 E3 E4. subst i.
      assert (X : exists j, In (j, b) (fcas_ids l n')). { unfold fcas_ids in *. apply save_index_in. apply in_save_index in Hb. tauto. }
      destruct X as [j Hj]. pose proof (fcas_set_unique l n' _ _ Hi Hj E4) as X. injection X as -> ->. exact Hj. }
    destruct (con_parts m p y con _ (proj1 O) H_assemble Hc (in_all_rhs_regional m "fcas" _ row D1 Hr) eq_refl) as [T [Rh _]].
    split; [exact T|]. unfold gap. rewrite Rh. cbn [r_rhs rhs_value cr_rhs row].
    rewrite (DualMarketFacts.con_row m p "fcas" _ con row (proj1 O) H_assemble D1 Hr Hc eq_refl y).
    assert (Nv : no_violation m "fcas" y) by (intros i Hi; rewrite H_hard in Hi; destruct Hi).
    rewrite (fcas_row_value m _ _ row _ O (G _ Nv) Hr).
    assert (Hr2 : In row (rows_or_nil (dget "generic" (m_rhs m)) ++ rows_or_nil (dget "fcas" (m_mrhs m)))).
    { apply in_or_app. right. rewrite D1. exact Hr. }
    rewrite (generic_value m y gu gr gi row (fq_set b) (proj1 O) H_links Hr2) by reflexivity.
    unfold set_total.
    assert (W : regional_value m y (fcas_map l n') (cr_id row) == set_supply m y l (fq_set b)).
    { unfold regional_value. cbn [cr_id row].
      rewrite (set_map_value l n' (pc_id con) (fq_set b) (fun a s0 => region_term (regional_vars m) y a s0) b Hb' eq_refl).
      change (set_supply m ?w l ?s) with (sumQ (fun r => region_supply m w (fq_region r) (fq_service r))
        (filter (fun r => String.eqb s (fq_set r)) l)). apply sumQ_ext_in. intros e He. apply filter_In in He.
      rewrite ancillary_value; [reflexivity|apply O|exact EO|]. apply H_services; tauto. }
    rewrite W. ring.
  Qed.

  Lemma one_way x y pi pr s a0 delta : shadow_prices p x pi -> boxed p y ->
    (forall con, In con (p_cons p) -> (forall s', ~ set_con m s' con) -> con_holds y con) ->
    (forall b, In b l -> relation (fq_type b) (set_total m y l gu gr gi (fq_set b)) (fq_volume b + (if String.eqb s (fq_set b) then delta else 0))) ->
    In a0 l -> fq_set a0 = s -> region_offers m (fq_region a0) (fq_service a0) -> set_prices m pi pr ->
    objective p x + pr s * delta <= objective p y.
  Proof.
    intros Sh B Rest Meet Ha Es Of Pr. pose proof (lagrangian_here p x pi Sh) as E. destruct Sh as [_ [Si [_ Min]]].
    specialize (Min y B). rewrite E, lagrangian_sum in Min.
    destruct (held_fcas _ _ _ _ H_req) as [O [_ [n [D1 [D2 _]]]]].
    destruct (set_present l m p H_assemble n a0 D1 D2 (proj1 O) Ha Of) as [con0 [Hc0 Ei0]].
    destruct (set_id_row l n a0 Ha) as [b0 [Hb0 Eb0]]. rewrite <- Ei0 in Hb0.
    assert (L : sumQ (fun k => if Nat.eqb (pc_id k) (pc_id con0) then pi (pc_id k) * delta else 0) (p_cons p) <= sumQ (fun k => pi (pc_id k) * gap k y) (p_cons p)).
    { apply sumQ_le. intros con Hc. destruct (existsb (fun a => Nat.eqb (fst a) (pc_id con)) (fcas_ids l n)) eqn:X.
      - apply existsb_exists in X. destruct X as [[i b] [Hb X]]. cbn [fst] in X. apply Nat.eqb_eq in X. subst i.
        destruct (set_gap n con b y D1 Hc Hb) as [T Gp].
        assert (Hl : In b l). { unfold fcas_ids in Hb. apply in_save_index in Hb. destruct Hb as [_ Hb]. now apply drop_duplicates_incl in Hb. }
        specialize (Meet b Hl). set (d := if String.eqb s (fq_set b) then delta else 0) in *.
        assert (Pg : 0 <= pi (pc_id con) * (gap con y - d)).
        { apply (price_gap (pc_type con)); [now apply Si|]. rewrite T. unfold relation in *.
          destruct Meet as [[Et M]|[[Et M]|[Et M]]]; [left|right; left|right; right]; (split; [exact Et|rewrite Gp; lra]). }
        assert (Dd : (if Nat.eqb (pc_id con) (pc_id con0) then pi (pc_id con) * delta else 0) == pi (pc_id con) * d).
        { unfold d. destruct (Nat.eqb (pc_id con) (pc_id con0)) eqn:Y.
          - apply Nat.eqb_eq in Y. rewrite Y in Hb. unfold fcas_ids in *. pose proof (save_index_inj _ _ _ _ Hb Hb0 eq_refl) as Z. injection Z as ->.
            rewrite Eb0, Es, String.eqb_refl. reflexivity.
          - destruct (String.eqb s (fq_set b)) eqn:Z; [|ring]. exfalso. apply String.eqb_eq in Z.
            pose proof (fcas_set_unique l n _ _ Hb Hb0) as U. cbn [snd] in U. rewrite Eb0, Es in U. specialize (U (eq_sym Z)). injection U as U _.
            rewrite U, Nat.eqb_refl in Y. discriminate. }
        rewrite Dd. clear - Pg. lra.
      - assert (N : Nat.eqb (pc_id con) (pc_id con0) = false).
        { apply Nat.eqb_neq. intros Y. assert (Z : existsb (fun a => Nat.eqb (fst a) (pc_id con)) (fcas_ids l n) = true); [|congruence].
          apply existsb_exists. exists (pc_id con0, b0). split; [exact Hb0|]. cbn. apply Nat.eqb_eq. congruence. }
        rewrite N. apply (price_gap (pc_type con)); [now apply Si|]. apply holds_gap, Rest; [exact Hc|].
        intros s' [rows [row [D [Hr [_ Ei]]]]]. assert (rows = fcas_rhs l n) by congruence. subst rows.
        unfold fcas_rhs in Hr. apply in_map_iff in Hr. destruct Hr as [[i b] [<- Hb]]. cbn [cr_id] in Ei.
        assert (Z : existsb (fun a => Nat.eqb (fst a) (pc_id con)) (fcas_ids l n) = true); [|congruence].
        apply existsb_exists. exists (i, b). split; [exact Hb|]. cbn. apply Nat.eqb_eq. congruence. }
    rewrite (sumQ_pick (fun k => pi (pc_id k) * delta) (fun k => Nat.eqb (pc_id k) (pc_id con0)) con0) in L.
    - assert (Ep : pi (pc_id con0) == pr s).
      { apply (Pr (fcas_rhs l n) (CRow (pc_id con0) (fq_type b0) (fq_volume b0) (KSet (fq_set b0))) s D1).
        - unfold fcas_rhs. apply in_map_iff. exists (pc_id con0, b0). auto.
        - cbn. congruence. }
      rewrite Ep in L. clear - L Min. lra.
    - exact Hc0.
    - apply Nat.eqb_refl.
    - intros k Hk Ek. apply Nat.eqb_eq in Ek. exact (BalanceFacts.NoDup_map_inj pc_id (p_cons p) k con0 (cons_ids_NoDup m p H_assemble) Hk Hc0 Ek).
    - exact (NoDup_map_inv pc_id _ (cons_ids_NoDup m p H_assemble)).
  Qed.

  Lemma met y b : one_volume_each l -> feasible p y -> In b l -> region_offers m (fq_region b) (fq_service b) ->
    relation (fq_type b) (set_total m y l gu gr gi (fq_set b)) (fq_volume b).
  Proof.
    intros One F Hb Of. destruct (held_fcas _ _ _ _ H_req) as [O [_ [n [D1 [D2 _]]]]].
    destruct (set_present l m p H_assemble n b D1 D2 (proj1 O) Hb Of) as [con [Hc Ei]].
    destruct (set_id_row l n b Hb) as [b0 [Hb0 Eb0]]. rewrite <- Ei in Hb0. destruct (set_gap n con b0 y D1 Hc Hb0) as [T G].
    assert (Hl : In b0 l). { unfold fcas_ids in Hb0. apply in_save_index in Hb0. destruct Hb0 as [_ Hb0]. now apply drop_duplicates_incl in Hb0. }
    destruct (One b0 b Hl Hb Eb0) as [Ev Et]. rewrite Eb0, Ev in G. rewrite Et in T.
    destruct F as [_ [F _]]. specialize (F con Hc). apply holds_gap in F. rewrite T in F. unfold relation in *.
    destruct F as [[E M]|[[E M]|[E M]]]; [left|right; left|right; right]; (split; [exact E|rewrite G in M; lra]).
  Qed.
End OneWay.

(** ** The market with requirements set again *)

Lemma requirement_again l m m2 n : m_nc m = Some n -> step (OpFcasReq l None) m = (m2, None) ->
  exists n', m2 = set_m_nc (Some n') (put_regional "fcas" (fcas_rhs l n) (fcas_map l n) m).
Proof.
  intros N H. cbn [step] in H. unfold set_fcas_req in H. apply guard_ok in H. destruct H as [_ H].
  unfold new_regional_group in H. rewrite N in H. destruct (next_id _) as [n'|]; cbn in H; [|discriminate].
  injection H as <-. now exists n'.
Qed.

Lemma shape_supply m y l1 l2 s : other_volumes l1 l2 -> set_supply m y l2 s == set_supply m y l1 s.
Proof.
  intros P. set (g := fun t : string * string * string * string => let '(a, r, sv, _) := t in if String.eqb s a then region_supply m y r sv else 0).
  assert (K : forall l, set_supply m y l s == sumQ g (map row_shape l)).
  { intros l. change (set_supply m y l s) with (sumQ (fun r => region_supply m y (fq_region r) (fq_service r)) (filter (fun r => String.eqb s (fq_set r)) l)).
    rewrite sumQ_filter, sumQ_map. apply sumQ_ext. intros r. reflexivity. }
  rewrite !K. symmetry. now apply JointRampFacts.sumQ_permutation.
Qed.

Lemma shape_row l1 l2 b : other_volumes l1 l2 -> In b l1 -> exists b', In b' l2 /\ row_shape b' = row_shape b.
Proof.
  intros P H. apply (in_map row_shape) in H. apply (Permutation_in _ P) in H. apply in_map_iff in H. destruct H as [b' [E Hb]]. eauto.
Qed.

Section Twice.
  Variables (c : config) (l1 l2 : list fcas_req_row) (v : option vcost) (gu : list gunit_row) (gr : list gregion_row) (gi : list ginter_row)
    (m m2 : market) (p p2 : problem) (x x2 : assignment) (pi pi2 : nat -> Q) (pr pr2 : string -> Q) (s : string) (q1 q2 : Q).
  Hypothesis H_req : held c (OpFcasReq l1 v) m.
  Hypothesis H_hard : violation_vars m "fcas" = [].
  Hypothesis H_links : links c gu gr gi m.
  Hypothesis H_services : forall b, In b l1 -> fq_service b <> "energy".
  Hypothesis H_offers : forall b, In b l1 -> region_offers m (fq_region b) (fq_service b).
  Hypothesis H_again : step (OpFcasReq l2 None) m = (m2, None).
  Hypothesis H_shape : other_volumes l1 l2.
  Hypothesis H_one : one_volume_each l1.
  Hypothesis H_one2 : one_volume_each l2.
  Hypothesis H_only : only_set s l1 l2.
  Hypothesis H_q1 : asks l1 s q1.
  Hypothesis H_q2 : asks l2 s q2.
  Hypothesis H_assemble : assemble m = Ok p.
  Hypothesis H_assemble2 : assemble m2 = Ok p2.
  Hypothesis H_shadow : shadow_prices p x pi.
  Hypothesis H_shadow2 : shadow_prices p2 x2 pi2.
  Hypothesis H_prices : set_prices m pi pr.
  Hypothesis H_prices2 : set_prices m2 pi2 pr2.

  Lemma req_reached : reached c m.
  Proof. exact (held_reached _ _ _ H_req). Qed.
  Lemma req_reached2 : reached c m2.
  Proof. pose proof (reached_next c m (OpFcasReq l2 None) req_reached Logic.I) as X. now rewrite H_again in X. Qed.

  Lemma req_held2 : held c (OpFcasReq l2 None) m2.
  Proof.
    destruct req_reached as [m0 [ops [H1 [H2 E]]]]. exists m, m0, ops, []. split; [exact H1|]. split.
    - unfold sane in *. apply along_app. split; [exact H2|]. cbn. auto.
    - split; [exact E|]. split; [rewrite H_again; reflexivity|]. split; [intros k o' _ []|].
      rewrite run_app, <- E. cbn [run fold_left]. unfold run. cbn [fold_left]. rewrite H_again. reflexivity.
  Qed.

  Lemma req_tables : violation_vars m2 "fcas" = [] /\ link_tables gu gr gi m2 /\ (forall r sv, region_offers m r sv -> region_offers m2 r sv)
    /\ forall y s', set_total m2 y l2 gu gr gi s' == set_total m y l1 gu gr gi s'.
  Proof.
    destruct (reached_owned c m req_reached) as [[_ [f [n O]]] _]. destruct (requirement_again l2 m m2 n (ow_nc _ _ _ O) H_again) as [n' E].
    pose proof (links_inv _ _ _ _ _ H_links) as T. clear - E H_hard H_shape T. subst m2. split; [exact H_hard|]. split; [exact T|]. split; [auto|].
    intros y s'. unfold set_total. change (set_supply (set_m_nc (Some n') (put_regional "fcas" (fcas_rhs l2 n) (fcas_map l2 n) m)) y l2 s') with (set_supply m y l2 s').
    rewrite (shape_supply m y l1 l2 s' H_shape). reflexivity.
  Qed.

  Lemma fcas_keys mm con : reached c mm -> (exists l w, held c (OpFcasReq l w) mm) -> of_keys ["fcas"] mm (pc_id con) -> exists s', set_con mm s' con.
  Proof.
    clear. intros R [l [w H]] [k [g [row [[<-|[]] [[D|D] [Hg E]]]]]].
    - exfalso. apply (ky_rhs _ (reached_keyed c mm R) _ _ D). cbn. auto.
    - destruct (held_fcas _ _ _ _ H) as [_ [_ [n [D1 _]]]]. assert (g = fcas_rhs l n) by congruence. subst g.
      pose proof Hg as Hg'. unfold fcas_rhs in Hg'. apply in_map_iff in Hg'. destruct Hg' as [[i b] [Er _]].
      exists (fq_set b), (fcas_rhs l n), row. split; [exact D1|]. split; [exact Hg|]. split; [rewrite <- Er; reflexivity|exact E].
  Qed.

  Lemma volume_moves b b2 : In b l1 -> In b2 l2 -> fq_set b = fq_set b2 -> fq_volume b2 == fq_volume b + (if String.eqb s (fq_set b) then q2 - q1 else 0).
  Proof.
    intros Hb Hb2 E. destruct (String.eqb s (fq_set b)) eqn:X.
    - apply String.eqb_eq in X. destruct H_q1 as [a [Ha [Ea Va]]], H_q2 as [a2 [Ha2 [Ea2 Va2]]].
      destruct (H_one a b Ha Hb ltac:(congruence)) as [V1 _]. destruct (H_one2 a2 b2 Ha2 Hb2 ltac:(congruence)) as [V2 _]. lra.
    - apply String.eqb_neq in X. rewrite (H_only b b2 Hb Hb2 E (not_eq_sym X)). lra.
  Qed.

  Lemma requirement_cost : pr s * (q2 - q1) <= objective p2 x2 - objective p x <= pr2 s * (q2 - q1).
  Proof.
    destruct req_tables as [V2 [T2 [Of2 Tot]]]. pose proof (links_inv _ _ _ _ _ H_links) as T.
    destruct (call_owned c (OpFcasReq l2 None) m m2 req_reached Logic.I Logic.I eq_refl H_again) as [O [O2 G]]. cbn [touches] in G.
    destruct (same_rest c (OpFcasReq l2 None) m m2 p p2 req_reached Logic.I Logic.I eq_refl H_again H_assemble H_assemble2) as [Ev [Eo _]].
    assert (F1 : feasible p x) by apply H_shadow. assert (F2 : feasible p2 x2) by apply H_shadow2.
    assert (S2 : forall b, In b l2 -> fq_service b <> "energy" /\ region_offers m2 (fq_region b) (fq_service b)).
    { intros b Hb. destruct (shape_row l2 l1 b (Permutation_sym H_shape) Hb) as [b' [Hb' E]]. unfold row_shape in E. injection E as _ E1 E2 _.
      rewrite <- E1, <- E2. auto. }
    assert (A : objective p x + pr s * (q2 - q1) <= objective p x2).
    { destruct H_q1 as [a [Ha [Ea _]]].
      apply (one_way c l1 v gu gr gi m p H_req H_hard T H_services H_assemble x x2 pi pr s a (q2 - q1) H_shadow); auto.
      - intros w Hw. apply F2. now rewrite Ev.
      - intros con Hc N. destruct (shared_con ["fcas"] m m2 p p2 x2 con O O2 G H_assemble H_assemble2 Hc) as [X|[con2 [Hc2 [_ [_ [_ K]]]]]].
        + destruct (fcas_keys m con req_reached ltac:(eauto) X) as [s' X']. destruct (N s' X').
        + apply K, F2, Hc2.
      - intros b Hb. destruct (shape_row l1 l2 b H_shape Hb) as [b2 [Hb2 E]]. unfold row_shape in E. injection E as E1 E2 E3 E4.
        pose proof (met c l2 None gu gr gi m2 p2 req_held2 V2 T2 (fun b Hb => proj1 (S2 b Hb)) H_assemble2 x2 b2 H_one2 F2 Hb2 (proj2 (S2 b2 Hb2))) as M.
        rewrite E4, E1 in M. pose proof (Tot x2 (fq_set b)) as Et. pose proof (volume_moves b b2 Hb Hb2 (eq_sym E1)) as Vm. unfold relation in *.
        destruct M as [[E M]|[[E M]|[E M]]]; [left|right; left|right; right]; (split; [exact E|rewrite Et, Vm in M; exact M]).  }
    assert (B : objective p2 x2 + pr2 s * (q1 - q2) <= objective p2 x).
    { destruct H_q2 as [a [Ha [Ea _]]].
      apply (one_way c l2 None gu gr gi m2 p2 req_held2 V2 T2 (fun b Hb => proj1 (S2 b Hb)) H_assemble2 x2 x pi2 pr2 s a (q1 - q2) H_shadow2); auto.
      - intros w Hw. apply F1. now rewrite <- Ev.
      - intros con Hc N. destruct (shared_con ["fcas"] m2 m p2 p x con O2 O (only_groups_sym _ _ _ G) H_assemble2 H_assemble Hc) as [X|[con2 [Hc2 [_ [_ [_ K]]]]]].
        + destruct (fcas_keys m2 con req_reached2 (ex_intro _ l2 (ex_intro _ None req_held2)) X) as [s' X']. destruct (N s' X').
        + apply K, F1, Hc2.
      - intros b2 Hb2. destruct (shape_row l2 l1 b2 (Permutation_sym H_shape) Hb2) as [b [Hb E]]. unfold row_shape in E. injection E as E1 E2 E3 E4.
        pose proof (met c l1 v gu gr gi m p H_req H_hard T H_services H_assemble x b H_one F1 Hb (H_offers b Hb)) as M.
        rewrite E4, E1 in M. pose proof (Tot x (fq_set b2)) as Et. pose proof (volume_moves b b2 Hb Hb2 E1) as Vm. rewrite E1 in Vm.
        assert (Vn : fq_volume b == fq_volume b2 + (if String.eqb s (fq_set b2) then q1 - q2 else 0)) by (destruct (String.eqb s (fq_set b2)); lra).
        unfold relation in *.
        destruct M as [[E M]|[[E M]|[E M]]]; [left|right; left|right; right]; (split; [exact E|rewrite <- Et, Vn in M; exact M]).
      - apply S2. exact Ha. }
    unfold objective in *. rewrite Eo in *. clear - A B. lra.
  Qed.

  Lemma requirement_price : q1 < q2 -> pr s <= pr2 s.
  Proof. intros L. destruct requirement_cost as [A B]. clear - A B L. nra. Qed.
End Twice.


(** ** What dispatch records *)

Lemma prices_of_sets c l v m pi : held c (OpFcasReq l v) m -> exists pr, set_prices m pi pr.
Proof.
  intros H. destruct (held_fcas _ _ _ _ H) as [_ [_ [n [D _]]]]. exists (fun s => pi (set_id l n s)).
  intros rows row s Dr Hr K. assert (rows = fcas_rhs l n) by congruence. subst rows. unfold fcas_rhs in Hr. apply in_map_iff in Hr.
  destruct Hr as [[i b] [<- Hb]]. cbn in K |- *. injection K as <-. now rewrite (set_id_is l n i b Hb).
Qed.

Lemma recorded_is m new pi pr s price : prices_recorded m new pi -> set_prices m pi pr -> recorded_set_price m new s price -> price == pr s.
Proof.
  intros Rec Pr [rows [row [ps [D [Hr [K [Dp Hp]]]]]]]. rewrite (Rec _ _ D) in Dp. injection Dp as <-. apply in_map_iff in Hp.
  destruct Hp as [w [E Hw]]. injection E as E1 <-. rewrite E1. exact (Pr rows row s D Hr K).
Qed.

Lemma recorded_requirement c l1 l2 v gu gr gi m m2 p p2 s q1 q2 sv a old new sv2 a2 old2 new2 price price2 :
  held c (OpFcasReq l1 v) m -> violation_vars m "fcas" = [] -> links c gu gr gi m -> (forall b, In b l1 -> fq_service b <> "energy") ->
  (forall b, In b l1 -> region_offers m (fq_region b) (fq_service b)) -> m_loss m = None ->
  step (OpFcasReq l2 None) m = (m2, None) -> other_volumes l1 l2 -> one_volume_each l1 -> one_volume_each l2 -> only_set s l1 l2 ->
  asks l1 s q1 -> asks l2 s q2 -> assemble m = Ok p -> assemble m2 = Ok p2 -> no_sets p -> no_sets p2 ->
  sound sv -> dispatch_market sv a m old = (new, None) -> da_rerun a = false -> recorded_set_price m new s price ->
  sound sv2 -> dispatch_market sv2 a2 m2 old2 = (new2, None) -> da_rerun a2 = false -> recorded_set_price m2 new2 s price2 ->
  exists x x2, d_value new = Some x /\ d_value new2 = Some x2
    /\ price * (q2 - q1) <= objective p2 x2 - objective p x <= price2 * (q2 - q1) /\ (q1 < q2 -> price <= price2).
Proof.
  intros H V L Sv Of Lo St Sh O1 O2 Only Q1 Q2 As As2 Z Z2 S D A Re S2 D2 A2 Re2.
  pose proof (held_reached _ _ _ H) as R.
  assert (R2 : reached c m2). { pose proof (reached_next c m (OpFcasReq l2 None) R Logic.I) as X. now rewrite St in X. }
  assert (Lo2 : m_loss m2 = None).
  { destruct (reached_owned c m R) as [[_ [f [n O]]] _]. destruct (requirement_again l2 m m2 n (ow_nc _ _ _ O) St) as [n' ->]. exact Lo. }
  destruct (lossless_prices c sv a m old new R S D Lo A) as [p' [x [pi [As' [Vx [Rec [_ K]]]]]]].
  rewrite As in As'. injection As' as <-. destruct (K Z) as [X _].
  destruct (lossless_prices c sv2 a2 m2 old2 new2 R2 S2 D2 Lo2 A2) as [p' [x2 [pi2 [As' [Vx2 [Rec2 [_ K2]]]]]]].
  rewrite As2 in As'. injection As' as <-. destruct (K2 Z2) as [X2 _].
  destruct (prices_of_sets c l1 v m pi H) as [pr P].
  destruct (prices_of_sets c l2 None m2 pi2) as [pr2 P2]. { apply (req_held2 c l1 l2 v m m2); auto. }
  exists x, x2. split; [exact Vx|]. split; [exact Vx2|].
  pose proof (requirement_cost c l1 l2 v gu gr gi m m2 p p2 x x2 pi pi2 pr pr2 s q1 q2 H V L Sv Of St Sh O1 O2 Only Q1 Q2 As As2 X X2 P P2) as C.
  rewrite <- (recorded_is m new pi pr s price Rec P Re), <- (recorded_is m2 new2 pi2 pr2 s price2 Rec2 P2 Re2) in C.
  split; [exact C|]. clear - C. intros Up. destruct C. nra.
Qed.
