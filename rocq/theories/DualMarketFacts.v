(** Shadow prices of the problems that dispatch builds. *)

From Coq Require Import QArith Qminmax Lqa String List Bool Arith Lia ZArith Permutation.
Import ListNotations.
From Verif Require Import PandasModel TablesModel VariableIdsModel MarketConstraintsModel
  UnitConstraintsModel RampModel FcasModel InterModel ElasticModel MarketModel SolverModel PricingModel ReportsModel FcasReportsModel
  SpecLp PandasFacts SpecHistory SpecIds SpecDispatch SpecNetwork SpecElastic SpecPricing SpecPrices SpecDual
  StepFacts InvariantFacts OwnerFacts SolverFacts
  MeaningFacts LimitFacts TableFacts BidFacts JointRampFacts BalanceFacts GenericFacts ReportFacts FcasReportFacts DeficitFacts
  ElasticFacts ElasticTheoremFacts ExchangeFacts DualFacts.
Open Scope string_scope.
Open Scope list_scope.

(** ** The problem that is priced *)

Definition like (c c' : pcon) : Prop :=
  pc_id c' = pc_id c /\ pc_type c' = pc_type c /\ pc_terms c' = pc_terms c
  /\ match pc_rhs c, pc_rhs c' with RVar v, RVar w => v = w | RNum _, RNum _ => True | _, _ => False end.

Lemma like_refl c : like c c.
Proof. unfold like. destruct (pc_rhs c); auto. Qed.

Lemma like_all cs : Forall2 like cs cs.
Proof. induction cs; constructor; auto using like_refl. Qed.

Lemma adjust_like adj cs : Forall2 like cs (map (adjust adj) cs).
Proof.
  induction cs as [|c t IH]; cbn [map]; constructor; auto. unfold adjust. destruct (pc_rhs c) eqn:E; [|apply like_refl].
  unfold like. cbn. rewrite E. auto.
Qed.

Lemma pricing_shape sort m x0 p : p_obj (pricing_problem sort m x0 p) = p_obj p /\ p_cons (pricing_problem sort m x0 p) = p_cons p
  /\ map pv_id (p_vars (pricing_problem sort m x0 p)) = map pv_id (p_vars p).
Proof.
  assert (D : forall ids vs, map pv_id (map (fun v => if existsb (Nat.eqb (pv_id v)) ids then PVar (pv_id v) 0 (Some 0) else v) vs) = map pv_id vs).
  { intros ids vs. rewrite map_map. apply map_ext. intros v. destruct (existsb _ _); reflexivity. }
  unfold pricing_problem. destruct (m_loss m); [|auto]. cbn [disable linear_problem p_obj p_cons p_vars]. rewrite !D. auto.
Qed.

Lemma priced_shape m p q : priced_problem m p q ->
  p_obj q = p_obj p /\ Forall2 like (p_cons p) (p_cons q) /\ map pv_id (p_vars q) = map pv_id (p_vars p).
Proof.
  intros [sort [x0 [_ [->|[ec [ef [fc [prices H]]]]]]]]; destruct (pricing_shape sort m x0 p) as [E1 [E2 E3]].
  - split; [exact E1|]. split; [rewrite E2; apply like_all|exact E3].
  - unfold rerun_problem in H. destruct (_ && _); [|discriminate]. injection H as <-. unfold relax. cbn [p_obj p_cons p_vars].
    split; [exact E1|]. split; [rewrite E2; apply adjust_like|exact E3].
Qed.

Lemma like_in cs cs' c' : Forall2 like cs cs' -> In c' cs' -> exists c, In c cs /\ like c c'.
Proof.
  induction 1 as [|a b t u H F IH]; intros Hc; [destruct Hc|]. destruct Hc as [<-|Hc]; [exists a; split; [now left|exact H]|].
  destruct (IH Hc) as [c [H1 H2]]. exists c. split; [now right|exact H2].
Qed.
Lemma like_ids cs cs' : Forall2 like cs cs' -> map pc_id cs' = map pc_id cs.
Proof. induction 1 as [|a b t u H F IH]; [reflexivity|]. cbn [map]. rewrite IH. destruct H as [-> _]. reflexivity. Qed.
Lemma like_column c c' i : like c c' -> column c' i == column c i.
Proof.
  intros [_ [_ [E H]]]. unfold column. rewrite E. destruct (pc_rhs c), (pc_rhs c'); try destruct H; try subst; reflexivity.
Qed.
Lemma like_sum pi (f : pcon -> Q) cs cs' : Forall2 like cs cs' -> (forall c c', like c c' -> f c' == f c) ->
  sumQ (fun c => pi (pc_id c) * f c) cs' == sumQ (fun c => pi (pc_id c) * f c) cs.
Proof.
  intros F H. induction F as [|a b t u L F IH]; [reflexivity|]. rewrite !sumQ_cons, IH, (H a b L). destruct L as [-> _]. reflexivity.
Qed.

(** ** Left-hand sides of the market constraints *)

Definition diff (x y : assignment) : assignment := fun i => y i - x i.

Lemma linear_diff ts x y : linear ts (diff x y) == linear ts y - linear ts x.
Proof. rewrite !linear_sum, <- sumQ_sub. apply sumQ_ext. intros t. unfold diff. ring. Qed.
Lemma region_term_diff vs x y r s : region_term vs (diff x y) r s == region_term vs y r s - region_term vs x r s.
Proof. unfold region_term. rewrite <- sumQ_sub. apply sumQ_ext. intros t. unfold diff. ring. Qed.
Lemma row_value_diff rows x y i : row_value rows (diff x y) i == row_value rows y i - row_value rows x i.
Proof. unfold row_value. rewrite <- sumQ_sub. apply sumQ_ext. intros t. unfold diff. ring. Qed.
Lemma same_silent m k x y : same_violations m k x y -> no_violation m k (diff x y).
Proof. intros H i Hi. unfold diff. rewrite (H i Hi). ring. Qed.

Lemma held_demand c l v m : held c (OpDemand l v) m -> owned m /\ m_cfg m = c /\ exists n,
  dget "demand" (m_mrhs m) = Some (energy_rhs l n) /\ dget "demand" (m_c2v_reg m) = Some (energy_map l n)
  /\ forall z, no_violation m "demand" z -> regional_group_at "demand" (energy_rhs l n) (energy_map l n) m z.
Proof.
  intros H.
  assert (U : forall z, no_violation m "demand" z -> upheld c (OpDemand l v) m z).
  { intros z Hz. apply held_upheld; [exact H|]. intros k Hk. cbn in Hk. destruct Hk as [<-|[]]; exact Hz. }
  assert (Z : no_violation m "demand" (fun _ => 0)) by (intros i _; reflexivity).
  destruct (demand_inv c l v m _ (U _ Z)) as [O [C [n G]]]. split; [exact O|]. split; [exact C|]. exists n.
  destruct G as [G1 [G2 _]]. split; [exact G1|]. split; [exact G2|]. intros z Hz.
  destruct (demand_inv c l v m _ (U _ Hz)) as [_ [_ [n' [G1' [G2' G3']]]]]. split; [exact G1|]. split; [exact G2|].
  assert (E : energy_rhs l n' = energy_rhs l n) by congruence. rewrite <- E. exact G3'.
Qed.

Lemma held_fcas c l v m : held c (OpFcasReq l v) m -> owned m /\ m_cfg m = c /\ exists n,
  dget "fcas" (m_mrhs m) = Some (fcas_rhs l n) /\ dget "fcas" (m_c2v_reg m) = Some (fcas_map l n)
  /\ forall z, no_violation m "fcas" z -> regional_group_at "fcas" (fcas_rhs l n) (fcas_map l n) m z.
Proof.
  intros H.
  assert (U : forall z, no_violation m "fcas" z -> upheld c (OpFcasReq l v) m z).
  { intros z Hz. apply held_upheld; [exact H|]. intros k Hk. cbn in Hk. destruct Hk as [<-|[]]; exact Hz. }
  assert (Z : no_violation m "fcas" (fun _ => 0)) by (intros i _; reflexivity).
  destruct (fcas_inv c l v m _ (U _ Z)) as [O [C [n G]]]. split; [exact O|]. split; [exact C|]. exists n.
  destruct G as [G1 [G2 _]]. split; [exact G1|]. split; [exact G2|]. intros z Hz.
  destruct (fcas_inv c l v m _ (U _ Hz)) as [_ [_ [n' [G1' [G2' G3']]]]]. split; [exact G1|]. split; [exact G2|].
  assert (E : fcas_rhs l n' = fcas_rhs l n) by congruence. rewrite <- E. exact G3'.
Qed.

Lemma con_row m p k rows con row : wf m -> assemble m = Ok p -> dget k (m_mrhs m) = Some rows -> In row rows ->
  In con (p_cons p) -> pc_id con = cr_id row -> forall z, linear (pc_terms con) z == row_value (all_lhs m) z (cr_id row).
Proof.
  intros W A D Hr Hc E z.
  exact (con_value m p con (RRow (cr_id row) (cr_type row) (RNum (cr_rhs row))) _ W A Hc (in_all_rhs_regional m k rows row D Hr) E eq_refl z).
Qed.

(** A row of a market group has a constant right-hand side. *)
Lemma con_rhs m p k rows con row : wf m -> assemble m = Ok p -> dget k (m_mrhs m) = Some rows -> In row rows ->
  In con (p_cons p) -> pc_id con = cr_id row -> exists q, pc_rhs con = RNum q.
Proof.
  intros W A D Hr Hc E. apply assemble_parts in A. destruct A as [_ [_ [_ [_ [A _]]]]].
  unfold add_constraints in A. destruct (no_rhs_tables m) eqn:E0.
  - inversion A as [A']. rewrite <- A' in Hc. destruct Hc.
  - assert (B : build_cons (all_vars m) (all_rhs m) (all_lhs m) (con_ids (all_lhs m)) = Ok (p_cons p)).
    { destruct (all_lhs m); [discriminate|exact A]. }
    apply (build_cons_in _ _ _ _ _ B) in Hc. destruct Hc as [i [_ Hc]]. unfold build_con in Hc.
    destruct (forallb _ _); [|discriminate].
    destruct (find_rhs (all_rhs m) i) as [r'|] eqn:Ef; [|discriminate].
    destruct (mem_str _ _); [|discriminate]. inversion Hc; subst con. cbn [pc_id pc_rhs] in *. subst i.
    pose proof (in_all_rhs_regional m k rows row D Hr) as Ha.
    assert (r' = RRow (cr_id row) (cr_type row) (RNum (cr_rhs row))).
    { apply find_rhs_in in Ef. destruct Ef as [Ef1 Ef2].
      apply (NoDup_map_inj r_id (all_rhs m)); auto. now apply wf_rhs_NoDup. }
    subst r'. cbn [r_rhs]. eauto.
Qed.

Lemma demand_once c l v m : held c (OpDemand l v) m -> NoDup (map de_region l).
Proof.
  intros [m' H]. apply held_at_inv in H. destruct H as [_ [_ [_ [_ [m1 [St _]]]]]]. cbn [step] in St. unfold set_demand in St.
  apply guard_ok in St. destruct St as [St _]. unfold check_demand in St. apply FOP_NoDup_map.
  apply (FOP_impl (fun a b => String.eqb (de_region a) (de_region b) = false)); [intros a b E; now apply String.eqb_neq|].
  apply (no_repeats_in _ _ _ St). cbn. auto.
Qed.

Lemma requirement_once c l v m : held c (OpFcasReq l v) m -> NoDup (map (fun r => (fq_set r, fq_region r, fq_service r)) l).
Proof.
  intros [m' H]. apply held_at_inv in H. destruct H as [_ [_ [_ [_ [m1 [St _]]]]]]. cbn [step] in St. unfold set_fcas_req in St.
  apply guard_ok in St. destruct St as [St _]. unfold check_fcas_req in St. apply FOP_NoDup_map.
  apply (FOP_impl (fun a b => String.eqb (fq_set a) (fq_set b) && String.eqb (fq_region a) (fq_region b)
    && String.eqb (fq_service a) (fq_service b) = false)); [|apply (no_repeats_in _ _ _ St); cbn; auto].
  intros a b E E2. injection E2 as E2 E3 E4. rewrite E2, E3, E4, !String.eqb_refl in E. discriminate.
Qed.

Lemma saved_once {A B} (f : A -> B) n l i j a b : NoDup (map f l) -> In (i, a) (save_index n l) -> In (j, b) (save_index n l) ->
  f a = f b -> i = j /\ a = b.
Proof.
  intros ND Ha Hb E. assert (X : (i, a) = (j, b)); [|inversion X; auto].
  apply (NoDup_map_inj (fun p => f (snd p)) (save_index n l)); auto. rewrite <- (map_map snd f), save_index_snd. exact ND.
Qed.

(** ** Energy *)

Section Energy.
  Variables (c : config) (l : list demand_row) (v : option vcost) (dirs : list inter_row) (lf : list lossfn_row) (bps : list bp_row)
    (m : market) (p q : problem) (x : assignment) (pi : nat -> Q) (ps : list (string * Q)).
  Hypothesis H_demand : held c (OpDemand l v) m.
  Hypothesis H_network : network c dirs lf bps m.
  Hypothesis H_ends : forall d, In d dirs -> in_from d <> in_to d.
  Hypothesis H_assemble : assemble m = Ok p.
  Hypothesis H_priced : priced_problem m p q.
  Hypothesis H_report : energy_prices m pi = Ok ps.

  (** A reported price is the shadow price of the one constraint of the region. *)
  Lemma energy_price_row r price : In (r, price) ps -> exists n d i, dget "demand" (m_mrhs m) = Some (energy_rhs l n)
    /\ In (i, d) (save_index n l) /\ de_region d = r /\ price = pi i
    /\ (forall con, balance_con m r con <-> pc_id con = i).
  Proof.
    intros Hp. destruct (held_demand _ _ _ _ H_demand) as [O [C [n [D1 [D2 G]]]]].
    unfold energy_prices, need in H_report. rewrite D1 in H_report. injection H_report as E. subst ps.
    apply in_map_iff in Hp. destruct Hp as [row [E Hr]]. destruct (demand_rows l n row Hr) as [d [Hd [Hi Er]]].
    rewrite Er in E. cbn [cr_key cr_id] in E. injection E as E1 E2.
    exists n, d, (cr_id row). split; [exact D1|]. split; [exact Hi|]. split; [exact E1|]. split; [congruence|].
    intros con. split.
    - intros [rows' [row' [D' [Hr' [Ek Ei]]]]]. assert (rows' = energy_rhs l n) by congruence. subst rows'.
      destruct (demand_rows l n row' Hr') as [d' [Hd' [Hi' Er']]]. rewrite Er' in Ek. cbn [cr_key] in Ek. injection Ek as Ek.
      destruct (saved_once de_region n l (cr_id row) (cr_id row') d d') as [X _]; auto; [now apply (demand_once c l v m)|congruence|congruence].
    - intros Ei. exists (energy_rhs l n), row. split; [exact D1|]. split; [exact Hr|]. split; [rewrite Er; cbn; congruence|exact Ei].
  Qed.

  Lemma balance_present r i n d : supplied m dirs r -> dget "demand" (m_mrhs m) = Some (energy_rhs l n) ->
    In (i, d) (save_index n l) -> de_region d = r -> exists con, In con (p_cons p) /\ pc_id con = i.
  Proof.
    intros Su D1 Hi Er. destruct (held_demand _ _ _ _ H_demand) as [O [C [n' [D1' [D2 G]]]]].
    pose proof (network_inv _ _ _ _ _ H_network) as [_ [_ [k [nv T]]]].
    destruct (supplied_var m dirs lf k nv r (proj1 O) T Su) as [w [Hw [V1 V2]]].
    set (row := CRow i "=" (de_demand d) (KRegion (de_region d))).
    assert (Hr : In row (energy_rhs l n)) by (unfold energy_rhs; apply in_map_iff; exists (i, d); auto).
    assert (Hc : In (RC i (de_region d) "energy" 1) (energy_map l n')).
    { rewrite D1 in D1'. injection D1' as D1'. rewrite D1' in Hr. destruct (demand_rows l n' row Hr) as [d' [_ [Hi' Er']]].
      cbn [row cr_id] in Hi'. injection Er' as E1 E2. unfold energy_map. apply in_map_iff. exists (i, d'). rewrite E2. auto. }
    destruct (regional_row_lhs m "demand" (energy_rhs l n) (energy_map l n') row (RC i (de_region d) "energy" 1) w D2 Hr Hc eq_refl Hw) as [ll [Hl El]];
      [cbn; congruence|cbn; congruence|].
    destruct (lhs_con m p ll H_assemble Hl) as [con [Hcon Ec]].
    - eexists. exact (in_all_rhs_regional m "demand" _ row D1 Hr).
    - exists con. split; [exact Hcon|]. rewrite Ec, El. reflexivity.
  Qed.

  (** The constraint of the region, at the difference of two points. *)
  Lemma balance_diff r con con' y z : In con (p_cons p) -> like con con' -> balance_con m r con' -> same_violations m "demand" y z ->
    gap con' z - gap con' y == energy_balance m z dirs lf r - energy_balance m y dirs lf r.
  Proof.
    intros Hc L [rows [row [D [Hr [Ek Ei]]]]] Sv. destruct (held_demand _ _ _ _ H_demand) as [O [C [n [D1 [D2 G]]]]].
    assert (rows = energy_rhs l n) by congruence. subst rows. destruct L as [L1 [L2 [L3 L4]]].
    assert (Ei' : pc_id con = cr_id row) by congruence.
    destruct (con_rhs m p "demand" _ con row (proj1 O) H_assemble D1 Hr Hc Ei') as [b Eb]. rewrite Eb in L4.
    destruct (pc_rhs con') as [b'|] eqn:Eb'; [|destruct L4]. unfold gap. rewrite Eb', L3. cbn [rhs_value].
    setoid_replace (linear (pc_terms con) z - b' - (linear (pc_terms con) y - b')) with (linear (pc_terms con) z - linear (pc_terms con) y) by ring.
    rewrite <- linear_diff, (con_row m p "demand" _ con row (proj1 O) H_assemble D1 Hr Hc Ei').
    rewrite (regional_row_value m "demand" _ _ row _ O ltac:(discriminate) (G _ (same_silent _ _ _ _ Sv)) Hr).
    destruct (demand_rows l n row Hr) as [d [Hd [Hi E]]].
    rewrite (demand_row_value m _ l n _ d Hi). rewrite E in Ek. cbn in Ek. inversion Ek; subst r.
    pose proof (network_inv _ _ _ _ _ H_network) as [_ [_ [k [nv T]]]].
    rewrite region_term_diff, !(balance_value m _ dirs lf k nv _ (proj1 O) T H_ends). reflexivity.
  Qed.

  Lemma energy_marginal r price y delta : shadow_prices q x pi -> In (r, price) ps -> supplied m dirs r ->
    boxed q y -> (forall con, In con (p_cons q) -> ~ balance_con m r con -> met_or_free pi y con) ->
    same_violations m "demand" x y -> energy_balance m y dirs lf r == energy_balance m x dirs lf r + delta ->
    objective p x + price * delta <= objective p y.
  Proof.
    intros Sh Hp Su B K Sv Eb. destruct (priced_shape m p q H_priced) as [Eo [F _]].
    destruct (energy_price_row r price Hp) as [n [d [i [D1 [Hi [Er [Ep U]]]]]]].
    pose proof (marginal q x pi y (fun con => if Nat.eqb i (pc_id con) then delta else 0) Sh B) as M.
    assert (S : sumQ (fun con => pi (pc_id con) * (if Nat.eqb i (pc_id con) then delta else 0)) (p_cons q) == price * delta).
    { rewrite (sumQ_ext _ (fun con => sumQ (fun j => if Nat.eqb j (pc_id con) then pi j * delta else 0) [i])).
      - rewrite sum_by_id; [rewrite sumQ_cons, sumQ_nil, Ep; ring|..].
        + rewrite (like_ids _ _ F). exact (cons_ids_NoDup m p H_assemble).
        + intros j [<-|[]]. destruct (balance_present r i n d Su D1 Hi Er) as [con [Hc E]].
          pose proof (like_ids _ _ F) as Ids. assert (In i (map pc_id (p_cons q))) by (rewrite Ids, <- E; now apply in_map).
          apply in_map_iff in H. destruct H as [c' [E' Hc']]. eauto.
      - intros con. rewrite sumQ_cons, sumQ_nil. destruct (Nat.eqb i (pc_id con)) eqn:E; [apply Nat.eqb_eq in E; subst i|]; ring. }
    unfold objective in *. rewrite Eo in M. rewrite <- S. apply M. intros con' Hc'.
    destruct (Nat.eqb i (pc_id con')) eqn:E.
    - right. apply Nat.eqb_eq in E. symmetry in E. apply U in E. destruct (like_in _ _ _ F Hc') as [con [Hc L]].
      pose proof (balance_diff r con con' x y Hc L E Sv) as X. lra.
    - left. split; [|reflexivity]. apply K; [exact Hc'|]. intros X. apply U in X. rewrite X, Nat.eqb_refl in E. discriminate.
  Qed.

  (** The same for all regions at once. *)
  Lemma energy_marginal_all y : shadow_prices q x pi -> (forall d, In d l -> supplied m dirs (de_region d)) ->
    boxed q y -> (forall con, In con (p_cons q) -> (forall r, ~ balance_con m r con) -> met_or_free pi y con) ->
    same_violations m "demand" x y ->
    objective p x + qsum (map (fun a => snd a * (energy_balance m y dirs lf (fst a) - energy_balance m x dirs lf (fst a))) ps)
    <= objective p y.
  Proof.
    intros Sh Su B K Sv. destruct (priced_shape m p q H_priced) as [Eo [F _]].
    destruct (held_demand _ _ _ _ H_demand) as [O [C [n [D1 [D2 G]]]]].
    set (dl := fun r => energy_balance m y dirs lf r - energy_balance m x dirs lf r).
    set (s := fun con : pcon => sumQ (fun a : nat * demand_row => if Nat.eqb (fst a) (pc_id con) then dl (de_region (snd a)) else 0) (save_index n l)).
    pose proof (marginal q x pi y s Sh B) as M.
    assert (S : sumQ (fun con => pi (pc_id con) * s con) (p_cons q) == sumQ (fun a => snd a * dl (fst a)) ps).
    { rewrite (sumQ_ext _ (fun con => sumQ (fun a : nat * demand_row => if Nat.eqb (fst a) (pc_id con) then pi (fst a) * dl (de_region (snd a)) else 0) (save_index n l))).
      - rewrite sum_by_key.
        + unfold energy_prices, need in H_report. rewrite D1 in H_report. injection H_report as E. rewrite <- E, sumQ_map.
          unfold energy_rhs. rewrite sumQ_map. apply sumQ_ext. intros [i d]. reflexivity.
        + rewrite (like_ids _ _ F). exact (cons_ids_NoDup m p H_assemble).
        + intros [i d] Hi. cbn [fst]. assert (Hd : In d l) by (apply in_save_index in Hi; tauto).
          destruct (balance_present (de_region d) i n d (Su d Hd) D1 Hi eq_refl) as [con [Hc E]].
          pose proof (like_ids _ _ F) as Ids. assert (X : In i (map pc_id (p_cons q))) by (rewrite Ids, <- E; now apply in_map).
          apply in_map_iff in X. destruct X as [c' [E' Hc']]. eauto.
      - intros con. unfold s. rewrite <- sumQ_scale. apply sumQ_ext. intros [i d]. cbn [fst snd].
        destruct (Nat.eqb i (pc_id con)) eqn:E; [apply Nat.eqb_eq in E; subst i|]; ring. }
    change (qsum (map (fun a => snd a * (energy_balance m y dirs lf (fst a) - energy_balance m x dirs lf (fst a))) ps))
      with (sumQ (fun a => snd a * dl (fst a)) ps).
    unfold objective in *. rewrite Eo in M. rewrite <- S. apply M. intros con' Hc'.
    destruct (find (fun a : nat * demand_row => Nat.eqb (fst a) (pc_id con')) (save_index n l)) as [[i d]|] eqn:E.
    - right. apply find_some in E. destruct E as [Hi E]. cbn [fst] in E. apply Nat.eqb_eq in E. subst i.
      assert (Hb : balance_con m (de_region d) con').
      { exists (energy_rhs l n), (CRow (pc_id con') "=" (de_demand d) (KRegion (de_region d))). split; [exact D1|].
        split; [unfold energy_rhs; apply in_map_iff; exists (pc_id con', d); auto|auto]. }
      destruct (like_in _ _ _ F Hc') as [con [Hc L]].
      pose proof (balance_diff (de_region d) con con' x y Hc L Hb Sv) as X. fold (dl (de_region d)) in X.
      assert (Sd : s con' == dl (de_region d)).
      { unfold s. rewrite (sumQ_pick (fun a : nat * demand_row => dl (de_region (snd a))) (fun a => Nat.eqb (fst a) (pc_id con')) (pc_id con', d)); auto.
        - reflexivity.
        - cbn. apply Nat.eqb_refl.
        - intros a Ha Ea. apply Nat.eqb_eq in Ea. eapply save_index_inj; eauto.
        - apply save_index_NoDup. }
      rewrite Sd. lra.
    - left. pose proof (find_none _ _ E) as N. split.
      + apply K; [exact Hc'|]. intros r [rows' [row' [D' [Hr' [Ek Ei]]]]]. assert (rows' = energy_rhs l n) by congruence. subst rows'.
        destruct (demand_rows l n row' Hr') as [d' [Hd' [Hi' Er']]]. apply N in Hi'. cbn [fst] in Hi'. rewrite Ei, Nat.eqb_refl in Hi'. discriminate.
      + unfold s. apply sumQ_zero. intros a Ha. apply N in Ha. now rewrite Ha.
  Qed.
End Energy.

(** ** FCAS *)

Definition set_id (l : list fcas_req_row) (n : nat) (s : string) : nat :=
  match find (fun p => String.eqb s (fq_set (snd p))) (fcas_ids l n) with Some p => fst p | None => 0%nat end.

Lemma set_id_is l n i b : In (i, b) (fcas_ids l n) -> set_id l n (fq_set b) = i.
Proof.
  intros H. unfold set_id. destruct (find _ _) as [p|] eqn:E.
  - apply find_some in E. destruct E as [E1 E2]. apply String.eqb_eq in E2.
    rewrite (fcas_set_unique l n p (i, b) E1 H) by (cbn; congruence). reflexivity.
  - exfalso. apply (find_none _ _ E) in H. cbn in H. rewrite String.eqb_refl in H. discriminate.
Qed.
Lemma set_id_row l n r : In r l -> exists b, In (set_id l n (fq_set r), b) (fcas_ids l n) /\ fq_set b = fq_set r.
Proof.
  intros H. destruct (fcas_set_has l n r H) as [[i b] [Hb E]]. cbn [snd] in E. exists b. rewrite E, (set_id_is l n i b Hb). auto.
Qed.
Lemma set_id_inj l n a b : In a l -> In b l -> set_id l n (fq_set a) = set_id l n (fq_set b) -> fq_set a = fq_set b.
Proof.
  intros Ha Hb E. destruct (set_id_row l n a Ha) as [a' [A1 A2]]. destruct (set_id_row l n b Hb) as [b' [B1 B2]].
  rewrite E in A1. unfold fcas_ids in *. pose proof (save_index_inj _ _ _ _ A1 B1 eq_refl) as X. injection X as X. congruence.
Qed.

Definition wanted (r sv : string) (b : fcas_req_row) : bool := String.eqb r (fq_region b) && String.eqb sv (fq_service b).
Lemma wanted_ok r sv b : wanted r sv b = true <-> fq_region b = r /\ fq_service b = sv.
Proof. unfold wanted. rewrite andb_true_iff, !String.eqb_eq. intuition. Qed.

Section Fcas.
  Variables (c : config) (l : list fcas_req_row) (v : option vcost) (gu : list gunit_row) (gr : list gregion_row) (gi : list ginter_row)
    (m : market) (p q : problem) (x : assignment) (pi : nat -> Q) (ps : list ((string * string) * Q)).
  Hypothesis H_req : held c (OpFcasReq l v) m.
  Hypothesis H_links : links c gu gr gi m.
  Hypothesis H_services : forall b, In b l -> fq_service b <> "energy".
  Hypothesis H_assemble : assemble m = Ok p.
  Hypothesis H_priced : priced_problem m p q.
  Hypothesis H_report : fcas_prices m pi = Ok ps.

  Lemma fcas_price_sum n r sv price : dget "fcas" (m_mrhs m) = Some (fcas_rhs l n) -> dget "fcas" (m_c2v_reg m) = Some (fcas_map l n) ->
    In ((r, sv), price) ps -> price == sumQ (fun b => pi (set_id l n (fq_set b))) (filter (wanted r sv) l).
  Proof.
    intros G1 G2 H. unfold fcas_prices, need in H_report. rewrite G2, G1 in H_report. injection H_report as E. subst ps.
    apply group_row in H; [|exact rs_ok]. destruct H as [_ ->]. rewrite !sumQ_filter.
    rewrite <- (price_sum l n (fun g' s' z => if String.eqb r g' && String.eqb sv s' then z else 0) pi (fun s => pi (set_id l n s))).
    - apply sumQ_ext. intros [a b]. unfold rs_eqb. cbn [fst snd]. now rewrite (String.eqb_sym (rc_region a)), (String.eqb_sym (rc_service a)).
    - intros g' s' p' q' E. now destruct (_ && _).
    - intros [i b] Hb. cbn [fst snd]. now rewrite (set_id_is l n i b Hb).
  Qed.

  Lemma set_con_row n s con : dget "fcas" (m_mrhs m) = Some (fcas_rhs l n) ->
    (set_con m s con <-> exists b, In (pc_id con, b) (fcas_ids l n) /\ fq_set b = s).
  Proof.
    intros D. split.
    - intros [rows [row [D' [Hr [Ek Ei]]]]]. assert (rows = fcas_rhs l n) by congruence. subst rows.
      unfold fcas_rhs in Hr. apply in_map_iff in Hr. destruct Hr as [[i b] [<- Hb]]. cbn [cr_key cr_id] in *. injection Ek as Ek.
      exists b. rewrite Ei. auto.
    - intros [b [Hb Es]]. exists (fcas_rhs l n), (CRow (pc_id con) (fq_type b) (fq_volume b) (KSet (fq_set b))).
      split; [exact D|]. split; [unfold fcas_rhs; apply in_map_iff; exists (pc_id con, b); auto|]. cbn. split; congruence.
  Qed.

  Lemma set_present n b : dget "fcas" (m_mrhs m) = Some (fcas_rhs l n) -> dget "fcas" (m_c2v_reg m) = Some (fcas_map l n) -> wf m ->
    In b l -> region_offers m (fq_region b) (fq_service b) -> exists con, In con (p_cons p) /\ pc_id con = set_id l n (fq_set b).
  Proof.
    intros D1 D2 W Hb [u [Hu [Er [w [Hw [V1 [V2 V3]]]]]]]. destruct (set_id_row l n b Hb) as [a [Ha Ea]].
    set (i := set_id l n (fq_set b)) in *. set (row := CRow i (fq_type a) (fq_volume a) (KSet (fq_set a))).
    assert (Hr : In row (fcas_rhs l n)) by (unfold fcas_rhs; apply in_map_iff; exists (i, a); auto).
    destruct (bids_tables m W) as [vs [F1 [F2 _]]].
    destruct (regional_row_lhs m "fcas" (fcas_rhs l n) (fcas_map l n) row (RC i (fq_region b) (fq_service b) 1)
        (RV (bv_id w) (ui_region u) (bv_service w)
            (if String.eqb (bv_dt w) "load" && String.eqb (bv_service w) "energy" then -(1) else 1))) as [ll [Hl El]]; auto.
    - unfold fcas_map. apply in_map_iff. exists (b, (i, a)). split; [reflexivity|]. apply in_merge. cbn [snd].
      rewrite Ea, String.eqb_refl. auto.
    - unfold regional_vars. apply in_or_app. left. rewrite F2. unfold bid_regional_map, bid_constraint_map.
      apply in_map_iff. exists (w, u). split; [reflexivity|]. apply in_merge. rewrite F1 in Hw.
      rewrite V1, V3, !String.eqb_refl. auto.
    - destruct (lhs_con m p ll H_assemble Hl) as [con [Hcon Ec]].
      + eexists. exact (in_all_rhs_regional m "fcas" _ row D1 Hr).
      + exists con. split; [exact Hcon|]. rewrite Ec, El. reflexivity.
  Qed.

  Lemma set_diff s con con' y z : In con (p_cons p) -> like con con' -> set_con m s con' -> same_violations m "fcas" y z ->
    gap con' z - gap con' y == set_total m z l gu gr gi s - set_total m y l gu gr gi s.
  Proof.
    intros Hc L Hs Sv. pose proof (held_reached _ _ _ H_req) as R. pose proof (reached_energy_only c m R) as EO.
    destruct (held_fcas _ _ _ _ H_req) as [O [C [n [D1 [D2 G]]]]].
    destruct (proj1 (set_con_row n s con' D1) Hs) as [b [Hb Es]]. destruct L as [L1 [L2 [L3 L4]]].
    set (row := CRow (pc_id con') (fq_type b) (fq_volume b) (KSet (fq_set b))).
    assert (Hr : In row (fcas_rhs l n)) by (unfold fcas_rhs; apply in_map_iff; exists (pc_id con', b); auto).
    assert (Ei' : pc_id con = cr_id row) by (cbn; congruence).
    destruct (con_rhs m p "fcas" _ con row (proj1 O) H_assemble D1 Hr Hc Ei') as [k Eb]. rewrite Eb in L4.
    destruct (pc_rhs con') as [b'|] eqn:Eb'; [|destruct L4]. unfold gap. rewrite Eb', L3. cbn [rhs_value].
    setoid_replace (linear (pc_terms con) z - b' - (linear (pc_terms con) y - b')) with (linear (pc_terms con) z - linear (pc_terms con) y) by ring.
    rewrite <- linear_diff, (con_row m p "fcas" _ con row (proj1 O) H_assemble D1 Hr Hc Ei').
    rewrite (fcas_row_value m _ _ row _ O (G _ (same_silent _ _ _ _ Sv)) Hr).
    assert (Hr2 : In row (rows_or_nil (dget "generic" (m_rhs m)) ++ rows_or_nil (dget "fcas" (m_mrhs m)))).
    { apply in_or_app. right. rewrite D1. exact Hr. }
    pose proof (links_inv _ _ _ _ _ H_links) as T.
    rewrite row_value_diff, !(generic_value m _ gu gr gi row s (proj1 O) T Hr2) by (cbn; congruence).
    unfold set_total.
    assert (V : regional_value m (diff y z) (fcas_map l n) (cr_id row) == set_supply m z l s - set_supply m y l s).
    { unfold regional_value. cbn [cr_id row].
      rewrite (set_map_value l n (pc_id con') s (fun a s0 => region_term (regional_vars m) (diff y z) a s0) b Hb Es).
      change (set_supply m ?w l s) with (sumQ (fun r => region_supply m w (fq_region r) (fq_service r))
        (filter (fun r => String.eqb s (fq_set r)) l)). rewrite <- sumQ_sub. apply sumQ_ext_in. intros e He. apply filter_In in He.
      rewrite region_term_diff, !ancillary_value; [reflexivity|apply O|exact EO| |apply O|exact EO|]; apply H_services; tauto. }
    rewrite V. ring.
  Qed.

  Lemma fcas_marginal r sv price y delta : shadow_prices q x pi -> In ((r, sv), price) ps -> region_offers m r sv ->
    boxed q y ->
    (forall con, In con (p_cons q) -> (forall s, set_con m s con -> ~ required l s r sv) -> met_or_free pi y con) ->
    same_violations m "fcas" x y ->
    (forall s, required l s r sv -> set_total m y l gu gr gi s == set_total m x l gu gr gi s + delta) ->
    objective p x + price * delta <= objective p y.
  Proof.
    intros Sh Hp Ro B K Sv Et. destruct (priced_shape m p q H_priced) as [Eo [F _]].
    destruct (held_fcas _ _ _ _ H_req) as [O [C [n [D1 [D2 G]]]]].
    pose proof (fcas_price_sum n r sv price D1 D2 Hp) as Ep.
    set (L := filter (wanted r sv) l) in *. set (ids := map (fun b => set_id l n (fq_set b)) L).
    set (s := fun con : pcon => sumQ (fun i => if Nat.eqb i (pc_id con) then delta else 0) ids).
    pose proof (marginal q x pi y s Sh B) as M.
    assert (S : sumQ (fun con => pi (pc_id con) * s con) (p_cons q) == price * delta).
    { rewrite (sumQ_ext _ (fun con => sumQ (fun j => if Nat.eqb j (pc_id con) then pi j * delta else 0) ids)).
      - rewrite sum_by_id.
        + unfold ids. rewrite sumQ_map, Ep. rewrite (sumQ_ext _ (fun a => delta * pi (set_id l n (fq_set a)))) by (intros; ring).
          rewrite sumQ_scale. ring.
        + rewrite (like_ids _ _ F). exact (cons_ids_NoDup m p H_assemble).
        + intros j Hj. unfold ids in Hj. apply in_map_iff in Hj. destruct Hj as [b [<- Hb]]. apply filter_In in Hb. destruct Hb as [Hb Wb].
          apply wanted_ok in Wb. destruct Wb as [W1 W2].
          destruct (set_present n b D1 D2 (proj1 O) Hb) as [con [Hc E]]; [rewrite W1, W2; exact Ro|].
          pose proof (like_ids _ _ F) as Ids.
          assert (X : In (set_id l n (fq_set b)) (map pc_id (p_cons q))) by (rewrite Ids, <- E; now apply in_map).
          apply in_map_iff in X. destruct X as [c' [E' Hc']]. eauto.
      - intros con. unfold s. rewrite <- sumQ_scale. apply sumQ_ext. intros i.
        destruct (Nat.eqb i (pc_id con)) eqn:E; [apply Nat.eqb_eq in E; subst i|]; ring. }
    unfold objective in *. rewrite Eo in M. rewrite <- S. apply M. intros con' Hc'.
    destruct (existsb (fun b => Nat.eqb (set_id l n (fq_set b)) (pc_id con')) L) eqn:E.
    - right. apply existsb_exists in E. destruct E as [b [Hb E]]. apply Nat.eqb_eq in E.
      assert (Sd : s con' == delta).
      { unfold s, ids. rewrite sumQ_map. rewrite (sumQ_pick (fun _ => delta) (fun a => Nat.eqb (set_id l n (fq_set a)) (pc_id con')) b); auto.
        - reflexivity.
        - now apply Nat.eqb_eq.
        - intros a Ha Ea. apply Nat.eqb_eq in Ea. apply filter_In in Ha, Hb. destruct Ha as [Ha Wa], Hb as [Hb Wb].
          apply (NoDup_map_inj (fun r => (fq_set r, fq_region r, fq_service r)) l); auto; [exact (requirement_once c l v m H_req)|].
          apply wanted_ok in Wa, Wb. destruct Wa as [-> ->], Wb as [-> ->]. rewrite (set_id_inj l n a b Ha Hb) by congruence. reflexivity.
        - apply NoDup_filter. pose proof (requirement_once c l v m H_req) as ND. now apply NoDup_map_inv in ND. }
      apply filter_In in Hb. destruct Hb as [Hb Wb]. apply wanted_ok in Wb. destruct Wb as [W1 W2].
      destruct (set_id_row l n b Hb) as [a [Ha Ea]]. rewrite E in Ha.
      assert (Sc : set_con m (fq_set b) con') by (apply (set_con_row n (fq_set b) con' D1); exists a; auto).
      destruct (like_in _ _ _ F Hc') as [con [Hc Lk]].
      pose proof (set_diff (fq_set b) con con' x y Hc Lk Sc Sv) as X.
      rewrite (Et (fq_set b)) in X by (exists b; auto). rewrite Sd. lra.
    - left. split.
      + apply K; [exact Hc'|]. intros s0 Sc [b [Hb [E1 [E2 E3]]]].
        assert (N : Nat.eqb (set_id l n (fq_set b)) (pc_id con') = false).
        { destruct (Nat.eqb (set_id l n (fq_set b)) (pc_id con')) eqn:N; [|reflexivity]. rewrite <- E. symmetry. apply existsb_exists.
          exists b. split; [|exact N]. apply filter_In. split; [exact Hb|]. now apply wanted_ok. }
        apply (set_con_row n s0 con' D1) in Sc. destruct Sc as [a [Ha Ea]].
        assert (X : set_id l n (fq_set b) = pc_id con') by (rewrite E1, <- Ea; exact (set_id_is l n _ a Ha)).
        rewrite X, Nat.eqb_refl in N. discriminate.
      + unfold s, ids. rewrite sumQ_map. apply sumQ_zero. intros b Hb.
        destruct (Nat.eqb (set_id l n (fq_set b)) (pc_id con')) eqn:N; [|reflexivity]. exfalso.
        assert (X : existsb (fun b => Nat.eqb (set_id l n (fq_set b)) (pc_id con')) L = true) by (apply existsb_exists; eauto). congruence.
  Qed.
End Fcas.
