(** FCAS prices and availability. *)

From Coq Require Import QArith Qabs Lqa String List Bool Arith Lia ZArith.
Import ListNotations.
From Verif Require Import PandasModel TablesModel VariableIdsModel MarketConstraintsModel
  UnitConstraintsModel RampModel FcasModel InterModel ElasticModel MarketModel SolverModel ReportsModel FcasReportsModel
  SpecLp PandasFacts SpecHistory SpecIds SpecDispatch SpecNetwork SpecReports StepFacts InvariantFacts OwnerFacts SolverFacts
  MeaningFacts LimitFacts TableFacts BidFacts JointRampFacts BalanceFacts GenericFacts ReportFacts CompositeFacts
  ElasticStateFacts PriceStateFacts PriceFacts.
Open Scope string_scope.
Open Scope list_scope.

Lemma rs_ok a b : rs_eqb a b = true <-> a = b.
Proof.
  destruct a, b. unfold rs_eqb. cbn. rewrite andb_true_iff, !String.eqb_eq. split; [intros [-> ->]; reflexivity|].
  intros E; inversion E; auto.
Qed.

(** ** Prices *)

Lemma fcas_ids_NoDup l n : NoDup (fcas_ids l n).
Proof. apply save_index_NoDup. Qed.

Lemma fcas_set_unique l n p q : In p (fcas_ids l n) -> In q (fcas_ids l n) -> fq_set (snd p) = fq_set (snd q) -> p = q.
Proof.
  unfold fcas_ids. set (dd := drop_duplicates (fun a b => String.eqb (fq_set a) (fq_set b)) l). intros H1 H2 E.
  assert (U : ForallOrdPairs (fun a b => String.eqb (fq_set a) (fq_set b) = false) dd) by apply drop_duplicates_distinct.
  clearbody dd. revert n H1 H2. induction dd as [|a t IH]; intros n H1 H2; [destruct H1|].
  inversion U as [|? ? U1 U2]; subst. rewrite Forall_forall in U1. rewrite save_index_cons in H1, H2.
  destruct H1 as [<-|H1], H2 as [<-|H2]; auto.
  - destruct q as [j q]. apply in_save_index in H2. cbn [fst snd] in *. destruct H2 as [_ H2]. specialize (U1 _ H2). rewrite E, String.eqb_refl in U1. discriminate.
  - destruct p as [j p]. apply in_save_index in H1. cbn [fst snd] in *. destruct H1 as [_ H1]. specialize (U1 _ H1). rewrite E, String.eqb_refl in U1. discriminate.
  - now apply (IH U2 (S n)).
Qed.

Lemma fcas_set_has l n r : In r l -> exists p, In p (fcas_ids l n) /\ fq_set r = fq_set (snd p).
Proof.
  intros H. destruct (drop_duplicates_repr (fun a b => String.eqb (fq_set a) (fq_set b)) l r) as [b [Hb E]]; auto.
  - intros a b E c E2. apply String.eqb_eq in E, E2. apply String.eqb_eq. congruence.
  - intros a. apply String.eqb_refl.
  - intros a b E. now rewrite String.eqb_sym.
  - destruct (save_index_in n _ _ Hb) as [i Hi]. exists (i, b). split; [exact Hi|]. apply String.eqb_eq in E. cbn. congruence.
Qed.

Lemma price_sum l n (f : string -> string -> Q -> Q) (pi : nat -> Q) (pr : string -> Q) :
  (forall g s p q, p == q -> f g s p == f g s q) ->
  (forall p, In p (fcas_ids l n) -> pi (fst p) == pr (fq_set (snd p))) ->
  sumQ (fun q => f (rc_region (fst q)) (rc_service (fst q)) (pi (cr_id (snd q))))
    (merge (fun c r => Nat.eqb (rc_con c) (cr_id r)) (fcas_map l n) (fcas_rhs l n))
  == sumQ (fun r => f (fq_region r) (fq_service r) (pr (fq_set r))) l.
Proof.
  intros Hf Hp. rewrite sumQ_merge. unfold fcas_map. rewrite sumQ_map, sumQ_merge. apply sumQ_ext_in. intros r Hr.
  rewrite sumQ_filter. destruct (fcas_set_has l n r Hr) as [p [Ip Ep]].
  transitivity (sumQ (fun q : nat * fcas_req_row => if String.eqb (fq_set r) (fq_set (snd q)) then f (fq_region r) (fq_service r) (pr (fq_set r)) else 0) (fcas_ids l n)).
  - apply sumQ_ext_in. intros [i b] Hb. cbn [fst snd]. destruct (String.eqb (fq_set r) (fq_set b)) eqn:E; [|reflexivity].
    apply String.eqb_eq in E. cbn [rc_region rc_service rc_con].
    rewrite sumQ_filter. unfold fcas_rhs. rewrite sumQ_map.
    transitivity (sumQ (fun q : nat * fcas_req_row => if Nat.eqb i (fst q) then f (fq_region r) (fq_service r) (pi (fst q)) else 0) (fcas_ids l n)).
    + apply sumQ_ext. intros [j q]. reflexivity.
    + rewrite (sumQ_pick (fun q : nat * fcas_req_row => f (fq_region r) (fq_service r) (pi (fst q))) _ (i, b)); auto.
      * apply Hf. rewrite E. exact (Hp _ Hb).
      * apply Nat.eqb_refl.
      * intros q Hq Eq. apply Nat.eqb_eq in Eq. eapply save_index_inj; eauto.
      * apply fcas_ids_NoDup.
  - rewrite (sumQ_pick (fun _ : nat * fcas_req_row => f (fq_region r) (fq_service r) (pr (fq_set r))) _ p); auto.
    + reflexivity.
    + now apply String.eqb_eq.
    + intros q Hq Eq. apply String.eqb_eq in Eq. apply (fcas_set_unique l n); auto. congruence.
    + apply fcas_ids_NoDup.
Qed.

Lemma elastic_tables k v m m' e : make_elastic k v m = (m', e) -> m_mrhs m' = m_mrhs m /\ m_c2v_reg m' = m_c2v_reg m.
Proof.
  assert (X : forall rows, m_mrhs (fst (add_deficits k rows m)) = m_mrhs m /\ m_c2v_reg (fst (add_deficits k rows m)) = m_c2v_reg m).
  { intros rows. unfold add_deficits. destruct rows; [auto|]. destruct (next_id _); auto. }
  assert (Y : m_mrhs (fst (make_elastic k v m)) = m_mrhs m /\ m_c2v_reg (fst (make_elastic k v m)) = m_c2v_reg m).
  { unfold make_elastic. destruct (group_rows k m) as [g|]; [|auto]. destruct v; [apply X| |destruct g; auto].
    apply (guard_fst (fun m0 => m_mrhs m0 = m_mrhs m /\ m_c2v_reg m0 = m_c2v_reg m)); auto. intros _.
    destruct (has_set_column k); auto. }
  intros E. now rewrite E in Y.
Qed.

Lemma fcas_tables c l v m : in_force c (OpFcasReq l v) m ->
  exists n, dget "fcas" (m_mrhs m) = Some (fcas_rhs l n) /\ dget "fcas" (m_c2v_reg m) = Some (fcas_map l n).
Proof.
  intros I. apply in_force_inv in I. destruct I as [O [C [m' [m1 [O' [C' [St K]]]]]]].
  cbn [step] in St. unfold set_fcas_req in St. apply guard_ok in St. destruct St as [_ St].
  apply andthen_ok in St. destruct St as [m2 [St E]].
  destruct (new_regional_group_is "fcas" _ _ m' m2 O' (fcas_ok l) St) as [n [_ [G1 [G2 _]]]]. exists n.
  destruct (K "fcas") as [_ [K1 [_ [K2 _]]]]; [cbn; auto|]. rewrite K1, K2.
  assert (T : m_mrhs m1 = m_mrhs m2 /\ m_c2v_reg m1 = m_c2v_reg m2).
  { destruct v as [w|]; cbn [maybe_elastic] in E; [now apply elastic_tables in E|]. unfold done in E. injection E as <-. auto. }
  destruct T as [-> ->]. auto.
Qed.

Lemma prices_reported c l v m pi pr rep : in_force c (OpFcasReq l v) m -> set_prices m pi pr -> fcas_prices m pi = Ok rep ->
  NoDup (map fst rep)
  /\ (forall g s q, In ((g, s), q) rep -> q == qsum (map (fun r => pr (fq_set r))
        (filter (fun r => String.eqb g (fq_region r) && String.eqb s (fq_service r)) l)))
  /\ (forall g s, (exists q, In ((g, s), q) rep) <-> exists r, In r l /\ fq_region r = g /\ fq_service r = s).
Proof.
  intros I P H. apply fcas_tables in I. destruct I as [n [G1 G2]].
  unfold fcas_prices, need in H. rewrite G2, G1 in H. injection H as <-.
  assert (Hp : forall p, In p (fcas_ids l n) -> pi (fst p) == pr (fq_set (snd p))).
  { intros [i b] Hb. cbn [fst snd]. apply (P (fcas_rhs l n) (CRow i (fq_type b) (fq_volume b) (KSet (fq_set b))) (fq_set b)); auto.
    unfold fcas_rhs. apply in_map_iff. exists (i, b). auto. }
  split; [apply group_NoDup, rs_ok|]. split.
  - intros g s q H. apply group_row in H; [|exact rs_ok]. destruct H as [_ ->].
    change (qsum (map (fun r => pr (fq_set r)) (filter (fun r => String.eqb g (fq_region r) && String.eqb s (fq_service r)) l)))
      with (sumQ (fun r => pr (fq_set r)) (filter (fun r => String.eqb g (fq_region r) && String.eqb s (fq_service r)) l)).
    rewrite !sumQ_filter.
    rewrite <- (price_sum l n (fun g' s' z => if String.eqb g g' && String.eqb s s' then z else 0) pi pr); auto.
    + apply sumQ_ext. intros [a b]. unfold rs_eqb. cbn [fst snd]. now rewrite (String.eqb_sym (rc_region a)), (String.eqb_sym (rc_service a)).
    + intros g' s' p' q' E. now destruct (_ && _).
  - intros g s. split.
    + intros [q H]. apply group_row in H; [|exact rs_ok]. destruct H as [H _]. apply in_map_iff in H. destruct H as [[a b] [E H]].
      cbn [fst] in E. injection E as <- <-. apply in_merge in H. destruct H as [H _]. unfold fcas_map in H. apply in_map_iff in H.
      destruct H as [[r [i b']] [<- H]]. apply in_merge in H. exists r. cbn [rc_region rc_service]. tauto.
    + intros [r [Hr [<- <-]]]. eexists. apply group_made; [exact rs_ok|]. destruct (fcas_set_has l n r Hr) as [[i b] [Ip Ep]]. cbn [snd] in Ep.
      apply in_map_iff. exists (RC i (fq_region r) (fq_service r) 1, CRow i (fq_type b) (fq_volume b) (KSet (fq_set b))).
      split; [reflexivity|]. apply in_merge. split; [|split].
      * unfold fcas_map. apply in_map_iff. exists (r, (i, b)). split; [reflexivity|]. apply in_merge. cbn [snd]. rewrite Ep, String.eqb_refl. auto.
      * unfold fcas_rhs. apply in_map_iff. exists (i, b). auto.
      * apply Nat.eqb_refl.
Qed.

(** ** Groups about energy only *)

Definition energy_groups : list string := ["unit_bid_capacity"; "uigf_capacity"; "ramp_up"; "ramp_down"; "fast_start"].
Definition energy_units (m : market) : Prop :=
  forall k cs c, In k energy_groups -> In (k, cs) (m_c2v_unit m) -> In c cs -> uc_service c = "energy".

Lemma new_group_energy k mr mm m : (In k energy_groups -> forall n c, In c (mm n) -> uc_service c = "energy") -> energy_units m ->
  energy_units (fst (new_unit_group k mr mm m)).
Proof.
  intros E H. assert (X : forall rows cs m', (In k energy_groups -> forall c, In c cs -> uc_service c = "energy") ->
    m_c2v_unit m' = m_c2v_unit (put_unit k rows cs m) -> energy_units m').
  { intros rows cs m' Ec Em k' cs' c Hk Hg Hc. rewrite Em in Hg. unfold put_unit in Hg. cbn [m_c2v_unit set_m_c2v_unit set_m_rhs] in Hg.
    apply in_dset in Hg. destruct Hg as [[-> ->]|Hg]; [now apply Ec|]. eapply H; eauto. }
  unfold new_unit_group. destruct (m_nc m) as [n|].
  - destruct (next_id _); apply (X (mr n) (mm n)); auto; intros; eapply E; eauto.
  - destruct (mr 0%nat); apply (X [] []); auto; intros _ c0 [].
Qed.

Lemma create_map_energy l n c : (forall u, In u l -> ul_service u = "energy") -> In c (create_constraints_map l n) -> uc_service c = "energy".
Proof.
  intros H Hc. unfold create_constraints_map in Hc. apply in_map_iff in Hc. destruct Hc as [[i u] [<- Hu]].
  apply in_save_index in Hu. cbn. apply H. tauto.
Qed.

Lemma elastic_energy k v m : energy_units m -> energy_units (fst (make_elastic k v m)).
Proof.
  intros H. assert (X : forall rows m', energy_units m' -> energy_units (fst (add_deficits k rows m'))).
  { intros rows m' H'. unfold add_deficits. destruct rows; [exact H'|]. destruct (next_id _); exact H'. }
  unfold make_elastic. destruct (group_rows k m) as [g|]; [|exact H]. destruct v.
  - now apply X.
  - apply guard_fst; auto. intros _. destruct (has_set_column k); [|exact H]. now apply X.
  - destruct g; exact H.
Qed.

Lemma blocks_energy bs n c : (forall b u, In b bs -> In u (fst b) -> ul_service u = "energy") -> In c (blocks_map bs n) -> uc_service c = "energy".
Proof.
  revert n. induction bs as [|[l d] t IH]; intros n E H; cbn in H; [destruct H|].
  apply in_app_iff in H. destruct H as [H|H].
  - apply create_map_energy in H; auto. intros u Hu. apply (E (l, d)); cbn; auto.
  - apply (IH (n + length l)%nat); auto. intros b u Hb. apply E. cbn. auto.
Qed.

Lemma fast_start_energy l n c : In c (fast_start_map l n) -> uc_service c = "energy".
Proof.
  apply blocks_energy. intros b u Hb Hu. unfold fast_start_blocks in Hb. cbn in Hb.
  intuition subst b; cbn [fst] in Hu; apply in_map_iff in Hu; now destruct Hu as [p [<- _]].
Qed.

Lemma step_energy o m : energy_units m -> energy_units (fst (step o m)).
Proof.
  intros H.
  assert (ME : forall k v m0, energy_units m0 -> energy_units (fst (maybe_elastic k v m0))).
  { intros k [w|] m0 H0; [now apply elastic_energy|exact H0]. }
  assert (PE : forall k v m0, energy_units m0 -> energy_units (fst (elastic_if_present k v m0))).
  { intros k w m0 H0. unfold elastic_if_present. destruct (dhas _ _); [now apply elastic_energy|exact H0]. }
  assert (Plain : (forall k, In k (touches o) -> ~ In k energy_groups) -> energy_units (fst (step o m))).
  { intros T. apply (step_preserves energy_units (fun k => ~ In k energy_groups)) with (ok := fun _ _ => True); auto; clear o m H T; intros.
    - unfold set_volume_bids. repeat (apply guard_fst; [exact H|intros _]). destruct (next_id _); exact H.
    - unfold set_price_bids. destruct (m_bids m); [|exact H]. repeat (apply guard_fst; [exact H|intros _]). exact H.
    - apply new_group_energy; auto. intros; contradiction.
    - unfold new_regional_group. destruct (m_nc m); [destruct (next_id _)|destruct (mr 0%nat)]; exact H2.
    - now apply elastic_energy.
    - destruct H. cbn. auto 10.
    - unfold set_interconnectors. apply guard_fst; auto. intros _. destruct (next_id _); exact H.
    - unfold put_tie. destruct (m_nc m); exact H1.
    - destruct (set_losses_cases lf bps m) as [[e X]|[[e X]|[p [Hp X]]]]; rewrite X; [exact H1|exact H1|]. unfold put_losses. destruct (m_nc m); exact H1.
    - unfold put_generic. destruct (m_nc m); exact H1. }
  destruct o; try solve [apply Plain; cbn; intros k Hk He; intuition (subst; discriminate)]; clear Plain; cbn [step].
  - unfold set_capacity, need_bids. destruct (m_bids m); [|exact H]. apply guard_fst; auto. intros _. apply andthen_fst.
    + apply new_group_energy; auto. intros _ n x Hc. unfold capacity_map in Hc. apply in_map_iff in Hc. destruct Hc as [c0 [<- Hc]]. 
      apply create_map_energy in Hc; [now cbn|]. intros u Hu. unfold capacity_limits in Hu. apply in_map_iff in Hu. now destruct Hu as [r [<- _]].
    + intros. now apply ME.
  - unfold set_uigf, need_bids. destruct (m_bids m); [|exact H]. apply guard_fst; auto. intros _. apply andthen_fst.
    + apply new_group_energy; auto. intros _ n x Hc. apply create_map_energy in Hc; auto. intros u Hu. apply in_map_iff in Hu. now destruct Hu as [r [<- _]].
    + intros. now apply ME.
  - unfold set_ramp. repeat (apply guard_fst; [exact H|intros _]).
    destruct (ramp_step _ _ _ _ _ _) as [rl|e]; [|exact H].
    apply andthen_fst; [apply new_group_energy; auto; intros _ n x Hc; apply create_map_energy in Hc; auto; intros u Hu; apply in_map_iff in Hu; now destruct Hu as [r [<- _]]|].
    intros m1 H1.
    apply andthen_fst; [apply new_group_energy; auto; intros _ n x Hc; apply create_map_energy in Hc; auto; intros u Hu; apply in_map_iff in Hu; now destruct Hu as [r [<- _]]|].
    intros m2 H2.
    apply andthen_fst.
    { destruct (bdu_ramp_step _ _ _ _); [exact H2|]. apply andthen_fst; [apply new_group_energy; auto; cbn; intuition discriminate|].
      intros m3 H3. apply new_group_energy; auto; cbn; intuition discriminate. }
    intros m3 H3. destruct v; [|exact H3].
    apply andthen_fst; [now apply elastic_energy|]. intros.
    apply andthen_fst; [now apply elastic_energy|]. intros.
    apply andthen_fst; [now apply PE|]. intros. now apply PE.
  - unfold set_fast_start. apply guard_fst; auto. intros _.
    destruct (fast_start_rhs _ 0); [exact H|].
    apply andthen_fst; [apply new_group_energy; auto; intros _ n x Hc; now apply fast_start_energy in Hc|].
    intros. now apply ME.
  - intros k cs c Hk Hg Hc. apply (H k cs c); auto. revert Hg. unfold remove_fast_start.
    destruct (dhas "fast_start" (m_rhs m)); destruct (dhas _ _); cbn; auto; apply in_ddel.
  - now apply elastic_energy.
Qed.

Lemma reached_energy c m : reached c m -> energy_units m.
Proof.
  intros [m0 [ops [H [_ ->]]]]. apply (run_preserves energy_units); [intros; now apply step_energy|].
  unfold new_market in H. destruct (check_unit_info c); [discriminate|]. inversion H; subst. intros k cs c0 _ [].
Qed.

(** ** Raising one service *)

Definition unit_map (m : market) (k : string) : list ucrow := rows_or_nil (dget k (m_c2v_unit m)).

Lemma row_moves c m k rows r x y : reached c m -> In k unit_keys -> dget k (m_rhs m) = Some rows -> In r rows ->
  (forall n, (forall v, In v (rows_or_nil (m_bids m)) -> bv_id v <> n) -> y n == x n) ->
  row_value (all_lhs m) y (cr_id r) - row_value (all_lhs m) x (cr_id r)
  == unit_value m y (unit_map m k) (cr_id r) - unit_value m x (unit_map m k) (cr_id r).
Proof.
  intros R Hk G1 Hr Same. pose proof (reached_plain c m R) as P. apply reached_owned in R. destruct R as [[W [f [n O]]] _].
  pose proof (unit_key_ok k Hk) as [K1 [K2 K3]].
  assert (Fr : f (cr_id r) = GRhs k) by (apply dget_in in G1; apply (ow_rhs _ _ _ O _ _ _ G1 Hr)).
  assert (V : forall z, row_value (all_lhs m) z (cr_id r) == row_value (dconcat (m_lhs m)) z (cr_id r) + unit_value m z (unit_map m k) (cr_id r)).
  { intros z. unfold all_lhs. rewrite !row_value_app.
    rewrite (row_value_none (generic_lhs m)).
    2:{ intros l Hl E. apply (own_generic f n) in Hl; auto. rewrite E, Fr in Hl. destruct Hl as [Hl|Hl]; inversion Hl. congruence. }
    rewrite (regional_part_none f n m k) by auto.
    rewrite unit_lhs_value. unfold unit_value.
    assert (Z : forall k' l' c0, In (k', l') (m_c2v_unit m) -> In c0 l' -> Nat.eqb (uc_con c0) (cr_id r) = true -> k' = k).
    { intros k' l' c0 H1 H2 E. apply Nat.eqb_eq in E. destruct (ow_unit _ _ _ O _ _ _ H1 H2) as [E2 _]. congruence. }
    unfold unit_map. destruct (dget k (m_c2v_unit m)) as [cs|] eqn:G2.
    - rewrite (sumQ_filter_concat _ _ k cs); [cbn [rows_or_nil]; ring|apply (ow_keys _ _ _ O)|exact G2|exact Z].
    - cbn [rows_or_nil filter]. rewrite (sumQ_zero _ (filter _ (dconcat _))); [rewrite sumQ_nil; ring|].
      intros a Ha. exfalso. apply filter_In in Ha. destruct Ha as [Ha E]. apply in_dconcat in Ha. destruct Ha as [k' [l' [H1 H2]]].
      specialize (Z k' l' a H1 H2 E). subst. apply in_dget in H1; [congruence|apply (ow_keys _ _ _ O)]. }
  rewrite !V.
  assert (L : row_value (dconcat (m_lhs m)) y (cr_id r) == row_value (dconcat (m_lhs m)) x (cr_id r)).
  { unfold row_value. apply sumQ_ext_in. intros l Hl. apply filter_In in Hl. destruct Hl as [Hl E]. apply Nat.eqb_eq in E.
    apply in_dconcat in Hl. destruct Hl as [k' [ls [H1 H2]]].
    assert (N : k' <> "tie_break").
    { intros ->. destruct (ow_lhs _ _ _ O _ _ _ H1 H2) as [[[k2 [E1 E2]]|[[E1 E2]|[E1 E2]]] _].
      - symmetry in E1. now apply deficit_key_tie in E1.
      - rewrite E, Fr in E2. inversion E2. congruence.
      - discriminate. }
    rewrite (Same (l_var l)); [reflexivity|]. intros v Hv E2. now apply (P k' ls l v H1 N H2 Hv). }
  rewrite L. ring.
Qed.

Lemma three_names u s d u' s' d' : String.eqb u u' && String.eqb s s' && String.eqb d d' = true <-> u = u' /\ s = s' /\ d = d'.
Proof. rewrite !andb_true_iff, !String.eqb_eq. tauto. Qed.

Lemma other_term m x y u s d u' s' d' delta : wf m -> raised m x y u s d delta -> (u', s', d') <> (u, s, d) ->
  unit_term (rows_or_nil (m_unit_bids m)) y u' s' d' == unit_term (rows_or_nil (m_unit_bids m)) x u' s' d'.
Proof.
  intros W [_ Same] N. destruct (bids_tables m W) as [vs [E1 [_ E2]]]. rewrite E2. unfold unit_term.
  apply sumQ_ext_in. intros v Hv. apply filter_In in Hv. destruct Hv as [Hv E]. apply three_names in E.
  unfold bid_unit_map in Hv. apply in_map_iff in Hv. destruct Hv as [[b i] [<- Hb]]. unfold bid_constraint_map in Hb.
  apply in_merge in Hb. cbn [uv_unit uv_service uv_dt uv_id uv_coef] in *.
  rewrite (Same (bv_id b)); [reflexivity|]. intros v0 Hv0 A1 A2 A3 A4. rewrite E1 in Hv0.
  assert (v0 = b).
  { apply (NoDup_map_inj bv_id vs); auto; [|tauto]. rewrite <- E1. now apply bid_ids_NoDup. }
  subst. apply N. destruct E as [-> [-> ->]]. reflexivity.
Qed.

Lemma value_moves c m x y u s d k i delta : reached c m -> s <> "energy" -> registered (m_cfg m) u d -> raised m x y u s d delta ->
  unit_value m y (unit_map m k) i - unit_value m x (unit_map m k) i
  == delta * sumQ uc_coef (filter (fun c => Nat.eqb (uc_con c) i && (String.eqb u (uc_unit c) && String.eqb s (uc_service c)
            && String.eqb d (uc_dt c))) (unit_map m k)).
Proof.
  intros R Ns Rg Y. apply reached_owned in R. pose proof (proj1 (proj1 R)) as W. unfold unit_value.
  rewrite !sumQ_filter. generalize (unit_map m k). intros cs.
  induction cs as [|a t IH]; [rewrite !sumQ_nil; ring|]. rewrite !sumQ_cons.
  set (A := sumQ _ t) in *. set (B := sumQ _ t) in *. set (D := sumQ _ t) in *. 
  assert (E : (if (uc_con a =? i)%nat then uc_coef a * unit_term (rows_or_nil (m_unit_bids m)) y (uc_unit a) (uc_service a) (uc_dt a) else 0)
     - (if (uc_con a =? i)%nat then uc_coef a * unit_term (rows_or_nil (m_unit_bids m)) x (uc_unit a) (uc_service a) (uc_dt a) else 0)
     == delta * (if (uc_con a =? i)%nat && (String.eqb u (uc_unit a) && String.eqb s (uc_service a) && String.eqb d (uc_dt a)) then uc_coef a else 0)).
  { destruct (uc_con a =? i)%nat; cbn [andb]; [|ring].
    destruct (String.eqb u (uc_unit a) && String.eqb s (uc_service a) && String.eqb d (uc_dt a)) eqn:E.
    - apply three_names in E. destruct E as [<- [<- <-]]. rewrite !unit_term_dispatch by auto. unfold load_sign.
      rewrite (proj2 (String.eqb_neq s "energy") Ns), andb_false_r. cbn [andb]. destruct Y as [Y _]. rewrite Y. ring.
    - rewrite (other_term m x y u s d _ _ _ delta W Y); [ring|]. intros X. injection X as X1 X2 X3.
      rewrite X1, X2, X3, !String.eqb_refl in E. discriminate. }
  lra.
Qed.

(** ** Constraints of the problem *)

Lemma con_parts m p x con r : wf m -> assemble m = Ok p -> In con (p_cons p) -> In r (all_rhs m) -> pc_id con = r_id r ->
  pc_type con = r_type r /\ pc_rhs con = r_rhs r
  /\ qsum (map (fun t => snd t * x (fst t)) (pc_terms con)) == row_value (all_lhs m) x (r_id r).
Proof.
  intros W H Hc Hr E. apply assemble_parts in H. destruct H as [_ [_ [_ [_ [A _]]]]].
  pose proof (wf_rhs_NoDup m W) as ND. unfold add_constraints in A. destruct (no_rhs_tables m) eqn:E0.
  - inversion A as [A']. rewrite <- A' in Hc. destruct Hc.
  - assert (B : build_cons (all_vars m) (all_rhs m) (all_lhs m) (con_ids (all_lhs m)) = Ok (p_cons p)).
    { destruct (all_lhs m); [discriminate|exact A]. }
    apply (build_cons_in _ _ _ _ _ B) in Hc. destruct Hc as [i [_ Hc]]. unfold build_con in Hc.
    destruct (forallb _ _); [|discriminate].
    destruct (find_rhs (all_rhs m) i) as [r'|] eqn:Ef; [|discriminate].
    destruct (mem_str _ _); [|discriminate]. inversion Hc; subst con. cbn [pc_id] in E. subst i.
    rewrite (find_rhs_unique _ _ ND Hr) in Ef. inversion Ef; subst r'. cbn [pc_type pc_rhs pc_terms].
    split; [reflexivity|]. split; [reflexivity|]. eapply Qeq_trans; [|apply lhs_terms_value]. rewrite linear_sum.
    apply (sumQ_ext (fun t : nat * Q => snd t * x (fst t)) (fun t : nat * Q => x (fst t) * snd t)). intros; ring.
Qed.

Lemma slack_value m p x con r : wf m -> assemble m = Ok p -> In con (p_cons p) -> In r (all_rhs m) -> pc_id con = r_id r ->
  slack p x (r_id r) == rhs_number x (r_rhs r) - row_value (all_lhs m) x (r_id r).
Proof.
  intros W H Hc Hr E. unfold slack.
  destruct (find (fun c => Nat.eqb (pc_id c) (r_id r)) (p_cons p)) as [con'|] eqn:F.
  - apply find_some in F. destruct F as [F1 F2]. apply Nat.eqb_eq in F2.
    destruct (con_parts m p x con' r W H F1 Hr F2) as [_ [-> ->]]. reflexivity.
  - exfalso. apply (find_none _ _ F) in Hc. apply Nat.eqb_neq in Hc. congruence.
Qed.

(** ** The smallest slack *)

Lemma omin_le a b z : omin a b = Some z -> (forall q, a = Some q -> z <= q) /\ (forall q, b = Some q -> z <= q).
Proof.
  destruct a as [p|], b as [q|]; cbn; intros E; try discriminate; injection E as <-.
  - destruct (Qle_bool p q) eqn:L; [apply Qle_bool_iff in L|apply Qle_bool_false in L];
      split; intros ? X; injection X as <-; lra.
  - split; intros ? X; [injection X as <-; lra|discriminate].
  - split; intros ? X; [discriminate|injection X as <-; lra].
Qed.
Lemma omin_none a b : omin a b = None -> a = None /\ b = None.
Proof. destruct a, b; cbn; intros E; try discriminate; auto. Qed.

Lemma fold_min {A} (val : A -> option Q) l a q : In a l -> val a = Some q ->
  exists z, fold_right (fun a acc => omin (val a) acc) None l = Some z /\ z <= q.
Proof.
  induction l as [|b t IH]; [intros []|]. intros [->|H] E; cbn [fold_right].
  - destruct (omin (val a) _) as [z|] eqn:M.
    + exists z. split; auto. apply omin_le in M. now apply (proj1 M).
    + apply omin_none in M. rewrite E in M. destruct M. discriminate.
  - destruct (IH H E) as [z [M L]]. destruct (omin (val b) _) as [w|] eqn:M2.
    + exists w. split; auto. apply omin_le in M2. apply Qle_trans with z; auto. now apply (proj2 M2).
    + apply omin_none in M2. destruct M2. congruence.
Qed.

(** ** Availability *)

Lemma group_min_row {A K} (keq : K -> K -> bool) (key : A -> K) (val : A -> option Q) l k z :
  In (k, z) (group_min keq key val l) ->
  z = fold_right (fun a acc => omin (val a) acc) None (filter (fun a => keq (key a) k) l).
Proof. unfold group_min. intros H. apply in_map_iff in H. destruct H as [k0 [E _]]. injection E as -> <-. reflexivity. Qed.

Lemma slack_rows m p x k rows r c0 : In k availability_groups -> dget k (m_rhs m) = Some rows -> In r rows ->
  In c0 (unit_map m k) -> uc_con c0 = cr_id r ->
  In ((uc_unit c0, uc_service c0), service_slack (cr_type r) (uc_coef c0) (slack p x (cr_id r))) (availability_rows m p x).
Proof.
  intros Hk G Hr Hc E. unfold availability_rows. apply in_flat_map. exists k. split; [exact Hk|]. rewrite G.
  apply in_map_iff. exists (c0, r). split; [reflexivity|]. apply in_merge. rewrite E, Nat.eqb_refl. auto.
Qed.

Lemma availability_sound c m p x rep u s a : reached c m -> assemble m = Ok p -> feasible p x ->
  fcas_availability m p x = Ok rep -> In ((u, s), a) rep ->
  s <> "energy" /\ exists d, offers m u s d /\
    (registered (m_cfg m) u d -> forall y delta, 0 <= delta -> (forall q, a = Some q -> dispatch m x u s d + delta <= q) ->
     raised m x y u s d delta ->
     forall k rows r con, In k unit_keys -> k <> "joint_ramping_raise_reg_bdu" -> k <> "joint_ramping_lower_reg_bdu" ->
       clear_terms m k u s -> dget k (m_rhs m) = Some rows -> In r rows -> In con (p_cons p) -> pc_id con = cr_id r ->
       con_holds y con).
Proof.
  intros R A F H Ha. unfold fcas_availability in H. destruct (existsb _ availability_groups); [|discriminate].
  destruct (unit_dispatch m x) as [ud|e] eqn:EU; [|discriminate]. cbn [bind] in H. injection H as <-.
  apply in_map_iff in Ha. destruct Ha as [[[us z] [[[u2 d] s2] w]] [E Hm]]. cbn [fst snd] in E. injection E as -> E.
  apply in_merge in Hm. destruct Hm as [Hm [Hu Hx]]. cbn [fst snd] in Hx. apply andb_true_iff in Hx. rewrite !String.eqb_eq in Hx. destruct Hx as [<- <-].
  apply filter_In in Hm. destruct Hm as [Hm Ne]. cbn [fst snd] in Ne. apply negb_true_iff, String.eqb_neq in Ne.
  apply group_min_row in Hm.
  destruct (unit_dispatch_rows m x ud EU) as [_ [D _]]. destruct (D u d s w Hu) as [Of Ew].
  split; [exact Ne|]. exists d. split; [exact Of|]. intros Rg y delta Dp Lim Y k rows r con Hk N1 N2 Ct G Hr Hcon Eid.
  pose proof (proj1 (reached_owned c m R)) as O. pose proof (proj1 O) as W.
  pose proof (in_all_rhs_unit m k rows r G Hr) as Hall.
  set (rr := RRow (cr_id r) (cr_type r) (RNum (cr_rhs r))) in *.
  assert (HX : con_holds x con) by (now apply (proj1 (proj2 F))).
  rewrite (con_row m p x con rr W A Hcon Hall Eid) in HX.
  rewrite (con_row m p y con rr W A Hcon Hall Eid).
  cbn [rr r_type r_id r_rhs rhs_value] in *.
  assert (Mv : row_value (all_lhs m) y (cr_id r) == row_value (all_lhs m) x (cr_id r)
     + delta * sumQ uc_coef (filter (fun c => Nat.eqb (uc_con c) (cr_id r) && (String.eqb u (uc_unit c) && String.eqb s (uc_service c)
            && String.eqb d (uc_dt c))) (unit_map m k))).
  { pose proof (row_moves c m k rows r x y R Hk G Hr) as M1. pose proof (value_moves c m x y u s d k (cr_id r) delta R Ne Rg Y) as M2.
    rewrite <- M1 in M2; [lra|]. intros n Hn. apply (proj2 Y). intros v Hv _ _ _. now apply Hn. }
  assert (Flat : forall q, q == 0 -> row_value (all_lhs m) y (cr_id r) == row_value (all_lhs m) x (cr_id r) + delta * q ->
     relation (cr_type r) (row_value (all_lhs m) y (cr_id r)) (cr_rhs r)).
  { intros q Eq M. assert (M' : row_value (all_lhs m) y (cr_id r) == row_value (all_lhs m) x (cr_id r)) by (rewrite M, Eq; ring).
    unfold relation in *. rewrite M'. exact HX. }
  assert (Cl : (length (filter (fun c => Nat.eqb (uc_con c) (cr_id r) && (String.eqb u (uc_unit c) && String.eqb s (uc_service c)
            && String.eqb d (uc_dt c))) (unit_map m k)) <= 1)%nat
     /\ (forall c0, In c0 (unit_map m k) -> uc_unit c0 = u -> uc_service c0 = s -> uc_coef c0 == 0 \/ (1#100000) <= Qabs (uc_coef c0))).
  { unfold unit_map. destruct (dget k (m_c2v_unit m)) as [cs|] eqn:G2; cbn [rows_or_nil].
    - destruct (Ct cs G2) as [C1 C2]. auto.
    - cbn. split; [lia|]. intros ? []. }
  destruct Cl as [Cl Cz].
  destruct (filter _ (unit_map m k)) as [|c0 [|c1 t]] eqn:Ef; [|clear Cl|cbn in Cl; lia].
  { apply (Flat (sumQ uc_coef [])); [reflexivity|exact Mv]. }
  rewrite sumQ_cons, sumQ_nil in Mv.
  assert (Hc0 : In c0 (unit_map m k) /\ (uc_con c0 =? cr_id r)%nat && (String.eqb u (uc_unit c0) && String.eqb s (uc_service c0)
            && String.eqb d (uc_dt c0)) = true).
  { assert (Hin : In c0 [c0]) by now left. rewrite <- Ef in Hin. now apply filter_In in Hin. }
  destruct Hc0 as [Hc0 E0]. apply andb_true_iff in E0. destruct E0 as [E0 E1]. apply Nat.eqb_eq in E0. apply three_names in E1. destruct E1 as [E1 [E2 E3]].
  destruct (Cz c0 Hc0) as [C0|C0]; auto; [apply (Flat (uc_coef c0 + 0)); [lra|exact Mv]|].
  assert (Av : In k availability_groups).
  { assert (NE : ~ In k energy_groups).
    { intros He. unfold unit_map in Hc0. destruct (dget k (m_c2v_unit m)) as [cs|] eqn:G2; [|destruct Hc0]. apply dget_in in G2.
      pose proof (reached_energy c m R k cs c0 He G2 Hc0). congruence. }
    clear -Hk N1 N2 NE. unfold unit_keys, availability_groups, energy_groups in *. cbn in *. intuition congruence. }
  pose proof (slack_rows m p x k rows r c0 Av G Hr Hc0 E0) as Sr. rewrite <- E1, <- E2 in Sr.
  assert (Sl : slack p x (cr_id r) == cr_rhs r - row_value (all_lhs m) x (cr_id r))
    by exact (slack_value m p x con rr W A Hcon Hall Eid).
  assert (Bd : forall t, service_slack (cr_type r) (uc_coef c0) (slack p x (cr_id r)) = Some t -> delta <= t).
  { intros t Et. destruct (fold_min snd (filter (fun a => rs_eqb (fst a) (u, s)) (availability_rows m p x)) _ t
       (proj2 (filter_In _ _ _) (conj Sr (proj2 (rs_ok _ _) eq_refl))) Et) as [z' [Ez Lz]].
    rewrite <- Hm in Ez. rewrite Ez in E. cbn [option_map] in E. specialize (Lim _ (eq_sym E)). lra. }
  unfold service_slack in Bd.
  assert (Tiny : negb (Qle_bool (1#100000) (uc_coef c0)) && negb (Qle_bool (uc_coef c0) (-(1#100000))) = false).
  { apply andb_false_iff. rewrite !negb_false_iff, !Qle_bool_iff. revert C0. apply Qabs_case; intros; [left|right]; lra. }
  rewrite Tiny, orb_false_r in Bd.
  assert (Prod : forall t, delta <= Qabs t / Qabs (uc_coef c0) -> delta * Qabs (uc_coef c0) <= Qabs t).
  { intros t Ht. assert (P : 0 < Qabs (uc_coef c0)) by lra.
    apply Qle_trans with (Qabs t / Qabs (uc_coef c0) * Qabs (uc_coef c0)); [now apply Qmult_le_compat_r; [|lra]|].
    field_simplify; [lra|]. lra. }
  assert (Pr : forall t, Qabs t == t \/ Qabs t == - t) by (intros t; apply Qabs_case; intros; [left|right]; reflexivity).
  assert (SA : Qabs (slack p x (cr_id r)) == Qabs (cr_rhs r - row_value (all_lhs m) x (cr_id r))) by (now rewrite Sl).
  destruct HX as [[Et HX]|[[Et HX]|[Et HX]]]; rewrite Et in *;
    [change (String.eqb "<=" "<=") with true in Bd; change (String.eqb "<=" ">=") with false in Bd
    |change (String.eqb ">=" "<=") with false in Bd; change (String.eqb ">=" ">=") with true in Bd
    |change (String.eqb "=" "<=") with false in Bd; change (String.eqb "=" ">=") with false in Bd];
    rewrite ?andb_false_r, ?andb_true_r, ?orb_false_r, ?orb_false_l in Bd.
  - left. split; [reflexivity|]. rewrite Mv. destruct (Qle_bool 0 (uc_coef c0)) eqn:Sg; cbn [negb] in Bd.
    + apply Qle_bool_iff in Sg. specialize (Bd _ eq_refl). apply Prod in Bd. rewrite SA in Bd.
      rewrite (Qabs_pos (uc_coef c0)) in Bd by exact Sg.
      rewrite (Qabs_pos (cr_rhs r - _)) in Bd by lra. lra.
    + apply Qle_bool_false in Sg. assert (delta * uc_coef c0 <= 0) by nra. lra.
  - right; left. split; [reflexivity|]. rewrite Mv. destruct (Qle_bool (uc_coef c0) 0) eqn:Sg; cbn [negb] in Bd.
    + apply Qle_bool_iff in Sg. specialize (Bd _ eq_refl). apply Prod in Bd. rewrite SA in Bd.
      rewrite (Qabs_neg (uc_coef c0)) in Bd by exact Sg.
      rewrite (Qabs_neg (cr_rhs r - _)) in Bd by lra. lra.
    + apply Qle_bool_false in Sg. assert (0 <= delta * uc_coef c0) by nra. lra.
  - right; right. split; [reflexivity|]. rewrite Mv. specialize (Bd _ eq_refl). apply Prod in Bd. rewrite SA in Bd.
    assert (Z0 : Qabs (cr_rhs r - row_value (all_lhs m) x (cr_id r)) == 0).
    { destruct (Pr (cr_rhs r - row_value (all_lhs m) x (cr_id r))) as [P1|P1]; rewrite P1; lra. }
    rewrite Z0 in Bd. assert (delta == 0) by nra. nra.
Qed.

(** To show that a case meets [clear_terms]. *)
Lemma once_each cs u s d i : NoDup (map (fun c => (uc_con c, uc_unit c, uc_service c, uc_dt c)) cs) ->
  (length (filter (fun c => Nat.eqb (uc_con c) i && (String.eqb u (uc_unit c) && String.eqb s (uc_service c)
     && String.eqb d (uc_dt c))) cs) <= 1)%nat.
Proof.
  induction cs as [|a t IH]; intros ND; cbn [filter]; [cbn; lia|]. cbn [map] in ND. inversion ND as [|? ? N1 N2]; subst.
  destruct (Nat.eqb (uc_con a) i && _) eqn:E; [|now apply IH]. cbn [length].
  assert (Z : filter (fun c => Nat.eqb (uc_con c) i && (String.eqb u (uc_unit c) && String.eqb s (uc_service c)
     && String.eqb d (uc_dt c))) t = []); [|rewrite Z; cbn; lia].
  apply filter_none. intros b Hb. apply not_true_is_false. intros E2. apply andb_true_iff in E, E2.
  rewrite three_names, Nat.eqb_eq in E, E2. apply N1. apply in_map_iff. exists b. split; [|exact Hb].
  destruct E as [<- [-> [-> ->]]], E2 as [-> [-> [-> ->]]]. reflexivity.
Qed.
