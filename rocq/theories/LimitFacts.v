(** Lemmas for the limits on single units: C07, C08, C11, C27, C29. *)

From Coq Require Import QArith Qminmax String List Bool Arith Lia ZArith Permutation.
Import ListNotations.
From Verif Require Import PandasModel TablesModel VariableIdsModel MarketConstraintsModel
  UnitConstraintsModel RampModel FcasModel InterModel ElasticModel MarketModel SolverModel
  SpecLp PandasFacts SpecHistory SpecIds SpecDispatch SpecElastic StepFacts InvariantFacts OwnerFacts SolverFacts
  MeaningFacts.
Open Scope string_scope.
Open Scope list_scope.

(** ** A call in force *)

Lemma reached_owned c m : reached c m -> owned m /\ m_cfg m = c.
Proof.
  intros [m0 [ops [H1 [H2 ->]]]]. split; [now apply (run_owned c)|now apply run_cfg_new].
Qed.

Lemma in_force_reached c o m : in_force c o m -> reached c m.
Proof. intros [m0 [ops [H1 [H2 [_ ->]]]]]. exists m0, ops. auto. Qed.

Lemma stands_inv c m0 ops o : new_market c = Ok m0 -> sane ops m0 -> stands m0 ops o ->
  exists m' m1, owned m' /\ m_cfg m' = c /\ step o m' = (m1, None)
    /\ forall k, In k (touches o) -> same_group k m1 (run ops m0).
Proof.
  intros H1 H2 [pre [post [-> [H3 H4]]]].
  unfold sane in H2. apply along_app in H2. destruct H2 as [S1 [S2 S3]].
  destruct (step o (run pre m0)) as [m1 e] eqn:E. cbn in H3. subst e.
  exists (run pre m0), m1. split; [now apply (run_owned c)|]. split; [now apply run_cfg_new|].
  split; [exact E|]. intros k Hk. rewrite run_app, run_cons, E. cbn [fst]. now apply run_same_group, H4.
Qed.

Lemma in_force_inv c o m : in_force c o m ->
  owned m /\ m_cfg m = c /\
  exists m' m1, owned m' /\ m_cfg m' = c /\ step o m' = (m1, None)
    /\ forall k, In k (touches o) -> same_group k m1 m.
Proof.
  intros [m0 [ops [H1 [H2 [H3 ->]]]]].
  split; [now apply (run_owned c)|]. split; [now apply run_cfg_new|]. now apply (stands_inv c).
Qed.

Lemma andthen_ok r k m : andthen r k = (m, None) -> exists m', r = (m', None) /\ k m' = (m, None).
Proof. destruct r as [m' [e|]]; cbn; [discriminate|eauto]. Qed.

Lemma guard_ok o m k m' : guard o m k = (m', None) -> o = None /\ k m = (m', None).
Proof. destruct o; cbn; [discriminate|auto]. Qed.

(** ** A call in force that may have been made elastic *)

Lemma run_carried k o post m : In k (touches o) -> softens o post -> carried k m (run post m).
Proof.
  intros Hk Sf. apply (run_preserves (carried k m)); [|apply carried_refl].
  intros o' m1 Ho H1. eapply carried_trans; [exact H1|].
  destruct (in_dec string_dec k (touches o')) as [T|N]; [|now apply same_def_carried, step_same_def].
  destruct (Sf k o' Hk Ho T) as [v ->]. apply make_elastic_carried.
Qed.

Lemma held_at_inv c o m' m : held_at c o m' m ->
  owned m /\ m_cfg m = c /\ owned m' /\ m_cfg m' = c /\ exists m1, step o m' = (m1, None)
    /\ forall k, In k (touches o) -> carried k m1 m.
Proof.
  intros [m0 [pre [post [H1 [H2 [-> [H3 [H4 ->]]]]]]]]. split; [now apply (run_owned c)|]. split; [now apply run_cfg_new|].
  unfold sane in H2. apply along_app in H2. destruct H2 as [S1 [S2 S3]].
  split; [now apply (run_owned c)|]. split; [now apply run_cfg_new|].
  destruct (step o (run pre m0)) as [m1 e] eqn:E. cbn in H3. subst e. exists m1. split; [reflexivity|].
  intros k Hk. rewrite run_app, run_cons, E. cbn [fst]. exact (run_carried k o post m1 Hk H4).
Qed.
Lemma held_reached c o m : held c o m -> reached c m.
Proof. intros [m' [m0 [pre [post [H1 [H2 [_ [_ [_ ->]]]]]]]]]. exists m0, (pre ++ o :: post). auto. Qed.

(** Either the call made plain constraints that still stand, or the constraints may have
    been made elastic and nothing violates them. *)
Definition upheld_at (c : config) (o : op) (m' m : market) (x : assignment) : Prop :=
  (in_force_at c o m' m /\ cost_arg o = None) \/ (held_at c o m' m /\ unviolated o m x).
Definition upheld (c : config) (o : op) (m : market) (x : assignment) : Prop := exists m', upheld_at c o m' m x.
Lemma in_force_upheld c o m x : in_force c o m -> cost_arg o = None -> upheld c o m x.
Proof.
  intros [m0 [ops [H1 [H2 [[pre [post [-> [H3 H4]]]] ->]]]]] N. exists (run pre m0). left. split; [|exact N].
  exists m0, pre, post. auto 10.
Qed.
Lemma held_upheld c o m x : held c o m -> unviolated o m x -> upheld c o m x.
Proof. intros [m' H] U. exists m'. right. auto. Qed.

Lemma upheld_reached c o m x : upheld c o m x -> reached c m.
Proof.
  intros [m' [[[m0 [pre [post [H1 [H2 [_ [_ [_ ->]]]]]]]] _]|[H _]]].
  - exists m0, (pre ++ o :: post). auto.
  - apply (held_reached c o). exists m'. exact H.
Qed.

Definition kept (k : string) (m2 m : market) (x : assignment) : Prop :=
  (forall rows cs, unit_group_is k rows cs m2 -> unit_group_at k rows cs m x)
  /\ (forall rows cs, regional_group_is k rows cs m2 -> regional_group_at k rows cs m x)
  /\ (forall rows, dget k (m_rhs m2) = Some rows -> free_of k rows m2 -> dget k (m_rhs m) = Some rows /\ silent k rows m x).
Definition settled (o : op) (m2 m1 : market) : Prop := (forall k, carried k m2 m1) /\ (cost_arg o = None -> m2 = m1).
Lemma upheld_at_inv c o m' m x : upheld_at c o m' m x ->
  owned m /\ m_cfg m = c /\ owned m' /\ m_cfg m' = c /\ exists m1, step o m' = (m1, None)
    /\ forall k m2, In k (touches o) -> settled o m2 m1 -> kept k m2 m x.
Proof.
  intros [[I N]|[I U]].
  - destruct I as [m0 [pre [post [H1 [H2 [-> [H3 [H4 ->]]]]]]]]. split; [now apply (run_owned c)|]. split; [now apply run_cfg_new|].
    unfold sane in H2. apply along_app in H2. destruct H2 as [S1 [S2 S3]].
    split; [now apply (run_owned c)|]. split; [now apply run_cfg_new|].
    destruct (step o (run pre m0)) as [m1 e] eqn:E. cbn in H3. subst e. exists m1. split; [reflexivity|].
    intros k m2 Hk [_ Em]. rewrite (Em N). rewrite run_app, run_cons, E. cbn [fst].
    pose proof (run_same_group k post m1 (H4 k Hk)) as Sg.
    split; [|split]; [intros rows cs G; apply unit_is_at; exact (unit_group_is_same _ _ _ _ _ Sg G)
                     |intros rows cs G; apply regional_is_at; exact (regional_group_is_same _ _ _ _ _ Sg G)|].
    intros rows G Fr. destruct Sg as [E1 [_ [_ [_ E5]]]]. split; [congruence|]. apply free_silent. unfold free_of in *. now rewrite E5.
  - apply held_at_inv in I. destruct I as [O [C [O' [C' [m1 [St K]]]]]].
    split; [exact O|]. split; [exact C|]. split; [exact O'|]. split; [exact C'|]. exists m1. split; [exact St|].
    intros k m2 Hk [Ca _]. pose proof (carried_trans k m2 m1 m (Ca k) (K k Hk)) as Z.
    split; [|split]; [intros rows cs G; exact (unit_carried_at _ _ _ m2 m x Z G (U k Hk))|intros rows cs G; exact (regional_carried_at _ _ _ m2 m x Z G (U k Hk))|].
    intros rows G Fr. destruct Z as [E1 [_ [_ [_ E5]]]]. split; [congruence|]. apply tracked_silent; [|exact (U k Hk)]. apply E5.
    intros l r Hl Hr Eq. exfalso. exact (Fr l r Hl Hr Eq).
Qed.
Lemma upheld_inv c o m x : upheld c o m x ->
  owned m /\ m_cfg m = c /\ exists m' m1, owned m' /\ m_cfg m' = c /\ step o m' = (m1, None)
    /\ forall k m2, In k (touches o) -> settled o m2 m1 -> kept k m2 m x.
Proof. intros [m' I]. apply upheld_at_inv in I. destruct I as [O [C [O' [C' [m1 [St K]]]]]]. split; [exact O|]. split; [exact C|]. exists m', m1. auto. Qed.
Lemma settled_refl o m : settled o m m.
Proof. split; [intros k; apply carried_refl|reflexivity]. Qed.
Lemma maybe_settled o k m2 m1 : maybe_elastic k (cost_arg o) m2 = (m1, None) -> settled o m2 m1.
Proof.
  intros E. split.
  - intros k'. pose proof (maybe_elastic_carried k' k (cost_arg o) m2) as Z. now rewrite E in Z.
  - intros N. rewrite N in E. cbn in E. now inversion E.
Qed.

(** ** Tables made by create_constraints *)

Lemma filter_fst_none {A} n (l : list A) i : (i < n)%nat ->
  filter (fun p => Nat.eqb (fst p) i) (save_index n l) = [].
Proof.
  revert n. induction l as [|a t IH]; intros n H; [reflexivity|]. rewrite save_index_cons. cbn.
  destruct (Nat.eqb n i) eqn:E; [apply Nat.eqb_eq in E; lia|]. apply IH. lia.
Qed.

Lemma filter_save_index {A} n (l : list A) i a : In (i, a) (save_index n l) ->
  filter (fun p => Nat.eqb (fst p) i) (save_index n l) = [(i, a)].
Proof.
  revert n. induction l as [|b t IH]; intros n H; [destruct H|].
  rewrite save_index_cons in *. cbn. destruct H as [H|H].
  - inversion H; subst. rewrite Nat.eqb_refl. f_equal. apply filter_fst_none. lia.
  - pose proof (in_save_index _ _ _ H) as [L _]. cbn in L.
    destruct (Nat.eqb n i) eqn:E; [apply Nat.eqb_eq in E; lia|]. now apply IH.
Qed.

Lemma filter_map_comm {A B} (p : B -> bool) (g : A -> B) l :
  filter p (map g l) = map g (filter (fun a => p (g a)) l).
Proof. induction l as [|a t IH]; cbn; [auto|]. destruct (p (g a)); cbn; congruence. Qed.

Lemma create_row l n d u : In u l -> exists i,
  In (CRow i d (ul_rhs u) (KUnit (ul_unit u) (ul_service u) (ul_dt u))) (create_constraints_rhs l n d)
  /\ filter (fun c => Nat.eqb (uc_con c) i) (create_constraints_map l n)
     = [UC i (ul_unit u) (ul_service u) (ul_dt u) 1].
Proof.
  intros H. destruct (save_index_in n l u H) as [i Hi]. exists i. split.
  - unfold create_constraints_rhs. apply in_map_iff. exists (i, u). auto.
  - unfold create_constraints_map. rewrite filter_map_comm.
    rewrite (filter_ext _ (fun p : nat * ulimit => Nat.eqb (fst p) i)) by (intros [j b]; reflexivity).
    now rewrite (filter_save_index n l i u Hi).
Qed.

Lemma filter_none {A} (f : A -> bool) l : (forall a, In a l -> f a = false) -> filter f l = [].
Proof.
  induction l as [|a t IH]; intros H; [reflexivity|]. cbn. rewrite H by now left.
  apply IH. intros; apply H; now right.
Qed.

Lemma blocks_row bs n l d u : In (l, d) bs -> In u l -> exists i,
  In (CRow i d (ul_rhs u) (KUnit (ul_unit u) (ul_service u) (ul_dt u))) (blocks_rhs bs n)
  /\ filter (fun c => Nat.eqb (uc_con c) i) (blocks_map bs n)
     = [UC i (ul_unit u) (ul_service u) (ul_dt u) 1].
Proof.
  revert n. induction bs as [|[l0 d0] t IH]; intros n Hb Hu; [destruct Hb|].
  cbn [blocks_rhs blocks_map]. destruct Hb as [E|Hb].
  - inversion E; subst. destruct (create_row l n d u Hu) as [i [H1 H2]]. exists i. split.
    + apply in_or_app. now left.
    + rewrite filter_app, H2.
      assert (L : (i < n + length l)%nat).
      { apply (in_map cr_id) in H1. rewrite create_ids in H1. cbn in H1. apply in_seq in H1. lia. }
      rewrite filter_none; [reflexivity|].
      intros c Hc. apply (in_map uc_con) in Hc. rewrite blocks_map_ids in Hc. apply in_seq in Hc.
      apply Nat.eqb_neq. lia.
  - destruct (IH (n + length l0)%nat Hb Hu) as [i [H1 H2]]. exists i. split.
    + apply in_or_app. now right.
    + rewrite filter_app, H2.
      assert (L : (n + length l0 <= i)%nat).
      { apply (in_map cr_id) in H1. rewrite blocks_ids in H1. cbn in H1. apply in_seq in H1. lia. }
      rewrite filter_none; [reflexivity|].
      intros c Hc. apply (in_map uc_con) in Hc. rewrite create_map_ids in Hc. apply in_seq in Hc.
      apply Nat.eqb_neq. lia.
Qed.

(** A row whose map has a single entry. *)
Lemma single_row_holds m x k rows cs r u s d q : owned m -> In k unit_keys ->
  unit_group_at k rows cs m x -> solution m x -> In r rows ->
  filter (fun c => Nat.eqb (uc_con c) (cr_id r)) cs = [UC (cr_id r) u s d q] ->
  registered (m_cfg m) u d -> offers m u s d ->
  relation (cr_type r) (q * (load_sign m u s d * dispatch m x u s d)) (cr_rhs r).
Proof.
  intros O Hk G [p [A F]] Hr E R Of.
  destruct (offers_uv m u s d (proj1 O) R Of) as [v [Hv [V1 [V2 V3]]]].
  assert (Hc : In (UC (cr_id r) u s d q) cs).
  { assert (In (UC (cr_id r) u s d q) [UC (cr_id r) u s d q]) as Hc by now left. rewrite <- E in Hc. apply filter_In in Hc. tauto. }
  pose proof (unit_row_holds m p x k rows cs r _ v O Hk G A F Hr Hc eq_refl Hv
     (eq_sym V1) (eq_sym V2) (eq_sym V3)) as H.
  unfold unit_value in H. rewrite E in H. unfold relation in *.
  rewrite sumQ_cons, sumQ_nil in H. cbn [uc_coef uc_unit uc_service uc_dt] in H.
  rewrite (unit_term_dispatch m x u s d (proj1 O) R) in H.
  destruct H as [[H1 H2]|[[H1 H2]|[H1 H2]]]; [left|right; left|right; right]; (split; [exact H1|]).
  - rewrite Qplus_0_r in H2. exact H2.
  - rewrite Qplus_0_r in H2. exact H2.
  - rewrite Qplus_0_r in H2. exact H2.
Qed.

Lemma relation_le a b : relation "<=" a b <-> a <= b.
Proof. unfold relation. split; [intros [[_ H]|[[E _]|[E _]]]; [exact H|discriminate..]|auto]. Qed.
Lemma relation_ge a b : relation ">=" a b <-> b <= a.
Proof. unfold relation. split; [intros [[E _]|[[_ H]|[E _]]]; [discriminate|exact H|discriminate]|auto]. Qed.
Lemma relation_eq a b : relation "=" a b <-> a == b.
Proof. unfold relation. split; [intros [[E _]|[[E _]|[_ H]]]; [discriminate..|exact H]|auto]. Qed.

(** ** C07 *)

Lemma capacity_row l n bdu r : In r l -> exists i,
  In (CRow i "<=" (li_cap r) (KUnit (li_unit r) "energy" (li_dt r))) (capacity_rhs l n)
  /\ filter (fun c => Nat.eqb (uc_con c) i) (capacity_map l n bdu)
     = [UC i (li_unit r) "energy" (li_dt r)
          (if String.eqb (li_dt r) "load" && mem_str (li_unit r) bdu then -(1) else 1)].
Proof.
  intros H. destruct (create_row (capacity_limits l) n "<=" (ULimit (li_unit r) "energy" (li_dt r) (li_cap r)))
    as [i [H1 H2]].
  { unfold capacity_limits. apply in_map_iff. exists r. auto. }
  exists i. split; [exact H1|]. unfold capacity_map. rewrite filter_map_comm. cbn [uc_con].
  rewrite H2. reflexivity.
Qed.

Lemma double_sign q : -(1) * (-(1) * q) == q.
Proof. ring. Qed.

Lemma capacity_upheld c l v m x : upheld c (OpCapacity l v) m x -> solution m x ->
  forall r, In r l -> registered c (li_unit r) (li_dt r) ->
    offers m (li_unit r) "energy" (li_dt r) \/ 0 <= li_cap r ->
    dispatch m x (li_unit r) "energy" (li_dt r) <= li_cap r.
Proof.
  intros I S r Hr R Of. apply upheld_inv in I. destruct I as [O [C [m' [m1 [O' [C' [St K]]]]]]].
  cbn [step] in St. unfold set_capacity, need_bids in St. destruct (m_bids m') as [vs|]; [|discriminate].
  apply guard_ok in St. destruct St as [_ St].
  apply andthen_ok in St. destruct St as [m2 [St E]].
  destruct (new_unit_group_is _ _ _ _ _ O' (capacity_ok l (m_bdu m')) St) as [n [_ G]].
  apply (K _ m2) in G; [|cbn; auto|exact (maybe_settled (OpCapacity l v) _ _ _ E)].
  destruct (offers_dec m (li_unit r) "energy" (li_dt r)) as [Y|N].
  - destruct (capacity_row l n (m_bdu m') r Hr) as [i [H1 H2]].
    rewrite <- C in R.
    pose proof (single_row_holds m x "unit_bid_capacity" _ _ _ _ _ _ _ O ltac:(cbn; auto 20) G S H1 H2 R Y) as H.
    cbn [cr_type cr_rhs] in H. apply relation_le in H.
    replace (m_bdu m') with (m_bdu m) in H by (unfold m_bdu; now rewrite C, C').
    unfold load_sign in H. rewrite String.eqb_refl, andb_true_r, andb_comm in H.
    destruct (mem_str (li_unit r) (m_bdu m) && String.eqb (li_dt r) "load").
    + rewrite double_sign in H. exact H.
    + rewrite !Qmult_1_l in H. exact H.
  - rewrite no_offers by auto. tauto.
Qed.

Lemma capacity_respected c l m x : in_force c (OpCapacity l None) m -> solution m x ->
  forall r, In r l -> registered c (li_unit r) (li_dt r) ->
    offers m (li_unit r) "energy" (li_dt r) \/ 0 <= li_cap r ->
    dispatch m x (li_unit r) "energy" (li_dt r) <= li_cap r.
Proof. intros I. exact (capacity_upheld c l None m x (in_force_upheld _ _ _ _ I eq_refl)). Qed.

Lemma uigf_upheld c l v m x : upheld c (OpUigf l v) m x -> solution m x ->
  forall r, In r l -> registered c (ug_unit r) "generator" ->
    offers m (ug_unit r) "energy" "generator" \/ 0 <= ug_cap r ->
    dispatch m x (ug_unit r) "energy" "generator" <= ug_cap r.
Proof.
  intros I S r Hr R Of. apply upheld_inv in I. destruct I as [O [C [m' [m1 [O' [C' [St K]]]]]]].
  cbn [step] in St. unfold set_uigf, need_bids in St. destruct (m_bids m') as [vs|]; [|discriminate].
  apply guard_ok in St. destruct St as [_ St].
  apply andthen_ok in St. destruct St as [m2 [St E]].
  destruct (new_unit_group_is _ _ _ _ _ O' (uigf_ok l) St) as [n [_ G]].
  apply (K _ m2) in G; [|cbn; auto|exact (maybe_settled (OpUigf l v) _ _ _ E)].
  destruct (offers_dec m (ug_unit r) "energy" "generator") as [Y|N].
  - destruct (create_row (uigf_limits l) n "<=" (ULimit (ug_unit r) "energy" "generator" (ug_cap r)))
      as [i [H1 H2]]. { apply in_map_iff. exists r. auto. }
    rewrite <- C in R.
    pose proof (single_row_holds m x "uigf_capacity" _ _ _ _ _ _ _ O ltac:(cbn; auto 20) G S H1 H2 R Y) as H.
    cbn [cr_type cr_rhs ul_rhs ul_unit ul_service ul_dt] in H. apply relation_le in H.
    unfold load_sign in H. cbn [String.eqb] in H. rewrite andb_false_r in H.
    rewrite !Qmult_1_l in H. exact H.
  - rewrite no_offers by auto. tauto.
Qed.

Lemma uigf_respected c l m x : in_force c (OpUigf l None) m -> solution m x ->
  forall r, In r l -> registered c (ug_unit r) "generator" ->
    offers m (ug_unit r) "energy" "generator" \/ 0 <= ug_cap r ->
    dispatch m x (ug_unit r) "energy" "generator" <= ug_cap r.
Proof. intros I. exact (uigf_upheld c l None m x (in_force_upheld _ _ _ _ I eq_refl)). Qed.

(** ** C11 *)

Lemma max_avail_upheld c l v m x : upheld c (OpMaxAvail l v) m x -> solution m x ->
  forall r, In r l -> registered c (ma_unit r) (ma_dt r) ->
    dispatch m x (ma_unit r) (ma_service r) (ma_dt r) <= ma_max r.
Proof.
  intros I S r Hr R. apply upheld_inv in I. destruct I as [O [C [m' [m1 [O' [C' [St K]]]]]]].
  cbn [step] in St. unfold set_max_avail in St.
  apply guard_ok in St. destruct St as [Ck St]. unfold check_max_avail in Ck.
  pose proof (all_rows_in (fun r => non_neg (ma_max r)) l _ r Ck ltac:(cbn; auto 10) Hr) as Pos.
  pose proof (all_rows_in (fun r => mem_str (ma_service r) allowed_fcas) l _ r Ck ltac:(cbn; auto 10) Hr) as Sv.
  apply Qle_bool_iff in Pos. cbn beta in Sv.
  apply andthen_ok in St. destruct St as [m2 [St E]].
  destruct (new_unit_group_is _ _ _ _ _ O' (max_avail_ok l) St) as [n [_ G]].
  apply (K _ m2) in G; [|cbn; auto|exact (maybe_settled (OpMaxAvail l v) _ _ _ E)].
  destruct (offers_dec m (ma_unit r) (ma_service r) (ma_dt r)) as [Y|N].
  - destruct (create_row (max_avail_limits l) n "<=" (ULimit (ma_unit r) (ma_service r) (ma_dt r) (ma_max r)))
      as [i [H1 H2]]. { apply in_map_iff. exists r. auto. }
    rewrite <- C in R.
    pose proof (single_row_holds m x "fcas_max_availability" _ _ _ _ _ _ _ O ltac:(cbn; auto 20) G S H1 H2 R Y) as H.
    cbn [cr_type cr_rhs ul_rhs ul_unit ul_service ul_dt] in H. apply relation_le in H.
    unfold load_sign in H.
    assert (NE : String.eqb (ma_service r) "energy" = false).
    { apply String.eqb_neq. intros Ee. rewrite Ee in Sv. discriminate. }
    rewrite NE, andb_false_r in H. cbn [andb] in H. rewrite !Qmult_1_l in H. exact H.
  - rewrite no_offers by auto. exact Pos.
Qed.

Lemma max_avail_respected c l m x : in_force c (OpMaxAvail l None) m -> solution m x ->
  forall r, In r l -> registered c (ma_unit r) (ma_dt r) ->
    dispatch m x (ma_unit r) (ma_service r) (ma_dt r) <= ma_max r.
Proof. intros I. exact (max_avail_upheld c l None m x (in_force_upheld _ _ _ _ I eq_refl)). Qed.
