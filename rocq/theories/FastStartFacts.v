(** Lemmas for fast start units: C27, C29. *)

From Coq Require Import QArith Qminmax Lqa String List Bool Arith Lia ZArith Permutation.
Import ListNotations.
From Verif Require Import PandasModel TablesModel VariableIdsModel MarketConstraintsModel
  UnitConstraintsModel RampModel FcasModel InterModel ElasticModel MarketModel SolverModel
  SpecLp PandasFacts SpecHistory SpecIds SpecDispatch SpecRamp SpecFastStart SpecElastic StepFacts InvariantFacts OwnerFacts SolverFacts
  MeaningFacts LimitFacts CompositeFacts RampFacts TableFacts BidFacts.
Open Scope string_scope.
Open Scope list_scope.

(** ** C27 *)

Lemma fast_start_group c l v m x f d : upheld c (OpFastStart l v) m x -> In f l -> registered c (fs_unit f) d ->
  (0 <= fs_end_mode f <= 4)%Z ->
  owned m /\ m_cfg m = c /\ In (d, f) (fs_with_dt (c_ui c) l)
  /\ exists n, unit_group_at "fast_start" (fast_start_rhs (fs_with_dt (c_ui c) l) n)
                (fast_start_map (fs_with_dt (c_ui c) l) n) m x.
Proof.
  intros I Hf [u [Hu [Eu Ed]]] Mo. apply upheld_inv in I. destruct I as [O [C [m' [m1 [O' [C' [St K]]]]]]].
  split; [exact O|]. split; [exact C|].
  assert (Hp : In (d, f) (fs_with_dt (c_ui c) l)).
  { unfold fs_with_dt. apply in_map_iff. exists (u, f). split; [cbn; congruence|].
    apply in_merge. split; [exact Hu|]. split; [exact Hf|]. apply String.eqb_eq. exact Eu. }
  split; [exact Hp|].
  cbn [step] in St. unfold set_fast_start in St. apply guard_ok in St. destruct St as [_ St].
  rewrite C' in St. cbv zeta in St. set (p := fs_with_dt (c_ui c) l) in *.
  assert (Ne : fast_start_rhs p 0 <> []).
  { assert (X : exists ls dr ul, In (ls, dr) (fast_start_blocks p) /\ In ul ls).
    { unfold fast_start_blocks.
      assert (Cs : (fs_end_mode f = 0 \/ fs_end_mode f = 1 \/ fs_end_mode f = 2 \/ fs_end_mode f = 3 \/ fs_end_mode f = 4)%Z) by lia.
      destruct Cs as [E|[E|[E|[E|E]]]].
      - exists (fs_mode_one p), "<=". eexists. split; [cbn; auto|]. apply in_map_iff. exists (d, f). split; [reflexivity|].
        apply filter_In. split; [exact Hp|]. cbn. now rewrite E.
      - exists (fs_mode_one p), "<=". eexists. split; [cbn; auto|]. apply in_map_iff. exists (d, f). split; [reflexivity|].
        apply filter_In. split; [exact Hp|]. cbn. now rewrite E.
      - exists (fs_mode_two p), "<=". eexists. split; [cbn; auto|]. apply in_map_iff. exists (d, f). split; [reflexivity|].
        apply filter_In. split; [exact Hp|]. cbn. now rewrite E.
      - exists (fs_mode_three p), ">=". eexists. split; [cbn; auto|]. apply in_map_iff. exists (d, f). split; [reflexivity|].
        apply filter_In. split; [exact Hp|]. cbn. now rewrite E.
      - exists (fs_mode_four p), ">=". eexists. split; [cbn; auto 10|]. apply in_map_iff. exists (d, f). split; [reflexivity|].
        apply filter_In. split; [exact Hp|]. cbn. now rewrite E. }
    destruct X as [ls [dr [ul [Hb Hl]]]]. destruct (blocks_row _ 0 _ _ _ Hb Hl) as [i [Hi _]].
    unfold fast_start_rhs. intros E. rewrite E in Hi. destruct Hi. }
  destruct (fast_start_rhs p 0) eqn:E0; [congruence|].
  apply andthen_ok in St. destruct St as [m2 [St E]].
  destruct (new_unit_group_is _ _ _ _ _ O' (fast_start_ok p) St) as [n [_ G]].
  exists n. apply (K _ m2) in G; [exact G|cbn; auto|exact (maybe_settled (OpFastStart l v) _ _ _ E)].
Qed.

Lemma fast_start_row c l v m x f d ls dr lim : upheld c (OpFastStart l v) m x -> solution m x ->
  In f l -> registered c (fs_unit f) d -> (two_sided c (fs_unit f) -> d = "generator") ->
  offers m (fs_unit f) "energy" d -> (0 <= fs_end_mode f <= 4)%Z ->
  In (ls, dr) (fast_start_blocks (fs_with_dt (c_ui c) l)) -> In (ULimit (fs_unit f) "energy" d lim) ls ->
  relation dr (dispatch m x (fs_unit f) "energy" d) lim.
Proof.
  intros I Sl Hf R T Of Mo Hb Hl. destruct (fast_start_group c l _ m x f d I Hf R Mo) as [O [C [Hp [n G]]]].
  destruct (blocks_row _ n _ _ _ Hb Hl) as [i [H1 H2]]. rewrite <- C in R.
  pose proof (single_row_holds m x "fast_start" _ _ _ _ _ _ _ O ltac:(cbn; auto 20) G Sl H1 H2 R Of) as H.
  cbn [cr_type cr_rhs ul_rhs ul_unit ul_service ul_dt] in H.
  assert (LS : load_sign m (fs_unit f) "energy" d = 1).
  { unfold load_sign. destruct (mem_str (fs_unit f) (m_bdu m)) eqn:B; [|reflexivity].
    rewrite T; [reflexivity|]. apply (bidirectional_iff c); [rewrite <- C; apply O|].
    apply mem_str_in. unfold m_bdu in B. now rewrite C in B. }
  rewrite LS in H. unfold relation in *. rewrite !Qmult_1_l in H. exact H.
Qed.

Lemma fast_start_upheld c l v m x : upheld c (OpFastStart l v) m x -> solution m x ->
  forall f d, In f l -> registered c (fs_unit f) d -> (two_sided c (fs_unit f) -> d = "generator") ->
    offers m (fs_unit f) "energy" d ->
    (fs_end_mode f = 2%Z -> 0 < fs_mode_two_length f) -> (fs_end_mode f = 4%Z -> 0 < fs_mode_four_length f) ->
    follows_profile f (dispatch m x (fs_unit f) "energy" d).
Proof.
  intros I Sl f d Hf R T Of L2 L4. set (e := dispatch m x (fs_unit f) "energy" d).
  assert (Row : forall ls dr lim, (0 <= fs_end_mode f <= 4)%Z ->
    In (ls, dr) (fast_start_blocks (fs_with_dt (c_ui c) l)) -> In (ULimit (fs_unit f) "energy" d lim) ls ->
    relation dr e lim).
  { intros ls dr lim Mo Hb Hl. exact (fast_start_row c l _ m x f d ls dr lim I Sl Hf R T Of Mo Hb Hl). }
  assert (Hp : (0 <= fs_end_mode f <= 4)%Z -> In (d, f) (fs_with_dt (c_ui c) l)).
  { intros Mo. apply (fast_start_group c l _ m x f d I Hf R Mo). }
  assert (E0 : 0 <= e) by (apply (dispatch_nonneg c); [exact (upheld_reached c _ m x I)|exact Sl]).
  set (p := fs_with_dt (c_ui c) l) in *. unfold follows_profile, start_level. split.
  - intros [M|[M|M]]; rewrite M; cbn [Z.eqb Pos.eqb]; rewrite M in Row, Hp; specialize (Hp ltac:(lia)).
    + assert (H : relation "<=" e 0).
      { apply (Row (fs_mode_one p)); [lia|cbn; auto|]. apply in_map_iff. exists (d, f). split; [reflexivity|].
        apply filter_In. split; [exact Hp|]. cbn. now rewrite M. }
      apply relation_le in H. lra.
    + assert (H : relation "<=" e 0).
      { apply (Row (fs_mode_one p)); [lia|cbn; auto|]. apply in_map_iff. exists (d, f). split; [reflexivity|].
        apply filter_In. split; [exact Hp|]. cbn. now rewrite M. }
      apply relation_le in H. lra.
    + set (q := fs_time_in_end_mode f / fs_mode_two_length f * fs_min_loading f).
      assert (Hl : In (ULimit (fs_unit f) "energy" d q) (fs_mode_two p)).
      { apply in_map_iff. exists (d, f). split; [reflexivity|]. apply filter_In. split; [exact Hp|]. cbn. now rewrite M. }
      assert (H1 : relation "<=" e q) by (apply (Row (fs_mode_two p)); [lia|cbn; auto|exact Hl]).
      assert (H2 : relation ">=" e q) by (apply (Row (fs_mode_two p)); [lia|cbn; auto|exact Hl]).
      apply relation_le in H1. apply relation_ge in H2. specialize (L2 M).
      assert (Eq : e == q) by lra. rewrite Eq. unfold q. field. lra.
  - intros [M|M]; rewrite M; cbn [Z.eqb Pos.eqb]; rewrite M in Row, Hp; specialize (Hp ltac:(lia)).
    + assert (H : relation ">=" e (fs_min_loading f)).
      { apply (Row (fs_mode_three p)); [lia|cbn; auto|]. apply in_map_iff. exists (d, f). split; [reflexivity|].
        apply filter_In. split; [exact Hp|]. cbn. now rewrite M. }
      apply relation_ge in H. exact H.
    + set (q := fs_min_loading f - fs_time_in_end_mode f / fs_mode_four_length f * fs_min_loading f).
      assert (H : relation ">=" e q).
      { apply (Row (fs_mode_four p)); [lia|cbn; auto 10|]. apply in_map_iff. exists (d, f). split; [reflexivity|].
        apply filter_In. split; [exact Hp|]. cbn. now rewrite M. }
      apply relation_ge in H. specialize (L4 M).
      eapply Qle_trans; [|exact H]. apply Qle_lteq. right. unfold q. field. lra.
Qed.

Lemma frac_bounds t len : 0 < len -> 0 <= t -> t <= len -> 0 <= t / len /\ t / len <= 1.
Proof. intros L T1 T2. split; [apply Qle_shift_div_l; lra|apply Qle_shift_div_r; lra]. Qed.

Lemma start_level_range mode len2 len4 min t : 0 <= min -> 0 <= t ->
  (mode = 2%Z -> 0 < len2 /\ t <= len2) -> (mode = 4%Z -> 0 < len4 /\ t <= len4) ->
  0 <= start_level mode len2 len4 min t /\ start_level mode len2 len4 min t <= min.
Proof.
  intros Mn T L2 L4. unfold start_level. destruct (Z.eqb_spec mode 2) as [E|_].
  - destruct (L2 E) as [P Le]. destruct (frac_bounds t len2 P T Le).
    setoid_replace (min * t / len2) with (min * (t / len2)) by (field; lra). split; nra.
  - destruct (Z.eqb_spec mode 3); [lra|]. destruct (Z.eqb_spec mode 4) as [E|_]; [|lra].
    destruct (L4 E) as [P Le]. destruct (frac_bounds t len4 P T Le). split; nra.
Qed.

Lemma start_level_joins len2 len4 min : 0 < len2 -> 0 < len4 ->
  (forall t, start_level 1 len2 len4 min t == start_level 2 len2 len4 min 0)
  /\ (forall t, start_level 2 len2 len4 min len2 == start_level 3 len2 len4 min t)
  /\ (forall t, start_level 3 len2 len4 min t == start_level 4 len2 len4 min 0)
  /\ start_level 4 len2 len4 min len4 == 0.
Proof.
  intros P2 P4. unfold start_level. cbn [Z.eqb Pos.eqb].
  repeat split; intros; field; lra.
Qed.

(** The right-hand sides of the constraints are the levels. *)
Lemma fast_start_range c l m : in_force c (OpFastStart l None) m ->
  forall rows, dget "fast_start" (m_rhs m) = Some rows ->
  forall f d, In f l -> registered c (fs_unit f) d ->
    (fs_end_mode f = 2%Z -> 0 < fs_mode_two_length f /\ fs_time_in_end_mode f <= fs_mode_two_length f) ->
    (fs_end_mode f = 4%Z -> 0 < fs_mode_four_length f /\ fs_time_in_end_mode f <= fs_mode_four_length f) ->
    (0 <= fs_end_mode f <= 4)%Z ->
    forall r, In r rows -> cr_key r = KUnit (fs_unit f) "energy" d -> 0 <= cr_rhs r /\ cr_rhs r <= fs_min_loading f.
Proof.
  intros I rows Hrows f d Hf R L2 L4 Mo r Hr Ek.
  destruct (fast_start_group c l None m (fun _ => 0) f d (in_force_upheld _ _ _ _ I eq_refl) Hf R Mo) as [O [C [Hp [n [G _]]]]].
  rewrite G in Hrows. inversion Hrows; subst rows. clear Hrows.
  assert (CkF : check_fs m l = None).
  { apply in_force_inv in I. destruct I as [_ [_ [m' [m1 [O' [C' [St K]]]]]]].
    cbn [step] in St. unfold set_fast_start in St. apply guard_ok in St. destruct St as [Ck _].
    unfold check_fs, is_unit in *. now rewrite C, <- C'. }
  set (p := fs_with_dt (c_ui c) l) in *.
  assert (X : exists f', In (d, f') p /\ fs_unit f' = fs_unit f /\ (cr_rhs r = 0 \/
     (fs_end_mode f' = 2%Z /\ cr_rhs r = fs_time_in_end_mode f' / fs_mode_two_length f' * fs_min_loading f') \/
     (cr_rhs r = fs_min_loading f') \/
     (fs_end_mode f' = 4%Z /\ cr_rhs r = fs_min_loading f' - fs_time_in_end_mode f' / fs_mode_four_length f' * fs_min_loading f'))).
  { assert (Y : forall ls dr k, In r (create_constraints_rhs ls k dr) -> exists u, In u ls /\ cr_rhs r = ul_rhs u
       /\ cr_key r = KUnit (ul_unit u) (ul_service u) (ul_dt u)).
    { intros ls dr k H. unfold create_constraints_rhs in H. apply in_map_iff in H. destruct H as [[i u] [<- H]].
      apply in_save_index in H. exists u. split; [apply H|]. split; reflexivity. }
    assert (Z : forall (q : string * fs_row -> Q) b u, In u (map (fun z => ULimit (fs_unit (snd z)) "energy" (fst z) (q z)) (filter b p)) ->
       cr_rhs r = ul_rhs u -> cr_key r = KUnit (ul_unit u) (ul_service u) (ul_dt u) ->
       exists f', In (d, f') p /\ b (d, f') = true /\ fs_unit f' = fs_unit f /\ cr_rhs r = q (d, f')).
    { intros q b u Hu E1 E2. apply in_map_iff in Hu. destruct Hu as [[d' f'] [<- Hu]]. apply filter_In in Hu.
      cbn in E1, E2. rewrite E2 in Ek. inversion Ek. subst d'. exists f'. intuition. }
    unfold fast_start_rhs, fast_start_blocks in Hr. cbn [blocks_rhs] in Hr.
    repeat (apply in_app_or in Hr; destruct Hr as [Hr|Hr]); [..|destruct Hr];
      destruct (Y _ _ _ Hr) as [u [Hu [E1 E2]]];
      destruct (Z _ _ u Hu E1 E2) as [f' [A [B [U V]]]]; exists f'; (split; [exact A|]); (split; [exact U|]);
      cbn in B, V; rewrite ?Z.eqb_eq in B; tauto. }
  destruct X as [f' [Hf' [Eu V]]].
  assert (f' = f).
  { unfold p, fs_with_dt in Hf'. apply in_map_iff in Hf'. destruct Hf' as [[u f''] [E Hf'']]. cbn in E. inversion E; subst f''.
    apply in_merge in Hf''. destruct Hf'' as [_ [Hf'' _]]. unfold check_fs in CkF.
    pose proof (no_repeats_in (fun a b => String.eqb (fs_unit a) (fs_unit b)) l _ CkF ltac:(cbn; auto 10)) as FP.
    assert (F : filter (fun a => String.eqb (fs_unit a) (fs_unit f)) l = [f]).
    { apply (unique_filter _ (fun a b => String.eqb (fs_unit a) (fs_unit b))); auto.
      - intros; eapply eqb_both; eauto.
      - apply String.eqb_refl. }
    assert (Y : In f' [f]) by (rewrite <- F; apply filter_In; rewrite String.eqb_eq; auto).
    destruct Y as [<-|[]]. reflexivity. }
  subst f'. unfold check_fs in CkF.
  pose proof (all_rows_in (fun r => non_neg (fs_min_loading r)) l _ f CkF ltac:(cbn; auto 10) Hf) as Mn.
  pose proof (all_rows_in (fun r => non_neg (fs_time_in_end_mode r)) l _ f CkF ltac:(cbn; auto 10) Hf) as Tn.
  cbn beta in Mn, Tn. unfold non_neg in Mn, Tn. apply Qle_bool_iff in Mn, Tn.
  destruct V as [V|[[M V]|[V|[M V]]]]; rewrite V.
  - lra.
  - destruct (L2 M) as [P Le]. destruct (frac_bounds _ _ P Tn Le). split; nra.
  - lra.
  - destruct (L4 M) as [P Le]. destruct (frac_bounds _ _ P Tn Le). split; nra.
Qed.

(** ** C29 *)

Lemma mode_012_iff z : mode_012 z = true <-> (z = 0 \/ z = 1 \/ z = 2)%Z.
Proof. unfold mode_012. rewrite !orb_true_iff, !Z.eqb_eq. tauto. Qed.

Lemma starting_iff p u : mem_str u (units_starting_012 p) = true <-> starts_low p u.
Proof.
  rewrite mem_str_in. unfold units_starting_012. rewrite in_map_iff. split.
  - intros [f [E H]]. apply filter_In in H. rewrite mode_012_iff in H. exists f. tauto.
  - intros [f [H1 [H2 H3]]]. exists f. split; [exact H2|]. apply filter_In. rewrite mode_012_iff. auto.
Qed.
Lemma ending_iff p u : mem_str u (units_ending_012 p) = true <-> ends_low p u.
Proof.
  rewrite mem_str_in. unfold units_ending_012. rewrite in_map_iff. split.
  - intros [f [E H]]. apply filter_In in H. rewrite mode_012_iff in H. exists f. tauto.
  - intros [f [H1 [H2 H3]]]. exists f. split; [exact H2|]. apply filter_In. rewrite mode_012_iff. auto.
Qed.

Lemma in_left_mode_two p f t : In (f, t) (left_mode_two p) <-> In f p /\ fr_since_mode_two f = Some t.
Proof.
  unfold left_mode_two. rewrite in_flat_map. split.
  - intros [g [H1 H2]]. destruct (fr_since_mode_two g) eqn:E; [|destruct H2].
    destruct H2 as [H2|[]]. inversion H2; subst. auto.
  - intros [H1 H2]. exists f. split; [exact H1|]. rewrite H2. now left.
Qed.

Lemma adjust_34_units l p h q : In q (adjust_34 l p h) -> exists r, In r l /\ rr_unit r = rr_unit q.
Proof.
  unfold adjust_34. destruct p as [|f0 pt]; [eauto|]. rewrite in_app_iff. intros [H|H].
  - apply in_map_iff in H. destruct H as [[r [f t]] [<- H]]. apply in_merge in H. exists r. cbn. tauto.
  - apply filter_In in H. exists q. tauto.
Qed.

Lemma adjust_34_left l p h r f t : In r l -> In f p -> fr_since_mode_two f = Some t -> fr_unit f = rr_unit r ->
  In (Ramp (rr_unit r) (rr_dt r) (rr_init r)
       ((t * (rr_up r / 60) + fr_min_loading f - rr_init r) * (60 / h)) (rr_down r)) (adjust_34 l p h).
Proof.
  intros Hr Hf Ht E. unfold adjust_34. destruct p as [|f0 pt] eqn:Ep; [destruct Hf|]. rewrite <- Ep in *.
  apply in_or_app. left. apply in_map_iff. exists (r, (f, t)). split; [reflexivity|].
  apply in_merge. split; [exact Hr|]. split; [now apply in_left_mode_two|]. apply String.eqb_eq. cbn. congruence.
Qed.

Lemma adjust_34_other l p h r : In r l -> (forall min t, ~ left_two p (rr_unit r) min t) -> In r (adjust_34 l p h).
Proof.
  intros Hr N. unfold adjust_34. destruct p as [|f0 pt] eqn:Ep; [exact Hr|]. rewrite <- Ep in *.
  apply in_or_app. right. apply filter_In. split; [exact Hr|]. apply negb_true_iff.
  match goal with |- mem_str ?a ?b = false => destruct (mem_str a b) eqn:E; [|reflexivity] end.
  apply mem_str_in in E. apply in_map_iff in E. destruct E as [q [Eq H]].
  apply in_map_iff in H. destruct H as [[r' [f t]] [<- H]]. apply in_merge in H. destruct H as [_ [H2 H3]].
  apply in_left_mode_two in H2. apply String.eqb_eq in H3. cbn in Eq, H3.
  exfalso. apply (N (fr_min_loading f) t). exists f. repeat split; try tauto. congruence.
Qed.

Lemma ramp_free c t s p rt v m x l u : upheld c (OpRamp t s p rt v) m x ->
  ramp_step t (m_bdu m) s p rt (c_interval c) = Ok l -> (forall q, In q l -> rr_unit q <> u) ->
  not_about m "ramp_up" u /\ not_about m "ramp_down" u.
Proof.
  intros I E N. destruct (ramp_inv _ _ _ _ _ _ _ _ I) as [O [C [m' [l' [C' [_ [_ [_ [_ [_ [RS [[n1 G1] [[n2 G2] _]]]]]]]]]]]]].
  rewrite E in RS. inversion RS; subst l'. clear RS.
  split; intros cs c0 Hcs Hc.
  - destruct G1 as [_ [G1 _]]. rewrite G1 in Hcs. inversion Hcs; subst cs.
    unfold ramp_up_map, create_constraints_map in Hc. apply in_map_iff in Hc. destruct Hc as [[i z] [<- Hc]].
    apply in_save_index in Hc. destruct Hc as [_ Hc]. cbn [snd] in Hc. apply in_map_iff in Hc. destruct Hc as [q [Eq Hq]]. subst z. cbn. now apply N.
  - destruct G2 as [_ [G2 _]]. rewrite G2 in Hcs. inversion Hcs; subst cs.
    unfold ramp_down_map, create_constraints_map in Hc. apply in_map_iff in Hc. destruct Hc as [[i z] [<- Hc]].
    apply in_save_index in Hc. destruct Hc as [_ Hc]. cbn [snd] in Hc. apply in_map_iff in Hc. destruct Hc as [q [Eq Hq]]. subst z. cbn. now apply N.
Qed.

Lemma kept_row c t s p rt v m x l r : upheld c (OpRamp t s p rt v) m x -> solution m x ->
  ramp_step t (m_bdu m) s p rt (c_interval c) = Ok l ->
  (forall q, In q (scada_step t (m_bdu m) s) -> rr_unit q = rr_unit r -> In q l) ->
  rt_has_up t = false -> rt_has_down t = false -> In r (map ri_row (rt_rows t)) ->
  registered c (rr_unit r) (rr_dt r) -> ~ two_sided c (rr_unit r) -> offers m (rr_unit r) "energy" (rr_dt r) ->
  usual_limits c m x s r.
Proof.
  intros I Sl RS Kp U D Hr R N2 Of. apply in_map_iff in Hr. destruct Hr as [ri [<- Hr]].
  destruct (ramp_inv _ _ _ _ _ _ _ _ I) as [O [C [m' [_ [C' [_ [_ [_ [_ [Ck _]]]]]]]]]].
  destruct (scada_step_row m' t (m_bdu m) s ri Ck U D Hr) as [q [Hq [E1 [E2 [E3 [E4 E5]]]]]].
  { eapply bdu_false; eauto. apply O. }
  specialize (Kp q Hq E1). rewrite <- E1, <- E2 in R, Of. rewrite <- E1 in N2.
  pose proof (ramp_rows_hold c t s p _ _ m x _ q I Sl RS Kp N2 R Of) as H. rewrite E1, E2, E3 in H.
  exists (rr_up q), (rr_down q). unfold Qdiv in *. rewrite !Qmult_assoc in H. tauto.
Qed.

Lemma first_run_upheld c t s p v m x :
  upheld c (OpRamp t s (Some p) "fast_start_first_run" v) m x -> solution m x ->
  rt_has_up t = false -> rt_has_down t = false ->
  (forall u, starts_low p u -> not_about m "ramp_up" u /\ not_about m "ramp_down" u)
  /\ (forall r, In r (map ri_row (rt_rows t)) -> ~ starts_low p (rr_unit r) ->
      registered c (rr_unit r) (rr_dt r) -> ~ two_sided c (rr_unit r) -> offers m (rr_unit r) "energy" (rr_dt r) ->
      usual_limits c m x s r).
Proof.
  intros I Sl U D.
  assert (RS : ramp_step t (m_bdu m) s (Some p) "fast_start_first_run" (c_interval c)
     = Ok (remove_starting_012 (scada_step t (m_bdu m) s) p)) by reflexivity.
  split.
  - intros u Lu. apply (ramp_free _ _ _ _ _ _ _ _ _ u I RS). intros q Hq E. apply filter_In in Hq.
    destruct Hq as [_ Hq]. apply negb_true_iff in Hq. apply starting_iff in Lu. congruence.
  - intros r Hr Nl R N2 Of. apply (kept_row _ _ _ _ _ _ _ _ _ _ I Sl RS); auto.
    intros q Hq E. apply filter_In. split; [exact Hq|]. apply negb_true_iff. rewrite E.
    destruct (mem_str (rr_unit r) (units_starting_012 p)) eqn:X; [|reflexivity]. apply starting_iff in X. tauto.
Qed.

Lemma second_run_upheld c t s p v m x :
  upheld c (OpRamp t s (Some p) "fast_start_second_run" v) m x -> solution m x ->
  rt_has_up t = false -> rt_has_down t = false ->
  (forall u, ends_low p u -> not_about m "ramp_up" u /\ not_about m "ramp_down" u)
  /\ (forall r, In r (map ri_row (rt_rows t)) -> ~ ends_low p (rr_unit r) ->
      registered c (rr_unit r) (rr_dt r) -> ~ two_sided c (rr_unit r) -> offers m (rr_unit r) "energy" (rr_dt r) ->
      ((forall min since, ~ left_two p (rr_unit r) min since) -> usual_limits c m x s r)
      /\ (forall min since, left_two p (rr_unit r) min since -> ~ c_interval c == 0 ->
          exists up down,
            smaller_rate (rr_up r) (scada_up s (rr_unit r)) up
            /\ smaller_rate (rr_down r) (scada_down s (rr_unit r)) down
            /\ rr_init r - down * c_interval c / 60 <= dispatch m x (rr_unit r) "energy" (rr_dt r)
            /\ dispatch m x (rr_unit r) "energy" (rr_dt r) <= min + up * since / 60
            /\ exists rows k, dget "ramp_up" (m_rhs m) = Some rows /\ In k rows
                 /\ cr_key k = KUnit (rr_unit r) "energy" (rr_dt r) /\ cr_type k = "<="
                 /\ cr_rhs k == min + up * since / 60)).
Proof.
  intros I Sl U D.
  assert (RS : ramp_step t (m_bdu m) s (Some p) "fast_start_second_run" (c_interval c)
     = Ok (adjust_34 (remove_ending_012 (scada_step t (m_bdu m) s) p) p (c_interval c))) by reflexivity.
  assert (Kp : forall q u, In q (scada_step t (m_bdu m) s) -> rr_unit q = u -> ~ ends_low p u ->
     In q (remove_ending_012 (scada_step t (m_bdu m) s) p)).
  { intros q u Hq E Nl. apply filter_In. split; [exact Hq|]. apply negb_true_iff. rewrite E.
    destruct (mem_str u (units_ending_012 p)) eqn:X; [|reflexivity]. apply ending_iff in X. tauto. }
  split.
  - intros u Lu. apply (ramp_free _ _ _ _ _ _ _ _ _ u I RS). intros q Hq E.
    apply adjust_34_units in Hq. destruct Hq as [r [Hr Er]]. apply filter_In in Hr.
    destruct Hr as [_ Hr]. apply negb_true_iff in Hr. apply ending_iff in Lu. congruence.
  - intros r Hr Nl R N2 Of. split.
    + intros Nt. apply (kept_row _ _ _ _ _ _ _ _ _ _ I Sl RS); auto.
      intros q Hq E. apply adjust_34_other; [eapply Kp; eauto|]. now rewrite E.
    + intros mn since [f [Hf [Ef [Em Es]]]] Nh. subst mn.
      apply in_map_iff in Hr. destruct Hr as [ri [<- Hr]].
      destruct (ramp_inv _ _ _ _ _ _ _ _ I) as [O [C [m' [l' [C' [_ [_ [_ [_ [Ck [RS' [[n1 G1] _]]]]]]]]]]]].
      destruct (scada_step_row m' t (m_bdu m) s ri Ck U D Hr) as [q [Hq [E1 [E2 [E3 [E4 E5]]]]]].
      { eapply bdu_false; eauto. apply O. }
      pose proof (Kp q _ Hq E1 Nl) as Hq'.
      pose proof (adjust_34_left _ p (c_interval c) q f since Hq' Hf Es ltac:(congruence)) as Ha.
      set (a := Ramp (rr_unit q) (rr_dt q) (rr_init q)
            ((since * (rr_up q / 60) + fr_min_loading f - rr_init q) * (60 / c_interval c)) (rr_down q)) in *.
      rewrite <- E1, <- E2 in R, Of. rewrite <- E1 in N2.
      pose proof (ramp_rows_hold c t s (Some p) _ _ m x _ a I Sl RS Ha N2 R Of) as H.
      subst a. cbn [rr_unit rr_dt rr_init rr_up rr_down] in H. rewrite E1, E2, E3 in H.
      assert (V : rr_init (ri_row ri) + (since * (rr_up q / 60) + fr_min_loading f - rr_init (ri_row ri)) * (60 / c_interval c)
          * (c_interval c / 60) == fr_min_loading f + rr_up q * since / 60) by (field; exact Nh).
      rewrite V in H.
      exists (rr_up q), (rr_down q).
      split; [exact E4|]. split; [exact E5|]. split; [unfold Qdiv in *; rewrite !Qmult_assoc in H; tauto|].
      split; [tauto|].
      rewrite RS in RS'. inversion RS' as [RS'']. rewrite <- RS'' in *. clear RS' RS''.
      destruct G1 as [G1 _]. 
      destruct (create_row (ramp_up_limits (adjust_34 (remove_ending_012 (scada_step t (m_bdu m) s) p) p (c_interval c)) (c_interval c)) n1 "<="
         (ULimit (rr_unit q) "energy" (rr_dt q) (rr_init q + (since * (rr_up q / 60) + fr_min_loading f - rr_init q) * (60 / c_interval c)
          * (c_interval c / 60)))) as [i [H1 H2]].
      { apply in_map_iff. eexists. split; [|exact Ha]. reflexivity. }
      eexists. eexists. split; [exact G1|]. split; [exact H1|].
      cbn [cr_key cr_type cr_rhs ul_rhs ul_unit ul_service ul_dt]. rewrite E1, E2. split; [reflexivity|].
      split; [reflexivity|]. rewrite E3, V. reflexivity.
Qed.

Lemma fast_start_respected c l m x : in_force c (OpFastStart l None) m -> solution m x ->
  forall f d, In f l -> registered c (fs_unit f) d -> (two_sided c (fs_unit f) -> d = "generator") ->
    offers m (fs_unit f) "energy" d ->
    (fs_end_mode f = 2%Z -> 0 < fs_mode_two_length f) -> (fs_end_mode f = 4%Z -> 0 < fs_mode_four_length f) ->
    follows_profile f (dispatch m x (fs_unit f) "energy" d).
Proof. intros I. exact (fast_start_upheld c l None m x (in_force_upheld _ _ _ _ I eq_refl)). Qed.

Lemma fast_start_first_run c t s p m x :
  in_force c (OpRamp t s (Some p) "fast_start_first_run" None) m -> solution m x ->
  rt_has_up t = false -> rt_has_down t = false ->
  (forall u, starts_low p u -> not_about m "ramp_up" u /\ not_about m "ramp_down" u)
  /\ (forall r, In r (map ri_row (rt_rows t)) -> ~ starts_low p (rr_unit r) ->
      registered c (rr_unit r) (rr_dt r) -> ~ two_sided c (rr_unit r) -> offers m (rr_unit r) "energy" (rr_dt r) ->
      usual_limits c m x s r).
Proof. intros I. exact (first_run_upheld c t s p None m x (in_force_upheld _ _ _ _ I eq_refl)). Qed.

Lemma fast_start_second_run c t s p m x :
  in_force c (OpRamp t s (Some p) "fast_start_second_run" None) m -> solution m x ->
  rt_has_up t = false -> rt_has_down t = false ->
  (forall u, ends_low p u -> not_about m "ramp_up" u /\ not_about m "ramp_down" u)
  /\ (forall r, In r (map ri_row (rt_rows t)) -> ~ ends_low p (rr_unit r) ->
      registered c (rr_unit r) (rr_dt r) -> ~ two_sided c (rr_unit r) -> offers m (rr_unit r) "energy" (rr_dt r) ->
      ((forall min since, ~ left_two p (rr_unit r) min since) -> usual_limits c m x s r)
      /\ (forall min since, left_two p (rr_unit r) min since -> ~ c_interval c == 0 ->
          exists up down,
            smaller_rate (rr_up r) (scada_up s (rr_unit r)) up
            /\ smaller_rate (rr_down r) (scada_down s (rr_unit r)) down
            /\ rr_init r - down * c_interval c / 60 <= dispatch m x (rr_unit r) "energy" (rr_dt r)
            /\ dispatch m x (rr_unit r) "energy" (rr_dt r) <= min + up * since / 60
            /\ exists rows k, dget "ramp_up" (m_rhs m) = Some rows /\ In k rows
                 /\ cr_key k = KUnit (rr_unit r) "energy" (rr_dt r) /\ cr_type k = "<="
                 /\ cr_rhs k == min + up * since / 60)).
Proof. intros I. exact (second_run_upheld c t s p None m x (in_force_upheld _ _ _ _ I eq_refl)). Qed.
