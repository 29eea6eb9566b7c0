(** Lemmas for the ramp limits: C08, C09, C29. *)

From Coq Require Import QArith Qminmax Lqa String List Bool Arith Lia ZArith Permutation.
Import ListNotations.
From Verif Require Import PandasModel TablesModel VariableIdsModel MarketConstraintsModel
  UnitConstraintsModel RampModel FcasModel InterModel ElasticModel MarketModel SolverModel
  SpecLp PandasFacts SpecHistory SpecIds SpecDispatch SpecRamp SpecElastic StepFacts InvariantFacts OwnerFacts SolverFacts
  MeaningFacts LimitFacts CompositeFacts.
Open Scope string_scope.
Open Scope list_scope.

(** ** Rows picked out by a key *)

Lemma unique_filter {A} (f : A -> bool) (same : A -> A -> bool) l a :
  ForallOrdPairs (fun a b => same a b = false) l ->
  (forall b c, In b l -> In c l -> f b = true -> f c = true -> same b c = true) ->
  In a l -> f a = true -> filter f l = [a].
Proof.
  intros FP S Ha Fa. induction FP as [|b t H1 H2 IH]; [destruct Ha|]. cbn [filter].
  rewrite Forall_forall in H1. destruct Ha as [->|Ha].
  - rewrite Fa. f_equal. apply filter_none. intros c Hc. specialize (H1 c Hc).
    destruct (f c) eqn:Fc; [|reflexivity]. rewrite (S a c) in H1 by (auto; first [now left|now right]). discriminate.
  - specialize (H1 a Ha).
    destruct (f b) eqn:Fb; [rewrite (S b a) in H1 by (auto; first [now left|now right]); discriminate|].
    apply IH; auto. intros; apply S; auto; now right.
Qed.

Lemma filter_true {A} (f : A -> bool) l : (forall a, In a l -> f a = true) -> filter f l = l.
Proof.
  induction l as [|a t IH]; intros H; [reflexivity|]. cbn. rewrite H by now left.
  f_equal. apply IH. intros; apply H; now right.
Qed.

Lemma merge_filter_l {A B} (f : A -> bool) (on : A -> B -> bool) l r :
  filter (fun p => f (fst p)) (merge on l r) = merge on (filter f l) r.
Proof.
  unfold merge. induction l as [|a t IH]; [reflexivity|]. cbn [flat_map filter]. rewrite filter_app, IH.
  rewrite filter_map_comm. cbn [fst]. destruct (f a) eqn:E.
  - cbn [flat_map]. f_equal. f_equal. now apply filter_true.
  - rewrite filter_none; auto.
Qed.

Lemma merge_left_filter {A B} (f : A -> bool) (on : A -> B -> bool) l r :
  filter (fun p => f (fst p)) (merge_left on l r) = merge_left on (filter f l) r.
Proof.
  unfold merge_left. induction l as [|a t IH]; [reflexivity|]. cbn [flat_map filter]. rewrite filter_app, IH.
  destruct (f a) eqn:E.
  - cbn [flat_map]. f_equal. apply filter_true. intros p Hp.
    destruct (filter (on a) r); [destruct Hp as [<-|[]]; exact E|].
    apply in_map_iff in Hp. destruct Hp as [b' [<- _]]. exact E.
  - rewrite filter_none; auto. intros p Hp.
    destruct (filter (on a) r); [destruct Hp as [<-|[]]; exact E|].
    apply in_map_iff in Hp. destruct Hp as [b' [<- _]]. exact E.
Qed.

Lemma find_filter {A} (f : A -> bool) l : find f l = hd_error (filter f l).
Proof. induction l as [|a t IH]; [reflexivity|]. cbn. destruct (f a); [reflexivity|exact IH]. Qed.

Lemma eqb_both a b u : String.eqb a u = true -> String.eqb b u = true -> String.eqb a b = true.
Proof. rewrite !String.eqb_eq. congruence. Qed.

(** ** SCADA rates *)

Lemma fmin_smaller bid o : smaller_rate bid o (fmin bid o).
Proof.
  destruct o as [s|]; cbn; [|reflexivity].
  split; [apply Q.le_min_l|]. split; [apply Q.le_min_r|].
  destruct (Q.min_spec bid s) as [[_ E]|[_ E]]; auto.
Qed.

Lemma scada_found m s : check_scada m s = None -> forall u,
  merge_left (fun (r : string) sc => String.eqb r (sc_unit sc)) [u] (st_rows s)
  = [(u, find (fun r => String.eqb (sc_unit r) u) (st_rows s))].
Proof.
  intros H u. cbn. rewrite app_nil_r.
  rewrite (filter_ext (fun sc => String.eqb u (sc_unit sc)) (fun sc => String.eqb (sc_unit sc) u))
    by (intros; apply String.eqb_sym).
  rewrite find_filter.
  assert (FP : ForallOrdPairs (fun a b => String.eqb (sc_unit a) (sc_unit b) = false) (st_rows s)).
  { unfold check_scada in H. apply (no_repeats_in (fun a b => String.eqb (sc_unit a) (sc_unit b)) _ _ H). cbn; auto. }
  destruct (filter (fun sc => String.eqb (sc_unit sc) u) (st_rows s)) as [|a t] eqn:E; [reflexivity|].
  assert (Ha : In a (filter (fun sc => String.eqb (sc_unit sc) u) (st_rows s))) by (rewrite E; now left).
  apply filter_In in Ha. destruct Ha as [H1 H2].
  assert (E' : filter (fun sc => String.eqb (sc_unit sc) u) (st_rows s) = [a]).
  { apply (unique_filter _ (fun a b => String.eqb (sc_unit a) (sc_unit b))); auto.
    intros b c _ _ Hb Hc. eapply eqb_both; eauto. }
  rewrite E in E'. inversion E'; subst. reflexivity.
Qed.

Lemma scada_step_row m t bdu s r :
  (match s with Some s => check_scada m s | None => None end) = None ->
  rt_has_up t = false -> rt_has_down t = false ->
  In r (rt_rows t) -> mem_str (rr_unit (ri_row r)) bdu = false ->
  exists q, In q (scada_step t bdu s)
    /\ rr_unit q = rr_unit (ri_row r) /\ rr_dt q = rr_dt (ri_row r) /\ rr_init q = rr_init (ri_row r)
    /\ smaller_rate (rr_up (ri_row r)) (scada_up s (rr_unit (ri_row r))) (rr_up q)
    /\ smaller_rate (rr_down (ri_row r)) (scada_down s (rr_unit (ri_row r))) (rr_down q).
Proof.
  intros Ck U D Hr Nb. assert (Ho : In r (ordinary_ramps (rt_rows t) bdu)).
  { apply filter_In. rewrite Nb. auto. }
  unfold scada_step. destruct s as [s|].
  - rewrite U, D. pose proof (scada_found m s Ck (rr_unit (ri_row r))) as F. cbn in F. rewrite app_nil_r in F.
    set (o := find (fun sc => String.eqb (sc_unit sc) (rr_unit (ri_row r))) (st_rows s)) in *.
    eexists. split.
    + unfold scada_adjust. apply in_map_iff. exists (r, o). split; [reflexivity|].
      unfold merge_left. apply in_flat_map. exists r. split; [exact Ho|].
      destruct (filter (fun sc => String.eqb (rr_unit (ri_row r)) (sc_unit sc)) (st_rows s)) as [|b t'] eqn:E.
      * inversion F as [F1]. now left.
      * inversion F as [[F1 F2]]. cbn. now left.
    + cbn [rr_unit rr_dt rr_init rr_up rr_down]. repeat split.
      * unfold merged_scada, scada_value. cbn [scada_up]. fold o. destruct (st_has_up s); apply fmin_smaller.
      * unfold merged_scada, scada_value. cbn [scada_down]. fold o. destruct (st_has_down s); apply fmin_smaller.
  - exists (ri_row r). split; [apply in_map_iff; eauto|]. repeat split; reflexivity.
Qed.

Lemma scada_step_ordinary t bdu s q : In q (scada_step t bdu s) -> mem_str (rr_unit q) bdu = false.
Proof.
  intros H. unfold scada_step in H. destruct s as [s|].
  - unfold scada_adjust in H. apply in_map_iff in H. destruct H as [[r o] [<- H]].
    apply in_merge_left in H. destruct H as [H _]. apply filter_In in H. cbn.
    destruct H as [_ H]. cbn in H. now apply negb_true_iff in H.
  - apply in_map_iff in H. destruct H as [r [<- H]]. apply filter_In in H. now apply negb_true_iff.
Qed.

(** ** The ramp groups in force *)

Lemma new_unit_owned k mr mm m m1 : owned m -> unit_group_ok mr mm ->
  new_unit_group k mr mm m = (m1, None) -> owned m1.
Proof. intros O G E. pose proof (new_unit_group_owned k mr mm m G O) as X. now rewrite E in X. Qed.

Lemma new_unit_same k k' mr mm m m1 : k' <> k ->
  new_unit_group k' mr mm m = (m1, None) -> same_group k m m1.
Proof. intros N E. pose proof (new_unit_group_same k k' mr mm m N) as X. now rewrite E in X. Qed.

Lemma andthen_settled o m2 m3 m1 : settled o m2 m3 -> settled o m3 m1 -> settled o m2 m1.
Proof.
  intros [A B] [C D]. split; [|intros N; rewrite (B N); exact (D N)].
  intros k. exact (carried_trans k m2 m3 m1 (A k) (C k)).
Qed.
Lemma make_settled o k v m2 m1 : cost_arg o = Some v -> make_elastic k v m2 = (m1, None) -> settled o m2 m1.
Proof.
  intros N E. split; [|intros Z; congruence]. intros k'. pose proof (make_elastic_carried k' k v m2) as Z. now rewrite E in Z.
Qed.
Lemma present_settled o k v m2 m1 : cost_arg o = Some v -> elastic_if_present k v m2 = (m1, None) -> settled o m2 m1.
Proof.
  intros N E. split; [|intros Z; congruence]. intros k'. pose proof (elastic_if_present_carried k' k v m2) as Z. now rewrite E in Z.
Qed.
Lemma ramp_settled t s p rt v m2 m1 :
  match v with
  | None => done m2
  | Some v =>
    andthen (make_elastic "ramp_up" v m2) (fun m =>
    andthen (make_elastic "ramp_down" v m) (fun m =>
    andthen (elastic_if_present "bidirectional_ramp_up" v m) (fun m =>
    elastic_if_present "bidirectional_ramp_down" v m)))
  end = (m1, None) -> settled (OpRamp t s p rt v) m2 m1.
Proof.
  destruct v as [v|]; intros E; [|inversion E; apply settled_refl].
  apply andthen_ok in E. destruct E as [a [E1 E]]. apply andthen_ok in E. destruct E as [b [E2 E]].
  apply andthen_ok in E. destruct E as [d [E3 E]].
  apply (andthen_settled _ _ a); [exact (make_settled (OpRamp t s p rt (Some v)) _ v _ _ eq_refl E1)|].
  apply (andthen_settled _ _ b); [exact (make_settled (OpRamp t s p rt (Some v)) _ v _ _ eq_refl E2)|].
  apply (andthen_settled _ _ d); [exact (present_settled (OpRamp t s p rt (Some v)) _ v _ _ eq_refl E3)|
                                  exact (present_settled (OpRamp t s p rt (Some v)) _ v _ _ eq_refl E)].
Qed.
Lemma ramp_inv c t s p rt v m x : upheld c (OpRamp t s p rt v) m x ->
  owned m /\ m_cfg m = c /\
  exists m' l, m_cfg m' = c /\ wf m' /\ check_ramp m' t = None
    /\ check_bdu m' (map (fun r => rr_unit (ri_row r)) (rt_rows t)) = None
    /\ check_fs_opt m' rt p = None
    /\ (match s with Some s => check_scada m' s | None => None end) = None
    /\ ramp_step t (m_bdu m) s p rt (c_interval c) = Ok l
    /\ (exists n, unit_group_at "ramp_up" (ramp_up_rhs l n (c_interval c)) (ramp_up_map l n (c_interval c)) m x)
    /\ (exists n, unit_group_at "ramp_down" (ramp_down_rhs l n (c_interval c)) (ramp_down_map l n (c_interval c)) m x)
    /\ let b := bdu_ramp_step t (m_bdu m) s (c_interval c) in
       (b <> [] ->
        (exists n, unit_group_at "bidirectional_ramp_up" (bdu_ramp_rhs b true n (c_interval c)) (bdu_ramp_map b n) m x)
        /\ (exists n, unit_group_at "bidirectional_ramp_down" (bdu_ramp_rhs b false n (c_interval c)) (bdu_ramp_map b n) m x)).
Proof.
  intros I. apply upheld_inv in I. destruct I as [O [C [m' [m1 [O' [C' [St K]]]]]]].
  split; [exact O|]. split; [exact C|]. exists m'.
  cbn [step] in St. unfold set_ramp in St.
  apply guard_ok in St. destruct St as [Ck1 St]. apply guard_ok in St. destruct St as [Ck2 St].
  apply guard_ok in St. destruct St as [Ck3 St]. apply guard_ok in St. destruct St as [Ck4 St].
  assert (B : m_bdu m' = m_bdu m) by (unfold m_bdu; now rewrite C, C').
  rewrite B, C' in St.
  destruct (ramp_step t (m_bdu m) s p rt (c_interval c)) as [l|e] eqn:RS; [|discriminate].
  exists l. cbv zeta in *. set (h := c_interval c) in *. set (b := bdu_ramp_step t (m_bdu m) s h) in *.
  apply andthen_ok in St. destruct St as [m2 [S1 St]].
  apply andthen_ok in St. destruct St as [m3 [S2 St]].
  apply andthen_ok in St. destruct St as [m5 [S3 St]]. apply (ramp_settled t s p rt) in St.
  split; [exact C'|]. split; [apply O'|]. do 4 (split; [assumption|]). split; [reflexivity|].
  destruct (new_unit_group_is _ _ _ _ _ O' (ramp_up_ok l h) S1) as [n1 [_ G1]].
  assert (O2 : owned m2).
  { pose proof (new_unit_group_owned "ramp_up" _ _ m' (ramp_up_ok l h) O') as X. now rewrite S1 in X. }
  destruct (new_unit_group_is _ _ _ _ _ O2 (ramp_down_ok l h) S2) as [n2 [_ G2]].
  assert (O3 : owned m3).
  { pose proof (new_unit_group_owned "ramp_down" _ _ m2 (ramp_down_ok l h) O2) as X. now rewrite S2 in X. }
  assert (T : forall k, In k (touches (OpRamp t s p rt v)) -> k <> "bidirectional_ramp_up" ->
     k <> "bidirectional_ramp_down" -> same_group k m3 m5).
  { intros k Hk N1 N2.
    destruct b as [|b0 bt]; [inversion S3; apply same_group_refl|].
    apply andthen_ok in S3. destruct S3 as [m4 [S3 S4]].
    apply (same_group_trans k m3 m4 m5).
    - replace m4 with (fst (new_unit_group "bidirectional_ramp_up" (fun n => bdu_ramp_rhs (b0 :: bt) true n h)
          (fun n => bdu_ramp_map (b0 :: bt) n) m3)) by (rewrite S3; reflexivity).
      apply new_unit_group_same. congruence.
    - match type of S4 with ?X = _ => replace m5 with (fst X) by (rewrite S4; reflexivity) end.
      apply new_unit_group_same. congruence. }
  split; [exists n1|split; [exists n2|]].
  - apply (K "ramp_up" m5); [cbn; auto|exact St|]. apply (unit_group_is_same _ _ _ m2); [|exact G1]. apply (same_group_trans _ m2 m3 m5).
    + match type of S2 with ?X = _ => replace m3 with (fst X) by (rewrite S2; reflexivity) end.
      apply new_unit_group_same. congruence.
    + apply T; cbn; auto; congruence.
  - apply (K "ramp_down" m5); [cbn; auto|exact St|]. apply (unit_group_is_same _ _ _ m3); [|exact G2]. apply T; cbn; auto; congruence.
  - intros Nb. destruct b as [|b0 bt]; [congruence|].
    apply andthen_ok in S3. destruct S3 as [m4 [S3 S4]].
    destruct (new_unit_group_is _ _ _ _ _ O3 (bdu_ok (b0 :: bt) true h) S3) as [n3 [_ G3]].
    assert (O4 : owned m4) by exact (new_unit_owned _ _ _ _ _ O3 (bdu_ok (b0 :: bt) true h) S3).
    destruct (new_unit_group_is _ _ _ _ _ O4 (bdu_ok (b0 :: bt) false h) S4) as [n4 [_ G4]].
    split; [exists n3|exists n4].
    + apply (K "bidirectional_ramp_up" m5); [cbn; auto|exact St|]. apply (unit_group_is_same _ _ _ m4); [|exact G3].
      match type of S4 with ?X = _ => replace m5 with (fst X) by (rewrite S4; reflexivity) end.
      apply new_unit_group_same. congruence.
    + apply (K "bidirectional_ramp_down" m5); [cbn; auto|exact St|exact G4].
Qed.

Lemma ramp_rows_hold c t s p rt v m x l q :
  upheld c (OpRamp t s p rt v) m x -> solution m x ->
  ramp_step t (m_bdu m) s p rt (c_interval c) = Ok l -> In q l ->
  ~ two_sided c (rr_unit q) -> registered c (rr_unit q) (rr_dt q) ->
  offers m (rr_unit q) "energy" (rr_dt q) ->
  rr_init q - rr_down q * (c_interval c / 60) <= dispatch m x (rr_unit q) "energy" (rr_dt q)
  /\ dispatch m x (rr_unit q) "energy" (rr_dt q) <= rr_init q + rr_up q * (c_interval c / 60).
Proof.
  intros I S E Hq N2 R Of. destruct (ramp_inv _ _ _ _ _ _ _ _ I) as [O [C [m' [l' [C' [_ [_ [_ [_ [_ [RS [[n1 G1] [[n2 G2] _]]]]]]]]]]]]].
  rewrite E in RS. inversion RS; subst l'. clear RS.
  set (h := c_interval c) in *.
  pose proof (bdu_false c _ m (proj1 O) C N2) as NB. rewrite <- C in R.
  assert (LS : load_sign m (rr_unit q) "energy" (rr_dt q) = 1) by (unfold load_sign; now rewrite NB).
  split.
  - destruct (create_row (ramp_down_limits l h) n2 ">=" (ULimit (rr_unit q) "energy" (rr_dt q) (rr_init q - rr_down q * (h / 60))))
      as [i [H1 H2]]. { apply in_map_iff. exists q. auto. }
    pose proof (single_row_holds m x "ramp_down" _ _ _ _ _ _ _ O ltac:(cbn; auto 20) G2 S H1 H2 R Of) as H.
    cbn [cr_type cr_rhs ul_rhs ul_unit ul_service ul_dt] in H. apply relation_ge in H.
    rewrite LS, !Qmult_1_l in H. exact H.
  - destruct (create_row (ramp_up_limits l h) n1 "<=" (ULimit (rr_unit q) "energy" (rr_dt q) (rr_init q + rr_up q * (h / 60))))
      as [i [H1 H2]]. { apply in_map_iff. exists q. auto. }
    pose proof (single_row_holds m x "ramp_up" _ _ _ _ _ _ _ O ltac:(cbn; auto 20) G1 S H1 H2 R Of) as H.
    cbn [cr_type cr_rhs ul_rhs ul_unit ul_service ul_dt] in H. apply relation_le in H.
    rewrite LS, !Qmult_1_l in H. exact H.
Qed.

(** ** C08 *)

Lemma ramp_upheld c t s p v m x :
  upheld c (OpRamp t s p "no_fast_start_units" v) m x -> solution m x ->
  rt_has_up t = false -> rt_has_down t = false ->
  forall r, In r (map ri_row (rt_rows t)) ->
    registered c (rr_unit r) (rr_dt r) -> ~ two_sided c (rr_unit r) -> offers m (rr_unit r) "energy" (rr_dt r) ->
    exists up down,
      smaller_rate (rr_up r) (scada_up s (rr_unit r)) up
      /\ smaller_rate (rr_down r) (scada_down s (rr_unit r)) down
      /\ rr_init r - down * c_interval c / 60 <= dispatch m x (rr_unit r) "energy" (rr_dt r)
      /\ dispatch m x (rr_unit r) "energy" (rr_dt r) <= rr_init r + up * c_interval c / 60.
Proof.
  intros I S U D r Hr R N2 Of. apply in_map_iff in Hr. destruct Hr as [ri [<- Hr]].
  destruct (ramp_inv _ _ _ _ _ _ _ _ I) as [O [C [m' [l [C' [_ [_ [_ [_ [Ck [RS _]]]]]]]]]]].
  destruct (scada_step_row m' t (m_bdu m) s ri Ck U D Hr) as [q [Hq [E1 [E2 [E3 [E4 E5]]]]]].
  { eapply bdu_false; eauto. apply O. }
  assert (L : l = scada_step t (m_bdu m) s).
  { unfold ramp_step, fast_start_adjust in RS. cbn in RS. now inversion RS. }
  subst l. pose proof RS as RS'. 
  rewrite <- E1, <- E2 in R, Of. rewrite <- E1 in N2.
  pose proof (ramp_rows_hold c t s p _ _ m x _ q I S RS Hq N2 R Of) as H. rewrite E1, E2, E3 in H.
  exists (rr_up q), (rr_down q). unfold Qdiv in *. rewrite !Qmult_assoc in H. tauto.
Qed.

Lemma ramp_respected c t s p m x :
  in_force c (OpRamp t s p "no_fast_start_units" None) m -> solution m x ->
  rt_has_up t = false -> rt_has_down t = false ->
  forall r, In r (map ri_row (rt_rows t)) ->
    registered c (rr_unit r) (rr_dt r) -> ~ two_sided c (rr_unit r) -> offers m (rr_unit r) "energy" (rr_dt r) ->
    exists up down,
      smaller_rate (rr_up r) (scada_up s (rr_unit r)) up
      /\ smaller_rate (rr_down r) (scada_down s (rr_unit r)) down
      /\ rr_init r - down * c_interval c / 60 <= dispatch m x (rr_unit r) "energy" (rr_dt r)
      /\ dispatch m x (rr_unit r) "energy" (rr_dt r) <= rr_init r + up * c_interval c / 60.
Proof. intros I. exact (ramp_upheld c t s p None m x (in_force_upheld _ _ _ _ I eq_refl)). Qed.

(** ** Bidirectional units *)

Lemma merge_filter_r {A B} (g : B -> bool) (on : A -> B -> bool) l r :
  filter (fun p => g (snd p)) (merge on l r) = merge on l (filter g r).
Proof.
  unfold merge. induction l as [|a t IH]; [reflexivity|]. cbn [flat_map]. rewrite filter_app, IH. f_equal.
  rewrite filter_map_comm. cbn [snd]. f_equal. clear. induction r as [|b t IH]; [reflexivity|]. cbn.
  destruct (on a b) eqn:E1, (g b) eqn:E2; cbn; rewrite ?E1, ?E2; congruence.
Qed.

Lemma merge_one_l {A B} (on : A -> B -> bool) a r : merge on [a] r = map (fun b => (a, b)) (filter (on a) r).
Proof. unfold merge. cbn. apply app_nil_r. Qed.

Lemma merge_one_r {A B} (on : A -> B -> bool) l b : merge on l [b] = map (fun a => (a, b)) (filter (fun a => on a b) l).
Proof.
  unfold merge. induction l as [|a t IH]; [reflexivity|]. cbn [flat_map]. rewrite IH. cbn. destruct (on a b); reflexivity.
Qed.

Lemma side_unique m t bdu d r : check_ramp m t = None -> In r (map ri_row (rt_rows t)) ->
  rr_dt r = d -> mem_str (rr_unit r) bdu = true ->
  filter (fun q => String.eqb (rr_unit q) (rr_unit r))
    (filter (fun q => String.eqb (rr_dt q) d) (filter (fun q => mem_str (rr_unit q) bdu) (map ri_row (rt_rows t)))) = [r].
Proof.
  intros H Hr D B. unfold check_ramp in H.
  assert (FP : ForallOrdPairs (fun a b => String.eqb (rr_unit a) (rr_unit b) && String.eqb (rr_dt a) (rr_dt b) = false) (map ri_row (rt_rows t))).
  { apply (no_repeats_in (fun a b => String.eqb (rr_unit a) (rr_unit b) && String.eqb (rr_dt a) (rr_dt b)) _ _ H). cbn; auto. }
  apply (unique_filter _ (fun a b => String.eqb (rr_unit a) (rr_unit b) && String.eqb (rr_dt a) (rr_dt b))).
  - now repeat apply FOP_filter.
  - intros b c Hb Hc E1 E2. apply filter_In in Hb, Hc. destruct Hb as [_ Hb], Hc as [_ Hc].
    apply andb_true_iff. split; eapply eqb_both; eauto.
  - apply filter_In. rewrite D, String.eqb_refl. split; [|reflexivity]. apply filter_In. auto.
  - apply String.eqb_refl.
Qed.

Lemma filter_sym (f : ramp_row -> string) l u :
  filter (fun q => String.eqb u (f q)) l = filter (fun q => String.eqb (f q) u) l.
Proof. apply filter_ext. intros; apply String.eqb_sym. Qed.

Lemma bdu_ramps_row m t bdu h g ld : check_ramp m t = None ->
  In g (map ri_row (rt_rows t)) -> In ld (map ri_row (rt_rows t)) ->
  rr_dt g = "generator" -> rr_dt ld = "load" -> rr_unit ld = rr_unit g -> mem_str (rr_unit g) bdu = true ->
  filter (fun b => String.eqb (bd_unit b) (rr_unit g)) (bdu_ramps (map ri_row (rt_rows t)) bdu h)
  = [BduRamp (rr_unit g) (rr_init ld)
       (composite_up (h / 60) (rr_init ld) (rr_up g) (rr_down ld))
       (composite_down (h / 60) (rr_init g) (rr_up ld) (rr_down g))].
Proof.
  intros H Hg Hl Dg Dl E B. set (l := map ri_row (rt_rows t)) in *.
  pose proof (side_unique m t bdu _ g H Hg Dg B) as Fg. fold l in Fg.
  assert (B' : mem_str (rr_unit ld) bdu = true) by (now rewrite E).
  pose proof (side_unique m t bdu _ ld H Hl Dl B') as Fl. fold l in Fl. rewrite E in Fl.
  fold (bdu_gen l bdu) in Fg. fold (bdu_load l bdu) in Fl.
  assert (Up : filter (fun b : string * Q * Q => String.eqb (fst (fst b)) (rr_unit g)) (bdu_up l bdu h)
     = [(rr_unit g, composite_up (h / 60) (rr_init ld) (rr_up g) (rr_down ld), rr_init ld)]).
  { unfold bdu_up. rewrite filter_map_comm.
    rewrite (filter_ext _ (fun p : ramp_row * ramp_row => String.eqb (rr_unit (fst p)) (rr_unit g)))
      by (intros [a b]; reflexivity).
    rewrite (merge_filter_l (fun a => String.eqb (rr_unit a) (rr_unit g))), Fg, merge_one_l.
    rewrite filter_sym, Fl. reflexivity. }
  assert (Dn : filter (fun b : string * Q => String.eqb (fst b) (rr_unit g)) (bdu_down l bdu h)
     = [(rr_unit g, composite_down (h / 60) (rr_init g) (rr_up ld) (rr_down g))]).
  { unfold bdu_down. rewrite filter_map_comm.
    rewrite (filter_ext _ (fun p : ramp_row * ramp_row => String.eqb (rr_unit (fst p)) (rr_unit g)))
      by (intros [a b]; reflexivity).
    rewrite (merge_filter_l (fun a => String.eqb (rr_unit a) (rr_unit g))), Fl, merge_one_l.
    rewrite filter_sym, E, Fg. cbn. now rewrite E. }
  unfold bdu_ramps. rewrite filter_map_comm.
  rewrite (filter_ext _ (fun p : (string * Q) * (string * Q * Q) => String.eqb (fst (fst p)) (rr_unit g)))
    by (intros [[a b] [[e f] i]]; reflexivity).
  rewrite (merge_filter_l (fun a : string * Q => String.eqb (fst a) (rr_unit g))), Dn, merge_one_l.
  rewrite (filter_ext _ (fun b : string * Q * Q => String.eqb (fst (fst b)) (rr_unit g)))
    by (intros; apply String.eqb_sym).
  rewrite Up. reflexivity.
Qed.

Lemma bdu_step_row m t bdu s h g ld : check_ramp m t = None ->
  (match s with Some s => check_scada m s | None => None end) = None ->
  In g (map ri_row (rt_rows t)) -> In ld (map ri_row (rt_rows t)) ->
  rr_dt g = "generator" -> rr_dt ld = "load" -> rr_unit ld = rr_unit g -> mem_str (rr_unit g) bdu = true ->
  exists up down,
    filter (fun b => String.eqb (bd_unit b) (rr_unit g)) (bdu_ramp_step t bdu s h)
    = [BduRamp (rr_unit g) (rr_init ld) up down]
    /\ smaller_rate (composite_up (h / 60) (rr_init ld) (rr_up g) (rr_down ld)) (scada_up s (rr_unit g)) up
    /\ smaller_rate (composite_down (h / 60) (rr_init g) (rr_up ld) (rr_down g)) (scada_down s (rr_unit g)) down.
Proof.
  intros H Ck Hg Hl Dg Dl E B. pose proof (bdu_ramps_row m t bdu h g ld H Hg Hl Dg Dl E B) as F.
  unfold bdu_ramp_step. destruct s as [s|].
  - eexists. eexists. split; [|split].
    + unfold scada_adjust_bdu. rewrite filter_map_comm.
      rewrite (filter_ext _ (fun p : bdu_ramp_row * option scada_row => String.eqb (bd_unit (fst p)) (rr_unit g)))
        by (intros [a b]; reflexivity).
      rewrite (merge_left_filter (fun b => String.eqb (bd_unit b) (rr_unit g))), F.
      pose proof (scada_found m s Ck (rr_unit g)) as G. cbn in G. cbn. rewrite app_nil_r in G |- *.
      destruct (filter (fun sc => String.eqb (rr_unit g) (sc_unit sc)) (st_rows s)) as [|b t'].
      * inversion G as [G1]. cbn. rewrite G1. reflexivity.
      * inversion G as [[G1 G2]]. destruct t'; [|discriminate]. cbn. rewrite G1. reflexivity.
    + unfold scada_value. cbn [scada_up]. destruct (st_has_up s); apply fmin_smaller.
    + unfold scada_value. cbn [scada_down]. destruct (st_has_down s); apply fmin_smaller.
  - do 2 eexists. split; [exact F|]. split; reflexivity.
Qed.

Lemma bdu_group_row l r : filter (fun b => String.eqb (bd_unit b) (bd_unit r)) l = [r] ->
  forall n up h, exists i,
    In (CRow i (if up : bool then "<=" else ">=")
          (if up then bd_init r + bd_up r * (h / 60) else bd_init r - bd_down r * (h / 60))
          (KUnit (bd_unit r) "energy" "bidirectional")) (bdu_ramp_rhs l up n h)
    /\ filter (fun c => Nat.eqb (uc_con c) i) (bdu_ramp_map l n)
       = [UC i (bd_unit r) "energy" "load" 1; UC i (bd_unit r) "energy" "generator" 1].
Proof.
  intros F n up h.
  assert (Hr : In r l).
  { assert (In r [r]) as X by now left. rewrite <- F in X. apply filter_In in X. tauto. }
  assert (Hd : In r (drop_duplicates (fun a b => String.eqb (bd_unit a) (bd_unit b)) l)).
  { destruct (drop_duplicates_repr (fun a b => String.eqb (bd_unit a) (bd_unit b)) l r) as [b [Hb E]]; auto.
    - intros a b E1 d E2. rewrite String.eqb_eq in *. congruence.
    - intros; apply String.eqb_refl.
    - intros a b E1. now rewrite String.eqb_sym.
    - assert (X : In b [r]). { rewrite <- F. apply filter_In. split; [|exact E]. now apply drop_duplicates_incl in Hb. }
      destruct X as [<-|[]]. exact Hb. }
  destruct (save_index_in n _ r Hd) as [i Hi]. fold (bdu_ids l n) in Hi. exists i. split.
  - unfold bdu_ramp_rhs. apply in_map_iff. exists (i, r). split; [reflexivity|exact Hi].
  - unfold bdu_ramp_map. rewrite filter_app, !filter_map_comm. cbn [uc_con].
    rewrite (merge_filter_r (fun q : nat * bdu_ramp_row => Nat.eqb (fst q) i)).
    unfold bdu_ids. rewrite (filter_save_index n _ i r Hi), merge_one_r. cbn [snd].
    rewrite F. reflexivity.
Qed.

Lemma bdu_row_holds m x k rows cs r u : owned m -> In k unit_keys ->
  unit_group_at k rows cs m x -> solution m x -> In r rows ->
  filter (fun c => Nat.eqb (uc_con c) (cr_id r)) cs
    = [UC (cr_id r) u "energy" "load" 1; UC (cr_id r) u "energy" "generator" 1] ->
  two_sided (m_cfg m) u -> offers m u "energy" "generator" \/ offers m u "energy" "load" ->
  relation (cr_type r) (net_energy m x u) (cr_rhs r).
Proof.
  intros O Hk G [p [A F]] Hr E [Rg Rl] Of.
  assert (H : relation (cr_type r) (unit_value m x cs (cr_id r)) (cr_rhs r)).
  { assert (Hc : forall c, In c [UC (cr_id r) u "energy" "load" 1; UC (cr_id r) u "energy" "generator" 1] -> In c cs).
    { intros c Hc. rewrite <- E in Hc. apply filter_In in Hc. tauto. }
    destruct Of as [Of|Of]; [destruct (offers_uv m _ _ _ (proj1 O) Rg Of) as [v [Hv [V1 [V2 V3]]]]
                            |destruct (offers_uv m _ _ _ (proj1 O) Rl Of) as [v [Hv [V1 [V2 V3]]]]].
    - eapply (unit_row_holds m p x k rows cs r (UC (cr_id r) u "energy" "generator" 1) v); eauto.
      apply Hc. cbn; auto.
    - eapply (unit_row_holds m p x k rows cs r (UC (cr_id r) u "energy" "load" 1) v); eauto.
      apply Hc. cbn; auto. }
  unfold unit_value in H. rewrite E in H.
  assert (V : sumQ (fun c => uc_coef c * unit_term (rows_or_nil (m_unit_bids m)) x (uc_unit c) (uc_service c) (uc_dt c))
      [UC (cr_id r) u "energy" "load" 1; UC (cr_id r) u "energy" "generator" 1] == net_energy m x u).
  { rewrite !sumQ_cons, sumQ_nil. cbn [uc_coef uc_unit uc_service uc_dt].
    rewrite !unit_term_dispatch by (auto; apply O).
    unfold load_sign. rewrite (bdu_true (m_cfg m) u m (proj1 O) eq_refl) by (split; auto). cbn [String.eqb andb Ascii.eqb Bool.eqb].
    unfold net_energy. ring. }
  unfold relation in *. rewrite V in H. exact H.
Qed.

(** ** C09 *)

Lemma bdu_ramp_upheld c t s p rt v m x :
  upheld c (OpRamp t s p rt v) m x -> solution m x -> 0 < c_interval c ->
  forall g ld, In g (map ri_row (rt_rows t)) -> In ld (map ri_row (rt_rows t)) ->
    rr_unit ld = rr_unit g -> rr_dt g = "generator" -> rr_dt ld = "load" ->
    two_sided c (rr_unit g) ->
    offers m (rr_unit g) "energy" "generator" \/ offers m (rr_unit g) "energy" "load" ->
    0 <= rr_down g -> 0 <= rr_down ld -> rr_init g == rr_init ld ->
    let h := c_interval c / 60 in
    exists top bottom up down,
      rises_to h (rr_init g) (rr_down ld) (rr_up g) top
      /\ falls_to h (rr_init g) (rr_up ld) (rr_down g) bottom
      /\ smaller_rate ((top - rr_init g) / h) (scada_up s (rr_unit g)) up
      /\ smaller_rate ((rr_init g - bottom) / h) (scada_down s (rr_unit g)) down
      /\ rr_init g - down * h <= net_energy m x (rr_unit g)
      /\ net_energy m x (rr_unit g) <= rr_init g + up * h.
Proof.
  intros I S Hi g ld Hg Hl E Dg Dl T Of Pg Pl Ei h.
  assert (Hh : 0 < h). { unfold h. unfold Qdiv. apply Qmult_lt_0_compat; [exact Hi|reflexivity]. }
  destruct (ramp_inv _ _ _ _ _ _ _ _ I) as [O [C [m' [l [C' [_ [Ck1 [_ [_ [Ck2 [_ [_ [_ B]]]]]]]]]]]]]. cbv zeta in B.
  assert (MB : mem_str (rr_unit g) (m_bdu m) = true) by (eapply bdu_true; eauto; apply O).
  destruct (bdu_step_row m' t (m_bdu m) s (c_interval c) g ld Ck1 Ck2 Hg Hl Dg Dl E MB) as [up [down [F [Su Sd]]]].
  set (b := bdu_ramp_step t (m_bdu m) s (c_interval c)) in *.
  destruct B as [[n1 G1] [n2 G2]]. { intros Z. rewrite Z in F. discriminate. }
  set (r := BduRamp (rr_unit g) (rr_init ld) up down) in *.
  destruct (bdu_group_row b r F n1 true (c_interval c)) as [i [H1 H2]].
  destruct (bdu_group_row b r F n2 false (c_interval c)) as [j [H3 H4]].
  rewrite <- C in T.
  pose proof (bdu_row_holds m x "bidirectional_ramp_up" _ _ _ _ O ltac:(cbn; auto 20) G1 S H1 H2 T Of) as R1.
  pose proof (bdu_row_holds m x "bidirectional_ramp_down" _ _ _ _ O ltac:(cbn; auto 20) G2 S H3 H4 T Of) as R2.
  cbn [cr_type cr_rhs bd_init bd_up bd_down bd_unit r] in R1, R2. apply relation_le in R1. apply relation_ge in R2.
  fold h in R1, R2, Su, Sd.
  exists (rr_init ld + composite_up h (rr_init ld) (rr_up g) (rr_down ld) * h),
         (rr_init g - composite_down h (rr_init g) (rr_up ld) (rr_down g) * h), up, down.
  split. { apply (rises_to_Proper h h (rr_init ld) (rr_init g) (rr_down ld) (rr_down ld) (rr_up g) (rr_up g)
            (rr_init ld + composite_up h (rr_init ld) (rr_up g) (rr_down ld) * h)); try reflexivity; [symmetry; exact Ei|].
           now apply composite_up_reaches. }
  split. { now apply composite_down_reaches. }
  split. { assert (X : (rr_init ld + composite_up h (rr_init ld) (rr_up g) (rr_down ld) * h - rr_init g) / h
                  == composite_up h (rr_init ld) (rr_up g) (rr_down ld)).
           { rewrite Ei. field. lra. }
           unfold smaller_rate in *. destruct (scada_up s (rr_unit g)); rewrite X; exact Su. }
  split. { assert (X : (rr_init g - (rr_init g - composite_down h (rr_init g) (rr_up ld) (rr_down g) * h)) / h
                  == composite_down h (rr_init g) (rr_up ld) (rr_down g)) by (field; lra).
           unfold smaller_rate in *. destruct (scada_down s (rr_unit g)); rewrite X; exact Sd. }
  rewrite Ei. auto.
Qed.

Lemma bdu_ramp_respected c t s p rt m x :
  in_force c (OpRamp t s p rt None) m -> solution m x -> 0 < c_interval c ->
  forall g ld, In g (map ri_row (rt_rows t)) -> In ld (map ri_row (rt_rows t)) ->
    rr_unit ld = rr_unit g -> rr_dt g = "generator" -> rr_dt ld = "load" ->
    two_sided c (rr_unit g) ->
    offers m (rr_unit g) "energy" "generator" \/ offers m (rr_unit g) "energy" "load" ->
    0 <= rr_down g -> 0 <= rr_down ld -> rr_init g == rr_init ld ->
    let h := c_interval c / 60 in
    exists top bottom up down,
      rises_to h (rr_init g) (rr_down ld) (rr_up g) top
      /\ falls_to h (rr_init g) (rr_up ld) (rr_down g) bottom
      /\ smaller_rate ((top - rr_init g) / h) (scada_up s (rr_unit g)) up
      /\ smaller_rate ((rr_init g - bottom) / h) (scada_down s (rr_unit g)) down
      /\ rr_init g - down * h <= net_energy m x (rr_unit g)
      /\ net_energy m x (rr_unit g) <= rr_init g + up * h.
Proof. intros I. exact (bdu_ramp_upheld c t s p rt None m x (in_force_upheld _ _ _ _ I eq_refl)). Qed.
