(** Lemmas for joint ramping of energy and regulation: C12. *)

From Coq Require Import QArith Qminmax Lqa String List Bool Arith Lia ZArith Permutation.
Import ListNotations.
From Verif Require Import PandasModel TablesModel VariableIdsModel MarketConstraintsModel
  UnitConstraintsModel RampModel FcasModel InterModel ElasticModel MarketModel SolverModel
  SpecLp PandasFacts SpecHistory SpecIds SpecDispatch SpecRamp SpecElastic StepFacts InvariantFacts OwnerFacts SolverFacts
  MeaningFacts LimitFacts CompositeFacts RampFacts TableFacts BidFacts TrapFacts.
Open Scope string_scope.
Open Scope list_scope.

Lemma in_force_at_force c o m' m : in_force_at c o m' m -> in_force c o m.
Proof.
  intros [m0 [pre [post [H1 [H2 [H3 [H4 [H5 H6]]]]]]]]. exists m0, (pre ++ o :: post).
  do 2 (split; [assumption|]). split; [|assumption]. exists pre, post. subst m'. auto.
Qed.

Lemma in_force_at_inv c o m' m : in_force_at c o m' m ->
  owned m /\ m_cfg m = c /\ owned m' /\ m_cfg m' = c /\
  exists m1, step o m' = (m1, None) /\ forall k, In k (touches o) -> same_group k m1 m.
Proof.
  intros [m0 [pre [post [H1 [H2 [H3 [H4 [H5 H6]]]]]]]]. subst.
  split; [now apply (run_owned c)|]. split; [now apply run_cfg_new|].
  unfold sane in H2. apply along_app in H2. destruct H2 as [S1 [S2 S3]].
  split; [now apply (run_owned c)|]. split; [now apply run_cfg_new|].
  destruct (step o (run pre m0)) as [m1 e] eqn:E. cbn in H4. subst e. exists m1. split; [reflexivity|].
  intros k Hk. rewrite run_app, run_cons, E. cbn [fst]. now apply run_same_group, H5.
Qed.

Lemma new_if_is {A} (l : list A) k mr mm m m1 : owned m -> unit_group_ok mr mm ->
  new_unit_group_if l k mr mm m = (m1, None) ->
  owned m1 /\ (l <> [] -> exists n, unit_group_is k (mr n) (mm n) m1)
  /\ (forall k', k' <> k -> same_group k' m m1).
Proof.
  intros O G E. destruct l as [|a t]; cbn in E.
  - inversion E; subst. split; [assumption|]. split; [congruence|]. intros; apply same_group_refl.
  - split; [eapply new_unit_owned; eauto|]. split.
    + intros _. destruct (new_unit_group_is _ _ _ _ _ O G E) as [n [_ H]]. eauto.
    + intros k' N. eapply new_unit_same; eauto.
Qed.

Definition jr_ordinary (m : market) (l : list reg_limit) := filter (fun r => negb (mem_str (rl_unit r) (m_bdu m))) l.
Definition jr_bdu (m : market) (l : list reg_limit) := filter (fun r => mem_str (rl_unit r) (m_bdu m)) l.

Lemma joint_ramping_settled l p rt v m2 m1 :
  match v with
  | None => done m2
  | Some v =>
    andthen (make_elastic "joint_ramping_raise_reg" v m2) (fun m =>
    andthen (make_elastic "joint_ramping_lower_reg" v m) (fun m =>
    andthen (elastic_if_present "joint_ramping_raise_reg_bdu" v m) (fun m =>
    elastic_if_present "joint_ramping_lower_reg_bdu" v m)))
  end = (m1, None) -> settled (OpJointRamping l p rt v) m2 m1.
Proof.
  destruct v as [v|]; intros E; [|inversion E; apply settled_refl].
  apply andthen_ok in E. destruct E as [a [E1 E]]. apply andthen_ok in E. destruct E as [b [E2 E]].
  apply andthen_ok in E. destruct E as [d [E3 E]].
  apply (andthen_settled _ _ a); [exact (make_settled (OpJointRamping l p rt (Some v)) _ v _ _ eq_refl E1)|].
  apply (andthen_settled _ _ b); [exact (make_settled (OpJointRamping l p rt (Some v)) _ v _ _ eq_refl E2)|].
  apply (andthen_settled _ _ d); [exact (present_settled (OpJointRamping l p rt (Some v)) _ v _ _ eq_refl E3)|
                                  exact (present_settled (OpJointRamping l p rt (Some v)) _ v _ _ eq_refl E)].
Qed.

Lemma joint_ramping_inv c l p rt v m' m x : upheld_at c (OpJointRamping l p rt v) m' m x ->
  owned m /\ m_cfg m = c /\ owned m' /\ check_reg_ramp m' l = None /\
  exists rates, fast_start_adjust (map (fun r => Ramp (rg_unit r) "" (rg_init r) (rg_up r) (rg_down r)) l)
            rt p (c_interval c) = Ok rates
  /\ let h := c_interval c in let vs := rows_or_nil (m_bids m') in
     let ra := reg_limits vs "raise_reg" rr_up rates in let la := reg_limits vs "lower_reg" rr_down rates in
     (jr_ordinary m ra <> [] -> exists n, unit_group_at "joint_ramping_raise_reg"
         (joint_ramping_rhs raise_gen raise_load (jr_ordinary m ra) h n)
         (joint_ramping_map raise_gen raise_load (jr_ordinary m ra) n) m x)
  /\ (jr_bdu m ra <> [] -> exists n, unit_group_at "joint_ramping_raise_reg_bdu"
         (reg_bdu_rhs true (jr_bdu m ra) h n) (reg_bdu_map true (jr_bdu m ra) n) m x)
  /\ (jr_ordinary m la <> [] -> exists n, unit_group_at "joint_ramping_lower_reg"
         (joint_ramping_rhs lower_gen lower_load (jr_ordinary m la) h n)
         (joint_ramping_map lower_gen lower_load (jr_ordinary m la) n) m x)
  /\ (jr_bdu m la <> [] -> exists n, unit_group_at "joint_ramping_lower_reg_bdu"
         (reg_bdu_rhs false (jr_bdu m la) h n) (reg_bdu_map false (jr_bdu m la) n) m x).
Proof.
  intros I. apply upheld_at_inv in I. destruct I as [O [C [O' [C' [m1 [St K]]]]]].
  split; [exact O|]. split; [exact C|]. split; [exact O'|].
  cbn [step] in St. unfold set_joint_ramping in St.
  apply guard_ok in St. destruct St as [Ck1 St]. apply guard_ok in St. destruct St as [Ck2 St].
  split; [exact Ck1|].
  destruct (m_bids m') as [vs|] eqn:EB; [|discriminate].
  rewrite C' in St. cbv zeta in St.
  destruct (fast_start_adjust _ rt p (c_interval c)) as [rates|e] eqn:FA; [|discriminate].
  exists rates. split; [reflexivity|].
  assert (B : m_bdu m' = m_bdu m) by (unfold m_bdu; congruence). rewrite B in St.
  intros h vs' ra la. cbn [rows_or_nil] in vs'. subst vs'. fold h in St.
  change (filter (fun r => negb (mem_str (rl_unit r) (m_bdu m))) (reg_limits vs "raise_reg" rr_up rates))
    with (jr_ordinary m ra) in St.
  change (filter (fun r => mem_str (rl_unit r) (m_bdu m)) (reg_limits vs "raise_reg" rr_up rates))
    with (jr_bdu m ra) in St.
  change (filter (fun r => negb (mem_str (rl_unit r) (m_bdu m))) (reg_limits vs "lower_reg" rr_down rates))
    with (jr_ordinary m la) in St.
  change (filter (fun r => mem_str (rl_unit r) (m_bdu m)) (reg_limits vs "lower_reg" rr_down rates))
    with (jr_bdu m la) in St.
  apply andthen_ok in St. destruct St as [m2 [S1 St]].
  apply andthen_ok in St. destruct St as [m3 [S2 St]].
  apply andthen_ok in St. destruct St as [m4 [S3 St]].
  apply andthen_ok in St. destruct St as [m5 [S4 St]]. apply (joint_ramping_settled l p rt) in St.
  destruct (new_if_is _ _ _ _ _ _ O' (joint_ramping_ok _ _ _ _) S1) as [O2 [G1 K1]].
  destruct (new_if_is _ _ _ _ _ _ O2 (reg_bdu_ok _ _ _) S2) as [O3 [G2 K2]].
  destruct (new_if_is _ _ _ _ _ _ O3 (joint_ramping_ok _ _ _ _) S3) as [O4 [G3 K3]].
  destruct (new_if_is _ _ _ _ _ _ O4 (reg_bdu_ok _ _ _) S4) as [O5 [G4 K4]].
  repeat match goal with |- _ /\ _ => split end; intros N;
    [destruct (G1 N) as [n G]|destruct (G2 N) as [n G]|destruct (G3 N) as [n G]|destruct (G4 N) as [n G]];
    exists n; (apply (K _ m5); [cbn; auto|exact St|]); (eapply unit_group_is_same; [|exact G]).
  - eapply same_group_trans; [apply K2; discriminate|]. eapply same_group_trans; [apply K3; discriminate|]. apply K4; discriminate.
  - eapply same_group_trans; [apply K3; discriminate|]. apply K4; discriminate.
  - apply K4; discriminate.
  - apply same_group_refl.
Qed.

(** ** Regulation bidders and their rates *)

Lemma reg_units_has vs s v : In v vs -> bv_service v = s ->
  exists w, In w (reg_units vs s) /\ bv_unit w = bv_unit v /\ bv_dt w = bv_dt v /\ bv_service w = s.
Proof.
  intros H E. 
  destruct (drop_duplicates_repr (fun a b => String.eqb (bv_unit a) (bv_unit b) && String.eqb (bv_dt a) (bv_dt b))
     (filter (fun v => String.eqb (bv_service v) s) vs) v) as [w [Hw Ew]].
  - intros a b E1 d E2. apply andb_true_iff in E1, E2. rewrite !String.eqb_eq in *.
    destruct E1, E2. apply andb_true_iff. rewrite !String.eqb_eq. split; congruence.
  - intros. now rewrite !String.eqb_refl.
  - intros a b E1. now rewrite (String.eqb_sym (bv_unit b)), (String.eqb_sym (bv_dt b)).
  - apply filter_In. split; [exact H|]. now apply String.eqb_eq.
  - exists w. split; [exact Hw|]. apply andb_true_iff in Ew. rewrite !String.eqb_eq in Ew.
    unfold reg_units in Hw. apply drop_duplicates_incl in Hw. apply filter_In in Hw. rewrite String.eqb_eq in Hw.
    intuition congruence.
Qed.

Lemma reg_limits_has vs s rate rates v r : In v vs -> bv_service v = s -> In r rates -> rr_unit r = bv_unit v ->
  In (RegLimit (bv_unit v) (bv_dt v) s (rate r) (rr_init r)) (reg_limits vs s rate rates).
Proof.
  intros H E Hr Er. destruct (reg_units_has vs s v H E) as [w [Hw [E1 [E2 E3]]]].
  unfold reg_limits. apply in_map_iff. exists (w, r). split; [now rewrite E1, E2, E3|].
  apply in_merge. split; [exact Hw|]. split; [exact Hr|]. apply String.eqb_eq. congruence.
Qed.

Lemma reg_limits_inv vs s rate rates a : In a (reg_limits vs s rate rates) ->
  rl_service a = s /\ exists v r, In v vs /\ bv_service v = s /\ In r rates /\ rr_unit r = rl_unit a
    /\ bv_unit v = rl_unit a /\ bv_dt v = rl_dt a /\ rl_rate a = rate r /\ rl_init a = rr_init r.
Proof.
  intros H. unfold reg_limits in H. apply in_map_iff in H. destruct H as [[v r] [<- H]].
  apply in_merge in H. destruct H as [H1 [H2 H3]]. apply String.eqb_eq in H3.
  unfold reg_units in H1. apply drop_duplicates_incl in H1. apply filter_In in H1. destruct H1 as [H1 H4].
  apply String.eqb_eq in H4. cbn. split; [exact H4|]. exists v, r. repeat split; auto.
Qed.

(** ** Ordinary units *)

Lemma registered_dt c u d : check_unit_info c = None -> registered c u d -> d = "generator" \/ d = "load".
Proof.
  intros H [r [Hr [_ <-]]]. unfold check_unit_info in H.
  pose proof (all_rows_in (fun r => mem_str (ui_dt r) allowed_dt) (c_ui c) _ r H ltac:(cbn; auto 10) Hr) as D.
  cbn beta in D. apply mem_str_in in D. cbn in D. intuition.
Qed.

Lemma jr_row sg sl l h n a : In a l -> rl_dt a = "generator" \/ rl_dt a = "load" ->
  exists i,
    let s := if String.eqb (rl_dt a) "generator" then sg else sl in
    In (CRow i (rs_type s) (rl_init a + rs_dir s * (rl_rate a * h / 60)) (KUnitOnly (rl_unit a)))
       (joint_ramping_rhs sg sl l h n)
    /\ at_con i (joint_ramping_map sg sl l n)
       = [UC i (rl_unit a) (rs_service s) (rl_dt a) (rs_coef s); UC i (rl_unit a) "energy" (rl_dt a) 1].
Proof.
  intros H D. destruct (save_index_in n l a H) as [i Hi]. exists i. intros s. split.
  - unfold joint_ramping_rhs, reg_rhs. apply in_or_app.
    destruct D as [D|D]; [left|right]; subst s; rewrite D; cbn [String.eqb Ascii.eqb Bool.eqb];
      (apply in_map_iff; exists (i, a); split; [reflexivity|]; apply filter_In; split; [exact Hi|];
       cbn [snd]; rewrite D; reflexivity).
  - unfold joint_ramping_map, reg_map, side. rewrite !at_con_app.
    rewrite !(rows_at_some _ (fun r => String.eqb (rl_dt r) "generator") n l i a) by (auto; now intros [? ?]).
    rewrite !(rows_at_some _ (fun r => String.eqb (rl_dt r) "load") n l i a) by (auto; now intros [? ?]).
    destruct D as [D|D]; subst s; rewrite D; reflexivity.
Qed.

Lemma joint_ramping_row m x k sg sl l h a : owned m -> In k unit_keys ->
  (exists n, unit_group_at k (joint_ramping_rhs sg sl l h n) (joint_ramping_map sg sl l n) m x) ->
  solution m x -> In a l -> registered (m_cfg m) (rl_unit a) (rl_dt a) ->
  mem_str (rl_unit a) (m_bdu m) = false ->
  let s := if String.eqb (rl_dt a) "generator" then sg else sl in
  rs_service s <> "energy" ->
  offers m (rl_unit a) (rs_service s) (rl_dt a) \/ offers m (rl_unit a) "energy" (rl_dt a) ->
  relation (rs_type s) (dispatch m x (rl_unit a) "energy" (rl_dt a)
                        + rs_coef s * dispatch m x (rl_unit a) (rs_service s) (rl_dt a))
           (rl_init a + rs_dir s * (rl_rate a * h / 60)).
Proof.
  intros O Hk [n G] Sl Ha R NB s NE Of.
  assert (D : rl_dt a = "generator" \/ rl_dt a = "load").
  { now apply (registered_dt (m_cfg m) (rl_unit a)); [apply O|]. }
  destruct (jr_row sg sl l h n a Ha D) as [i Hi]. cbv zeta in Hi. fold s in Hi. destruct Hi as [H1 H2].
  pose proof (rows_hold m x k _ _ _ _ O Hk G Sl H1 H2) as H.
  rewrite !sumQ_cons, sumQ_nil in H. cbn [uc_coef uc_unit uc_service uc_dt cr_type cr_rhs] in H.
  rewrite !(sign_ordinary m) in H by exact NB.
  assert (X : relation (rs_type s) (rs_coef s * (1 * dispatch m x (rl_unit a) (rs_service s) (rl_dt a))
       + (1 * (1 * dispatch m x (rl_unit a) "energy" (rl_dt a)) + 0)) (rl_init a + rs_dir s * (rl_rate a * h / 60))).
  { apply H; [now repeat constructor|somewhere]. }
  assert (V : rs_coef s * (1 * dispatch m x (rl_unit a) (rs_service s) (rl_dt a))
       + (1 * (1 * dispatch m x (rl_unit a) "energy" (rl_dt a)) + 0)
     == dispatch m x (rl_unit a) "energy" (rl_dt a)
                        + rs_coef s * dispatch m x (rl_unit a) (rs_service s) (rl_dt a)) by ring.
  unfold relation in *. rewrite V in X. exact X.
Qed.

(** ** Bidirectional units *)

Lemma bid_dt m v : wf m -> In v (rows_or_nil (m_bids m)) -> bv_dt v = "generator" \/ bv_dt v = "load".
Proof.
  intros W Hv. pose proof (wf_bids m W) as B. unfold bids_wf in B.
  destruct (m_bids m) as [vs|]; [|destruct Hv]. destruct B as [t [n [Ck [_ [E _]]]]]. cbn in Hv. rewrite E in Hv.
  apply in_bid_variables in Hv. destruct Hv as [r [b H]].
  assert (Hr : In r (bt_rows t)) by tauto. unfold check_bids in Ck.
  pose proof (all_rows_in (fun r => mem_str (br_dt r) allowed_dt) (bt_rows t) _ r Ck ltac:(cbn; auto 10) Hr) as D.
  cbn beta in D. apply mem_str_in in D. cbn in D. replace (bv_dt v) with (br_dt r) by (symmetry; tauto). intuition.
Qed.

Lemma reg_limits_unit m' s rate rates q u : wf m' ->
  filter (fun r => String.eqb (rr_unit r) u) rates = [q] -> 
  offers m' u s "generator" -> offers m' u s "load" ->
  Permutation (filter (fun a => String.eqb (rl_unit a) u) (reg_limits (rows_or_nil (m_bids m')) s rate rates))
    [RegLimit u "generator" s (rate q) (rr_init q); RegLimit u "load" s (rate q) (rr_init q)].
Proof.
  intros W F Og Ol. set (vs := rows_or_nil (m_bids m')) in *.
  assert (Hq : In q rates /\ rr_unit q = u).
  { assert (X : In q [q]) by now left. rewrite <- F in X. apply filter_In in X. rewrite String.eqb_eq in X. exact X. }
  apply NoDup_Permutation.
  - apply (NoDup_map_inv rl_dt). apply FOP_NoDup_map. unfold reg_limits. rewrite filter_map_comm.
    apply FOP_map. 
    rewrite (filter_ext _ (fun p : bidvar * ramp_row => String.eqb (bv_unit (fst p)) u)) by (intros [a b]; reflexivity).
    rewrite (merge_filter_l (fun v => String.eqb (bv_unit v) u)).
    assert (FP : ForallOrdPairs (fun a b => bv_dt a <> bv_dt b) (filter (fun v => String.eqb (bv_unit v) u) (reg_units vs s))).
    { pose proof (drop_duplicates_distinct (fun a b => String.eqb (bv_unit a) (bv_unit b) && String.eqb (bv_dt a) (bv_dt b))
        (filter (fun v => String.eqb (bv_service v) s) vs)) as D. fold (reg_units vs s) in D.
      induction D as [|a t H1 H2 IH]; [constructor|]. cbn [filter]. destruct (String.eqb (bv_unit a) u) eqn:Ea; [|exact IH].
      constructor; [|exact IH]. rewrite Forall_forall in *. intros b Hb. apply filter_In in Hb. destruct Hb as [Hb Eb].
      specialize (H1 b Hb). apply String.eqb_eq in Ea, Eb. intros E. rewrite Ea, Eb, E, !String.eqb_refl in H1. discriminate. }
    assert (E : merge (fun v r => String.eqb (bv_unit v) (rr_unit r)) (filter (fun v => String.eqb (bv_unit v) u) (reg_units vs s)) rates
       = map (fun v => (v, q)) (filter (fun v => String.eqb (bv_unit v) u) (reg_units vs s))).
    { clear FP. induction (reg_units vs s) as [|a t IH]; [reflexivity|]. cbn [filter].
      destruct (String.eqb (bv_unit a) u) eqn:Ea; [|exact IH]. unfold merge in *. cbn [flat_map map]. rewrite IH.
      apply String.eqb_eq in Ea. rewrite Ea. rewrite (filter_ext _ (fun r => String.eqb (rr_unit r) u)) by (intros; apply String.eqb_sym).
      rewrite F. reflexivity. }
    rewrite E. apply FOP_map. exact FP.
  - repeat constructor; cbn; intuition discriminate.
  - intros a. rewrite filter_In, String.eqb_eq. split.
    + intros [Ha Eu]. apply reg_limits_inv in Ha. destruct Ha as [E1 [v [r [Hv [E2 [Hr [E3 [E4 [E5 [E6 E7]]]]]]]]]].
      assert (r = q). { assert (X : In r [q]). { rewrite <- F. apply filter_In. rewrite String.eqb_eq. split; congruence. }
        destruct X as [<-|[]]. reflexivity. }
      subst r. destruct a as [au ad asv ar ai]. cbn in *. subst.
      destruct (bid_dt m' v W Hv) as [->| ->]; [left|right; left]; reflexivity.
    + destruct Hq as [Hq Eq]. intros [<-|[<-|[]]]; (split; [|reflexivity]).
      * destruct Og as [v [Hv [<- [Es Ed]]]]. rewrite <- Ed. apply reg_limits_has; auto.
      * destruct Ol as [v [Hv [<- [Es Ed]]]]. rewrite <- Ed. apply reg_limits_has; auto.
Qed.

Lemma relation_ext ty a b r : a == b -> relation ty a r -> relation ty b r.
Proof. intros E. unfold relation. now rewrite E. Qed.

Lemma sumQ_permutation {A} (f : A -> Q) l l' : Permutation l l' -> sumQ f l == sumQ f l'.
Proof.
  induction 1; [reflexivity| | |].
  - rewrite !sumQ_cons, IHPermutation. reflexivity.
  - rewrite !sumQ_cons. ring.
  - etransitivity; eauto.
Qed.

Lemma reg_bdu_row b l h n u rate init s :
  Permutation (filter (fun a => String.eqb (rl_unit a) u) l)
    [RegLimit u "generator" s rate init; RegLimit u "load" s rate init] ->
  exists i, In (CRow i (if b : bool then "<=" else ">=")
         (if b then init + (rate * h / 60) else init - (rate * h / 60)) (KUnitOnly u)) (reg_bdu_rhs b l h n)
    /\ Permutation (at_con i (reg_bdu_map b l n))
       [UC i u s "generator" (if b then 1 else -(1)); UC i u s "load" (if b then 1 else -(1));
        UC i u "energy" "generator" 1; UC i u "energy" "load" 1].
Proof.
  intros P.
  assert (Hg : In (RegLimit u "generator" s rate init) l).
  { assert (X : In (RegLimit u "generator" s rate init) (filter (fun a => String.eqb (rl_unit a) u) l)).
    { eapply Permutation_in; [symmetry; exact P|]. now left. }
    apply filter_In in X. tauto. }
  assert (Hd : exists r, In r (drop_duplicates (fun a b => String.eqb (rl_unit a) (rl_unit b)) l)
     /\ rl_unit r = u /\ rl_rate r = rate /\ rl_init r = init).
  { destruct (drop_duplicates_repr (fun a b => String.eqb (rl_unit a) (rl_unit b)) l (RegLimit u "generator" s rate init))
      as [r [Hr E]]; auto.
    { intros a b' E1 d E2. rewrite String.eqb_eq in *. congruence. }
    { intros; apply String.eqb_refl. }
    { intros a b' E1. now rewrite String.eqb_sym. }
    exists r. split; [exact Hr|]. cbn in E.
    assert (X : In r (filter (fun a => String.eqb (rl_unit a) u) l)).
    { apply filter_In. split; [|exact E]. now apply drop_duplicates_incl in Hr. }
    eapply Permutation_in in X; [|exact P]. destruct X as [<-|[<-|[]]]; auto. }
  destruct Hd as [r [Hr [E1 [E2 E3]]]]. destruct (save_index_in n _ r Hr) as [i Hi].
  fold (reg_bdu_ids l n) in Hi. exists i. split.
  - unfold reg_bdu_rhs. apply in_map_iff. exists (i, r). rewrite E1, E2, E3. auto.
  - unfold reg_bdu_map. rewrite at_con_app. unfold at_con. rewrite !filter_map_comm. cbn [uc_con].
    rewrite (merge_filter_l (fun q : nat * reg_limit => Nat.eqb (fst q) i)).
    unfold reg_bdu_ids. rewrite (filter_save_index n _ i r Hi), merge_one_l. cbn [snd]. rewrite E1.
    rewrite (filter_ext _ (fun a => String.eqb (rl_unit a) u)) by (intros; apply String.eqb_sym).
    rewrite !map_map. cbn [fst snd]. rewrite E1.
    change [UC i u s "generator" (if b then 1 else - (1)); UC i u s "load" (if b then 1 else - (1)); 
       UC i u "energy" "generator" 1; UC i u "energy" "load" 1]
    with ([UC i u s "generator" (if b then 1 else - (1)); UC i u s "load" (if b then 1 else - (1))] ++ 
       [UC i u "energy" "generator" 1; UC i u "energy" "load" 1]).
    apply Permutation_app.
    + exact (Permutation_map (fun a => UC i u (rl_service a) (rl_dt a) (if b then 1 else -(1))) P).
    + exact (Permutation_map (fun a => UC i u "energy" (rl_dt a) 1) P).
Qed.

Lemma joint_ramping_bdu_row m x k b l h u rate init s : owned m -> In k unit_keys ->
  (exists n, unit_group_at k (reg_bdu_rhs b l h n) (reg_bdu_map b l n) m x) ->
  solution m x -> s <> "energy" -> two_sided (m_cfg m) u ->
  Permutation (filter (fun a => String.eqb (rl_unit a) u) l)
    [RegLimit u "generator" s rate init; RegLimit u "load" s rate init] ->
  (exists s' d, (s' = s \/ s' = "energy") /\ (d = "generator" \/ d = "load") /\ offers m u s' d) ->
  let reg := dispatch m x u s "generator" + dispatch m x u s "load" in
  if b then net_energy m x u + reg <= init + rate * h / 60
  else init - rate * h / 60 <= net_energy m x u - reg.
Proof.
  intros O Hk [n G] Sl NE T P Of reg. destruct (reg_bdu_row b l h n u rate init s P) as [i [H1 H2]].
  pose proof (rows_hold m x k _ _ _ _ O Hk G Sl H1 eq_refl) as H. cbn [cr_type cr_rhs cr_id] in H.
  assert (V := sumQ_permutation (fun c => uc_coef c * (load_sign m (uc_unit c) (uc_service c) (uc_dt c)
                                 * dispatch m x (uc_unit c) (uc_service c) (uc_dt c))) _ _ H2).
  pose proof T as [Rg Rl]. apply (bdu_true _ _ m (proj1 O) eq_refl) in T.
  rewrite !sumQ_cons, sumQ_nil in V. cbn [uc_coef uc_unit uc_service uc_dt] in V.
  rewrite !sign_gen, (sign_load m u T), !(sign_fcas m u s) in V by exact NE.
  match type of H with ?A -> ?B -> _ => assert (HA : A); [|assert (HB : B)] end.
  - rewrite Forall_forall. intros c Hc. eapply Permutation_in in Hc; [|exact H2].
    destruct Hc as [<-|[<-|[<-|[<-|[]]]]]; assumption.
  - assert (X : Exists (fun c => offers m (uc_unit c) (uc_service c) (uc_dt c))
      [UC i u s "generator" (if b then 1 else -(1)); UC i u s "load" (if b then 1 else -(1));
        UC i u "energy" "generator" 1; UC i u "energy" "load" 1]).
    { destruct Of as [s' [d [[->| ->] [[->| ->] Of]]]]; somewhere. }
    apply Exists_exists in X. destruct X as [c [Hc X]]. apply Exists_exists. exists c.
    split; [eapply Permutation_in; [symmetry; exact H2|exact Hc]|exact X].
  - specialize (H HA HB). apply (relation_ext _ _ _ _ V) in H. clear V HA HB.
    unfold net_energy, reg. destruct b; [apply relation_le in H|apply relation_ge in H]; lra.
Qed.

(** ** C12 *)

Lemma rate_rows m' l r : check_reg_ramp m' l = None -> In r l ->
  filter (fun q => String.eqb (rr_unit q) (rg_unit r))
    (map (fun r => Ramp (rg_unit r) "" (rg_init r) (rg_up r) (rg_down r)) l)
  = [Ramp (rg_unit r) "" (rg_init r) (rg_up r) (rg_down r)].
Proof.
  intros Ck Hr. unfold check_reg_ramp in Ck. rewrite filter_map_comm. cbn [rr_unit].
  rewrite (unique_filter _ (fun a b => String.eqb (rg_unit a) (rg_unit b)) l r); auto.
  - apply (no_repeats_in (fun a b => String.eqb (rg_unit a) (rg_unit b)) l _ Ck). cbn; auto.
  - intros a b _ _ Ea Eb. eapply eqb_both; eauto.
  - apply String.eqb_refl.
Qed.

Lemma in_jr_ordinary m l a : In a l -> mem_str (rl_unit a) (m_bdu m) = false -> In a (jr_ordinary m l).
Proof. intros H1 H2. apply filter_In. now rewrite H2. Qed.

Lemma filter_jr_bdu m l u : mem_str u (m_bdu m) = true ->
  filter (fun a => String.eqb (rl_unit a) u) (jr_bdu m l) = filter (fun a => String.eqb (rl_unit a) u) l.
Proof.
  intros H. unfold jr_bdu. induction l as [|a t IH]; [reflexivity|]. cbn.
  destruct (String.eqb (rl_unit a) u) eqn:E1.
  - apply String.eqb_eq in E1. rewrite E1, H. cbn. rewrite E1, String.eqb_refl. congruence.
  - destruct (mem_str (rl_unit a) (m_bdu m)); cbn; rewrite ?E1; exact IH.
Qed.

Lemma not_nil_in {A} (a : A) l : In a l -> l <> [].
Proof. intros H ->. destruct H. Qed.

(** What holds for any run type, in terms of the adjusted rates [q]. *)
Lemma joint_ramping_rates c l p rt w m' m x rates q :
  upheld_at c (OpJointRamping l p rt w) m' m x -> solution m x ->
  fast_start_adjust (map (fun r => Ramp (rg_unit r) "" (rg_init r) (rg_up r) (rg_down r)) l) rt p (c_interval c) = Ok rates ->
  filter (fun r => String.eqb (rr_unit r) (rr_unit q)) rates = [q] ->
  let u := rr_unit q in let h := c_interval c in
  (forall d, ~ two_sided c u -> registered c u d ->
     let e := dispatch m x u "energy" d in
     (offers m' u "raise_reg" d -> offers m u "raise_reg" d \/ offers m u "energy" d ->
      let rr := dispatch m x u "raise_reg" d in
      if String.eqb d "generator" then e + rr <= rr_init q + rr_up q * h / 60
      else rr_init q - rr_up q * h / 60 <= e - rr)
     /\ (offers m' u "lower_reg" d -> offers m u "lower_reg" d \/ offers m u "energy" d ->
      let lr := dispatch m x u "lower_reg" d in
      if String.eqb d "generator" then rr_init q - rr_down q * h / 60 <= e - lr
      else e + lr <= rr_init q + rr_down q * h / 60))
  /\ (two_sided c u ->
     let e := net_energy m x u in
     let total s := dispatch m x u s "generator" + dispatch m x u s "load" in
     (offers m' u "raise_reg" "generator" -> offers m' u "raise_reg" "load" ->
      (exists s d, (s = "raise_reg" \/ s = "energy") /\ (d = "generator" \/ d = "load") /\ offers m u s d) ->
      e + total "raise_reg" <= rr_init q + rr_up q * h / 60)
     /\ (offers m' u "lower_reg" "generator" -> offers m' u "lower_reg" "load" ->
      (exists s d, (s = "lower_reg" \/ s = "energy") /\ (d = "generator" \/ d = "load") /\ offers m u s d) ->
      rr_init q - rr_down q * h / 60 <= e - total "lower_reg")).
Proof.
  intros I Sl FA F u h. destruct (joint_ramping_inv _ _ _ _ _ _ _ _ I) as [O [C [O' [Ck [rates' [FA' G]]]]]].
  rewrite FA in FA'. inversion FA'; subst rates'. clear FA'. cbv zeta in G. fold h in G.
  set (ra := reg_limits (rows_or_nil (m_bids m')) "raise_reg" rr_up rates) in *.
  set (la := reg_limits (rows_or_nil (m_bids m')) "lower_reg" rr_down rates) in *.
  destruct G as [G1 [G2 [G3 G4]]].
  assert (Hq : In q rates).
  { assert (X : In q [q]) by now left. rewrite <- F in X. apply filter_In in X. tauto. }
  split.
  - intros d N2 R e. pose proof (bdu_false c _ m (proj1 O) C N2) as NB. rewrite <- C in R.
    assert (D : d = "generator" \/ d = "load") by (eapply registered_dt; [apply O|exact R]).
    split; intros [v [Hv [V1 [V2 V3]]]] Of.
    + assert (Hl : In (RegLimit u d "raise_reg" (rr_up q) (rr_init q)) (jr_ordinary m ra)).
      { apply in_jr_ordinary; [|exact NB]. rewrite <- V1, <- V3. apply reg_limits_has; auto. }
      pose proof (joint_ramping_row m x "joint_ramping_raise_reg" _ _ _ _ _ O ltac:(cbn; auto 30) (G1 (not_nil_in _ _ Hl)) Sl Hl R NB) as H.
      cbn [rl_unit rl_dt rl_service rl_rate rl_init] in H. intros rr.
      destruct D as [-> | ->]; cbn [String.eqb Ascii.eqb Bool.eqb rs_service rs_coef rs_dir rs_type raise_gen raise_load lower_gen lower_load] in H |- *;
        specialize (H ltac:(discriminate) Of); rewrite ?relation_le, ?relation_ge in H; unfold e, rr; lra.
    + assert (Hl : In (RegLimit u d "lower_reg" (rr_down q) (rr_init q)) (jr_ordinary m la)).
      { apply in_jr_ordinary; [|exact NB]. rewrite <- V1, <- V3. apply reg_limits_has; auto. }
      pose proof (joint_ramping_row m x "joint_ramping_lower_reg" _ _ _ _ _ O ltac:(cbn; auto 30) (G3 (not_nil_in _ _ Hl)) Sl Hl R NB) as H.
      cbn [rl_unit rl_dt rl_service rl_rate rl_init] in H. intros lr.
      destruct D as [-> | ->]; cbn [String.eqb Ascii.eqb Bool.eqb rs_service rs_coef rs_dir rs_type raise_gen raise_load lower_gen lower_load] in H |- *;
        specialize (H ltac:(discriminate) Of); rewrite ?relation_le, ?relation_ge in H; unfold e, lr; lra.
  - intros T e total. rewrite <- C in T. pose proof (bdu_true _ _ m (proj1 O) eq_refl T) as B.
    split; intros Og Ol Of.
    + pose proof (reg_limits_unit m' "raise_reg" rr_up rates q u (proj1 O') F Og Ol) as P. fold ra in P.
      rewrite <- (filter_jr_bdu m ra u B) in P.
      assert (N : jr_bdu m ra <> []).
      { intros E. rewrite E in P. cbn in P. apply Permutation_nil in P. discriminate. }
      exact (joint_ramping_bdu_row m x "joint_ramping_raise_reg_bdu" true _ h u _ _ "raise_reg" O ltac:(cbn; auto 30) (G2 N) Sl ltac:(discriminate) T P Of).
    + pose proof (reg_limits_unit m' "lower_reg" rr_down rates q u (proj1 O') F Og Ol) as P. fold la in P.
      rewrite <- (filter_jr_bdu m la u B) in P.
      assert (N : jr_bdu m la <> []).
      { intros E. rewrite E in P. cbn in P. apply Permutation_nil in P. discriminate. }
      exact (joint_ramping_bdu_row m x "joint_ramping_lower_reg_bdu" false _ h u _ _ "lower_reg" O ltac:(cbn; auto 30) (G4 N) Sl ltac:(discriminate) T P Of).
Qed.

Lemma joint_ramping_upheld c l p v m' m x :
  upheld_at c (OpJointRamping l p "no_fast_start_units" v) m' m x -> solution m x ->
  forall r, In r l ->
  let u := rg_unit r in let h := c_interval c in
  (forall d, ~ two_sided c u -> registered c u d ->
     let e := dispatch m x u "energy" d in
     (offers m' u "raise_reg" d -> offers m u "raise_reg" d \/ offers m u "energy" d ->
      let rr := dispatch m x u "raise_reg" d in
      if String.eqb d "generator" then e + rr <= rg_init r + rg_up r * h / 60
      else rg_init r - rg_up r * h / 60 <= e - rr)
     /\ (offers m' u "lower_reg" d -> offers m u "lower_reg" d \/ offers m u "energy" d ->
      let lr := dispatch m x u "lower_reg" d in
      if String.eqb d "generator" then rg_init r - rg_down r * h / 60 <= e - lr
      else e + lr <= rg_init r + rg_down r * h / 60))
  /\ (two_sided c u ->
     let e := net_energy m x u in
     let total s := dispatch m x u s "generator" + dispatch m x u s "load" in
     (offers m' u "raise_reg" "generator" -> offers m' u "raise_reg" "load" ->
      (exists s d, (s = "raise_reg" \/ s = "energy") /\ (d = "generator" \/ d = "load") /\ offers m u s d) ->
      e + total "raise_reg" <= rg_init r + rg_up r * h / 60)
     /\ (offers m' u "lower_reg" "generator" -> offers m' u "lower_reg" "load" ->
      (exists s d, (s = "lower_reg" \/ s = "energy") /\ (d = "generator" \/ d = "load") /\ offers m u s d) ->
      rg_init r - rg_down r * h / 60 <= e - total "lower_reg")).
Proof.
  intros I Sl r Hr. destruct (joint_ramping_inv _ _ _ _ _ _ _ _ I) as [O [C [O' [Ck _]]]].
  exact (joint_ramping_rates c l p _ _ m' m x _ (Ramp (rg_unit r) "" (rg_init r) (rg_up r) (rg_down r)) I Sl eq_refl (rate_rows m' l r Ck Hr)).
Qed.

Lemma joint_ramping_respected c l p m' m x :
  in_force_at c (OpJointRamping l p "no_fast_start_units" None) m' m -> solution m x ->
  forall r, In r l ->
  let u := rg_unit r in let h := c_interval c in
  (forall d, ~ two_sided c u -> registered c u d ->
     let e := dispatch m x u "energy" d in
     (offers m' u "raise_reg" d -> offers m u "raise_reg" d \/ offers m u "energy" d ->
      let rr := dispatch m x u "raise_reg" d in
      if String.eqb d "generator" then e + rr <= rg_init r + rg_up r * h / 60
      else rg_init r - rg_up r * h / 60 <= e - rr)
     /\ (offers m' u "lower_reg" d -> offers m u "lower_reg" d \/ offers m u "energy" d ->
      let lr := dispatch m x u "lower_reg" d in
      if String.eqb d "generator" then rg_init r - rg_down r * h / 60 <= e - lr
      else e + lr <= rg_init r + rg_down r * h / 60))
  /\ (two_sided c u ->
     let e := net_energy m x u in
     let total s := dispatch m x u s "generator" + dispatch m x u s "load" in
     (offers m' u "raise_reg" "generator" -> offers m' u "raise_reg" "load" ->
      (exists s d, (s = "raise_reg" \/ s = "energy") /\ (d = "generator" \/ d = "load") /\ offers m u s d) ->
      e + total "raise_reg" <= rg_init r + rg_up r * h / 60)
     /\ (offers m' u "lower_reg" "generator" -> offers m' u "lower_reg" "load" ->
      (exists s d, (s = "lower_reg" \/ s = "energy") /\ (d = "generator" \/ d = "load") /\ offers m u s d) ->
      rg_init r - rg_down r * h / 60 <= e - total "lower_reg")).
Proof. intros I. exact (joint_ramping_upheld c l p None m' m x (or_introl (conj I eq_refl))). Qed.
