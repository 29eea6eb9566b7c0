(** A second call of the same method replaces the first: C25. *)

From Coq Require Import QArith Lqa String List Bool Arith Lia ZArith Permutation.
Import ListNotations.
From Verif Require Import PandasModel TablesModel VariableIdsModel MarketConstraintsModel
  UnitConstraintsModel RampModel FcasModel InterModel ElasticModel MarketModel SolverModel
  SpecLp SpecHistory SpecElastic SpecReplace PandasFacts StepFacts InvariantFacts OwnerFacts MeaningFacts LimitFacts
  DeficitFacts ElasticStateFacts BuildFacts RenumberFacts ShiftFacts PlanFacts LockstepFacts.
Open Scope string_scope.
Open Scope list_scope.

(** ** All numbers of a reached market are below its counters *)

Lemma uv_lt m r : wf m -> In r (rows_or_nil (m_unit_bids m)) -> (uv_id r < m_nv m)%nat.
Proof.
  intros W H. destruct (bids_tables m W) as [vs [E1 [_ E2]]]. rewrite E2 in H. unfold bid_unit_map in H.
  apply in_map_iff in H. destruct H as [[b u] [<- H]]. cbn.
  apply in_merge in H. destruct H as [H _]. rewrite <- E1 in H.
  destruct (m_bids m) as [l|] eqn:E; [|destruct H]. now apply (bid_ids_lt m l).
Qed.

Lemma rv_lt m r : wf m -> tidy m -> In r (regional_vars m) -> (rv_id r < m_nv m)%nat.
Proof.
  intros W T H. unfold regional_vars in H. rewrite !in_app_iff in H. destruct H as [H|[H|H]].
  - destruct (bids_tables m W) as [vs [E1 [E2 _]]]. rewrite E2 in H. unfold bid_regional_map in H.
    apply in_map_iff in H. destruct H as [[b u] [<- H]]. cbn.
    apply in_merge in H. destruct H as [H _]. rewrite <- E1 in H.
    destruct (m_bids m) as [l|] eqn:E; [|destruct H]. now apply (bid_ids_lt m l).
  - apply in_map_iff in H. destruct H as [q [<- H]].
    pose proof (wf_inter m W) as I. unfold inter_wf in I. destruct (m_directions m) as [l|].
    + destruct I as [_ [n [E1 E2]]]. rewrite E2 in H. cbn [rows_or_nil] in H.
      assert (exists v, In v (inter_variables l n) /\ iv_id v = rv_id (ir_rv q)) as [v [Hv <-]].
      { unfold inter_regional_map in H. apply in_app_or in H.
        destruct H as [H|H]; apply in_map_iff in H; destruct H as [[i d] [<- H]];
          (exists (InterVar (in_inter d) (in_link d) i (in_min d) (in_max d) (in_gcf d)); split;
           [apply in_map_iff; exists (i, d); auto|reflexivity]). }
      now apply (inter_ids_lt m (inter_variables l n)).
    + destruct I as [_ E]. rewrite E in H. destruct H.
  - apply (td_vars m T). unfold table_vars. rewrite !in_app_iff. right. right. now apply in_map.
Qed.

Lemma market_vars_lt m i : wf m -> In i (market_vars m) -> (i < m_nv m)%nat.
Proof.
  intros W H. apply (wf_vars m W). unfold market_vars, var_ids in *. rewrite !in_app_iff in *. tauto.
Qed.

Lemma fixed_below m n v d e : owned m -> tidy m -> m_nc m = Some n -> m_nv m = v -> fixed (up n d) (up v e) m.
Proof.
  intros [W [f [n' O]]] T N <-. assert (n' = n) by (rewrite (ow_nc _ _ _ O) in N; congruence). subst n'.
  constructor.
  - intros x Hx. apply up_low, market_vars_lt; auto. unfold market_vars. rewrite !in_app_iff. left. now apply in_map.
  - intros x Hx. apply up_low, market_vars_lt; auto. unfold market_vars. rewrite !in_app_iff. right; left. now apply in_map.
  - intros x Hx. apply up_low, market_vars_lt; auto. unfold market_vars. rewrite !in_app_iff. right; right; left. now apply in_map.
  - intros x Hx. apply up_low, market_vars_lt; auto. unfold market_vars. rewrite !in_app_iff. right; right; right. now apply in_map.
  - intros x Hx. apply up_low, rv_lt; auto.
  - intros x Hx. apply up_low, uv_lt; auto.
  - intros x Hx. split; apply up_low.
    + now apply (ow_dyn _ _ _ O).
    + apply (td_vars m T). unfold table_vars. rewrite !in_app_iff. right; left. now apply in_map.
  - intros x Hx. apply up_low. apply (td_vars m T). unfold table_vars. rewrite !in_app_iff. left. now apply in_map.
Qed.

Lemma fixed_plain rho sigma m2 m : plain m2 m -> fixed rho sigma m -> fixed rho sigma m2.
Proof.
  intros [] [A B C D E F G H]. constructor; unfold regional_vars in *.
  all: rewrite ?pl_bids, ?pl_inter, ?pl_loss, ?pl_weights, ?pl_reg_bids, ?pl_reg_inter, ?pl_reg_loss, ?pl_unit_bids, ?pl_dyn, ?pl_obj_bids; auto.
Qed.

Lemma map_id_in {A} (f : A -> A) l : (forall x, In x l -> f x = x) -> map f l = l.
Proof. intros H. rewrite (map_ext_in f (fun x => x)) by auto. apply map_id. Qed.

Lemma dget_in {A} k (d : dict A) v : dget k d = Some v -> In (k, v) d.
Proof.
  induction d as [|[k' v'] t IH]; cbn; [discriminate|]. destruct (String.eqb k k') eqn:E; [|auto].
  apply String.eqb_eq in E. intros [= ->]. subst. now left.
Qed.

Lemma dget_fixed {A} (f : A -> A) k (d : dict (list A)) : (forall key l x, In (key, l) d -> In x l -> f x = x) ->
  dget k d = option_map (map f) (dget k d).
Proof.
  intros H. destruct (dget k d) as [l|] eqn:E; cbn; [|reflexivity]. f_equal. symmetry. apply map_id_in. intros x Hx. eapply H; [apply dget_in; eauto|auto].
Qed.

Section Below.
  Variables (m : market) (n v d e : nat).
  Hypothesis O : owned m.
  Hypothesis T : tidy m.
  Hypothesis N : m_nc m = Some n.
  Hypothesis V : m_nv m = v.

  Lemma below_own : exists f, own f n m.
  Proof. destruct O as [_ [f [n' X]]]. rewrite (ow_nc _ _ _ X) in N. injection N as ->. eauto. Qed.

  Lemma tables_below k m' : same_tables k m' m -> agree_tables (up n d) (up v e) k m' m.
  Proof.
    destruct below_own as [f X]. intros [A1 [A2 [A3 [A4 A5]]]]. unfold agree_tables. rewrite A1, A2, A3, A4. repeat split.
    - apply dget_fixed. intros key l [i t q kk] H1 H2. unfold ren_c. cbn. rewrite up_low; [reflexivity|]. apply (ow_rhs _ _ _ X key l _ H1 H2).
    - apply dget_fixed. intros key l [i t q kk] H1 H2. unfold ren_c. cbn. rewrite up_low; [reflexivity|]. apply (ow_mrhs _ _ _ X key l _ H1 H2).
    - apply dget_fixed. intros key l [i u s dt q] H1 H2. unfold ren_uc. cbn. rewrite up_low; [reflexivity|]. apply (ow_unit _ _ _ X key l _ H1 H2).
    - apply dget_fixed. intros key l [i u s q] H1 H2. unfold ren_rc. cbn. rewrite up_low; [reflexivity|]. apply (ow_reg _ _ _ X key l _ H1 H2).
    - intros Hk. rewrite A5 by auto. apply dget_fixed. intros key l [i u q] H1 H2. unfold ren_l. cbn. rewrite !up_low; [reflexivity| |].
      + subst v. apply (td_lhs m T key l _ H1 H2).
      + apply (ow_lhs _ _ _ X key l _ H1 H2).
  Qed.

  Lemma deficits_below key m' : same_deficits key m' m -> agree_deficits (up n d) (up v e) key m' m.
  Proof.
    destruct below_own as [f X]. intros [A1 [A2 A3]]. unfold agree_deficits. rewrite A1, A2. repeat split.
    - apply dget_fixed. intros k' l [i lb ub] H1 H2. unfold ren_d. cbn. rewrite up_low; [reflexivity|]. subst v. apply (def_lt m i (proj1 O)). exact (in_def_ids m k' l _ H1 H2).
    - apply dget_fixed. intros k' l [i q] H1 H2. unfold ren_k. cbn. rewrite up_low; [reflexivity|]. subst v. apply (td_cost m T k' l _ H1 H2).
    - intros Hk. rewrite A3 by auto. apply dget_fixed. intros k' l [i u q] H1 H2. unfold ren_l. cbn. rewrite !up_low; [reflexivity| |].
      + subst v. apply (td_lhs m T k' l _ H1 H2).
      + apply (ow_lhs _ _ _ X k' l _ H1 H2).
  Qed.

  Lemma others_below k m' : same_others k m' m -> agree_others (up n d) k m' m.
  Proof.
    destruct below_own as [f X]. intros [A1 [A2 A3]]. unfold agree_others. split; [|split].
    - intros H. rewrite A1 by auto. apply dget_fixed. intros key l [i t q kk] H1 H2. unfold ren_c. cbn. rewrite up_low; [reflexivity|]. apply (ow_rhs _ _ _ X key l _ H1 H2).
    - intros H. destruct (A2 H) as [-> ->]. split; apply dget_fixed.
      + intros key l [i t q kk] H1 H2. unfold ren_c. cbn. rewrite up_low; [reflexivity|]. apply (ow_mrhs _ _ _ X key l _ H1 H2).
      + intros key l [i u s q] H1 H2. unfold ren_rc. cbn. rewrite up_low; [reflexivity|]. apply (ow_reg _ _ _ X key l _ H1 H2).
    - intros H. rewrite A3 by auto. apply dget_fixed. intros key l [i u s dt q] H1 H2. unfold ren_uc. cbn. rewrite up_low; [reflexivity|]. apply (ow_unit _ _ _ X key l _ H1 H2).
  Qed.

  (** New rows are not among the old ones. *)
  Lemma fresh_group k g r m' : group m' k = Some g -> In r g -> (n <= cr_id r)%nat -> group m' k <> group m k.
  Proof.
    destruct below_own as [f X]. intros G Hr L E. rewrite G in E. symmetry in E. unfold group in E.
    assert (cr_id r < n)%nat; [|lia]. destruct (dget k (m_mrhs m)) as [g'|] eqn:E1.
    - injection E as ->. apply (ow_mrhs _ _ _ X k g r); auto. now apply dget_in.
    - apply (ow_rhs _ _ _ X k g r); auto. now apply dget_in.
  Qed.

  Lemma fresh_violations k ds d0 m' : dget (deficit_key k) (m_deficits m') = Some ds -> In d0 ds -> (v <= df_id d0)%nat ->
    violation_vars m' k <> violation_vars m k.
  Proof.
    intros G Hd L E. unfold violation_vars in E. change (k ++ "_deficit")%string with (deficit_key k) in E. rewrite G in E. cbn [rows_or_nil] in E.
    assert (H : In (df_id d0) (map df_id ds)) by now apply in_map. rewrite E in H. apply in_map_iff in H. destruct H as [d1 [E1 H]].
    destruct (dget (deficit_key k) (m_deficits m)) as [l|] eqn:E2; [|destruct H]. cbn in H.
    assert (df_id d1 < m_nv m)%nat by (apply (def_lt m _ (proj1 O)); exact (in_def_ids m _ l _ (dget_in _ _ _ E2) H)). lia.
  Qed.
End Below.

(** ** The second call *)

Lemma plan_keys o m ws fs : plan o m = Some (ws, fs) ->
  (forall w, In w ws -> In (wkey w) (touches o)) /\ (forall f, In f fs -> In (fl_key f) (touches o)).
Proof.
  intros H.
  assert (FO : forall k (c : option vcost) f, In f (flex_opt k c) -> fl_key f = k).
  { intros k c f Hf. destruct c; cbn in Hf; [destruct Hf as [<-|[]]; reflexivity|destruct Hf]. }
  assert (WI : forall A (l : list A) w w', In w (w_if l w') -> w = w').
  { intros A l w w' Hw. destruct l; cbn in Hw; [destruct Hw|]. destruct Hw as [<-|[]]. reflexivity. }
  destruct o; cbn [plan touches] in *; try discriminate H.
  all: try (injection H as <- <-; split; [intros w [<-|[]]; cbn; auto|intros f Hf; rewrite (FO _ _ _ Hf); cbn; auto]).
  - destruct (ramp_step _ _ _ _ _ _); [|discriminate H]. injection H as <- <-. split.
    + intros w [<-|[<-|Hw]]; [cbn; auto..|]. apply in_app_or in Hw. destruct Hw as [Hw|Hw]; apply WI in Hw; subst; cbn; auto 10.
    + intros f Hf. destruct v; cbn in Hf; [|destruct Hf]. cbn. intuition (subst; cbn; auto 10).
  - destruct (fast_start_rhs _ 0); injection H as <- <-; [split; intros ? []|]. split; [intros w [<-|[]]; cbn; auto|intros f Hf; rewrite (FO _ _ _ Hf); cbn; auto].
  - destruct (m_bids m); [|discriminate H]. destruct (fast_start_adjust _ _ _ _); [|discriminate H]. injection H as <- <-. split.
    + intros w Hw. repeat (apply in_app_or in Hw; destruct Hw as [Hw|Hw]); apply WI in Hw; subst; cbn; auto 10.
    + intros f Hf. destruct v; cbn in Hf; [|destruct Hf]. cbn. intuition (subst; cbn; auto 10).
  - destruct (m_obj_bids m); [|discriminate H]. destruct (m_bids m); [|discriminate H]. injection H as <- <-. split.
    + intros w [<-|[]]; cbn; auto.
    + intros f [<-|[]]; cbn; auto.
Qed.

Lemma plan_low o m ws fs sigma : (forall r, In r (rows_or_nil (m_obj_bids m)) -> sigma (ob_var r) = ob_var r) ->
  plan o m = Some (ws, fs) -> Forall (low sigma) ws.
Proof.
  intros V H. apply Forall_forall. intros w Hw. destruct w as [| | |ps]; cbn; auto.
  destruct o; cbn [plan] in H; try discriminate H.
  all: try (injection H as <- <-; destruct Hw as [Hw|[]]; discriminate Hw).
  - destruct (ramp_step _ _ _ _ _ _); [|discriminate H]. injection H as <- <-. destruct Hw as [Hw|[Hw|Hw]]; try discriminate Hw.
    destruct (bdu_ramp_step _ _ _ _); cbn in Hw; intuition discriminate.
  - destruct (fast_start_rhs _ 0); injection H as <- <-; cbn in Hw; intuition discriminate.
  - destruct (m_bids m); [|discriminate H]. destruct (fast_start_adjust _ _ _ _); [|discriminate H]. injection H as <- <-.
    assert (WI : forall A (l : list A) w w', In w (w_if l w') -> w = w').
    { intros A x w w' Hx. destruct x; cbn in Hx; [destruct Hx|]. destruct Hx as [<-|[]]. reflexivity. }
    repeat (apply in_app_or in Hw; destruct Hw as [Hw|Hw]); apply WI in Hw; discriminate Hw.
  - destruct (m_obj_bids m) as [prices|] eqn:EO; [|discriminate H]. destruct (m_bids m) as [vs|] eqn:EB; [|discriminate H]. injection H as <- <-.
    destruct Hw as [Hw|[]]. injection Hw as <-. intros [a b] Hp. unfold tie_pairs in Hp. apply drop_duplicates_incl in Hp. apply filter_In in Hp. destruct Hp as [Hp _].
    apply in_merge in Hp. destruct Hp as [Ha [Hb _]]. cbn [fst snd].
    assert (X : forall t, In t (tie_rows prices vs (c_ui (m_cfg m))) -> sigma (ti_var t) = ti_var t).
    { intros t Ht. unfold tie_rows in Ht. apply in_map_iff in Ht. destruct Ht as [[[o b'] u] [<- Ht]]. cbn.
      apply in_merge in Ht. destruct Ht as [Ht _]. apply in_merge in Ht. destruct Ht as [Ht _]. apply filter_In in Ht. destruct Ht as [Ht _].
      apply V. exact Ht. }
    split; apply X; auto.
Qed.

Lemma reached_next c m o : reached c m -> sane_op o m -> reached c (fst (step o m)).
Proof.
  intros [m0 [ops [H1 [H2 ->]]]] S. exists m0, (ops ++ [o]). split; [auto|]. split.
  - unfold sane in *. apply along_app. split; [auto|]. cbn. auto.
  - rewrite run_app. reflexivity.
Qed.

Lemma reached_keys c m : reached c m -> keys_once m.
Proof.
  intros R. destruct (reached_owned c m R) as [[_ [f [n O]]] _]. pose proof (reached_tidy c m R) as T.
  destruct (ow_keys _ _ _ O) as [A [B [C [D E]]]], (td_keys m T). constructor; auto.
Qed.

Lemma same_method_planned o1 o2 : same_method o1 o2 -> planned o1 /\ planned o2 /\ touches o1 = touches o2.
Proof. destruct o1, o2; cbn; intros H; try contradiction; auto. Qed.

Lemma alike_dispatch rho sigma tau m' m : (forall i j, rho i = rho j -> i = j) -> (forall i j, sigma i = sigma j -> i = j) ->
  (forall i, tau (sigma i) = i) ->
  alike rho sigma m' m -> keys_once m' -> keys_once m -> fixed rho sigma m -> wf m' -> wf m -> same_dispatch m' m.
Proof.
  intros RI SI TS A K' K F W' W.
  assert (MV : market_vars m' = market_vars m).
  { unfold market_vars. now rewrite (al_bids _ _ _ _ A), (al_inter _ _ _ _ A), (al_loss _ _ _ _ A), (al_weights _ _ _ _ A). }
  assert (FX : forall i, In i (market_vars m) -> sigma i = i).
  { intros i Hi. unfold market_vars in Hi. rewrite !in_app_iff in Hi. destruct Hi as [H|[H|[H|H]]]; apply in_map_iff in H; destruct H as [x [<- H]].
    - now apply (fx_bids _ _ _ F). - now apply (fx_inter _ _ _ F). - now apply (fx_loss _ _ _ F). - now apply (fx_weights _ _ _ F). }
  assert (TX : forall i, In i (market_vars m) -> tau i = i).
  { intros i Hi. rewrite <- (FX i Hi) at 1. apply TS. }
  assert (FB : forall p p' x, assemble m = Ok p -> assemble m' = Ok p' -> feasible p x -> feasible p' (fun i => x (tau i))).
  { intros p p' x E E' H. apply (ren_feasible rho sigma RI m' m A K' K F p p' _ W W' E E').
    eapply (feasible_ext m p x); eauto. intros i _. rewrite TS. reflexivity. }
  assert (OB : forall p p' x, assemble m = Ok p -> assemble m' = Ok p' -> objective p' (fun i => x (tau i)) == objective p x).
  { intros p p' x E E'. rewrite (ren_objective rho sigma m' m A K' K F p p' _ E E').
    apply (objective_ext m p); auto. intros i _. rewrite TS. reflexivity. }
  assert (AS := ren_assembles rho sigma RI SI m' m A K' K F W W').
  repeat split; [apply A|apply A|apply A|apply A| |].
  - intros p' E'. destruct (proj2 AS (ex_intro _ p' E')) as [p E]. exists p. split; [exact E|]. split.
    + intros x Hx. exists (fun i => x (sigma i)). split; [now apply (ren_feasible rho sigma RI m' m A K' K F p p' _ W W' E E')|]. split.
      * intros i Hi. rewrite MV in Hi. rewrite FX by auto. reflexivity.
      * symmetry. now apply (ren_objective rho sigma m' m A K' K F p p').
    + intros x [Hx Ho]. exists (fun i => x (sigma i)). split; [split|split].
      * now apply (ren_feasible rho sigma RI m' m A K' K F p p' _ W W' E E').
      * intros z Hz. rewrite <- (ren_objective rho sigma m' m A K' K F p p' x E E'). rewrite <- (OB p p' z E E'). apply Ho. now apply (FB p p').
      * intros i Hi. rewrite MV in Hi. rewrite FX by auto. reflexivity.
      * symmetry. now apply (ren_objective rho sigma m' m A K' K F p p').
  - intros p E. destruct (proj1 AS (ex_intro _ p E)) as [p' E']. exists p'. split; [exact E'|]. split.
    + intros x Hx. exists (fun i => x (tau i)). split; [now apply (FB p p')|]. split.
      * intros i Hi. rewrite TX by auto. reflexivity.
      * now apply (OB p p').
    + intros x [Hx Ho]. exists (fun i => x (tau i)). split; [split|split].
      * now apply (FB p p').
      * intros z Hz. rewrite (OB p p' x E E'). rewrite (ren_objective rho sigma m' m A K' K F p p' z E E'). apply Ho. now apply (ren_feasible rho sigma RI m' m A K' K F p p' _ W W' E E').
      * intros i Hi. rewrite TX by auto. reflexivity.
      * now apply (OB p p').
Qed.

Theorem second_replaces c m o1 o2 : reached c m -> same_method o1 o2 -> sane_op o1 m -> sane_op o2 m ->
  snd (step o1 m) = None -> snd (step o2 m) = None -> covers o2 o1 m ->
  snd (step o2 (fst (step o1 m))) = None /\ same_dispatch (run [o1; o2] m) (run [o2] m).
Proof.
  intros R SM S1 S2 A1 A2 CV. destruct (same_method_planned o1 o2 SM) as [P1 [P2 TO]].
  destruct (reached_owned c m R) as [O _]. pose proof (reached_tidy c m R) as T.
  assert (W := proj1 O). destruct O as [W0 [f [n OW]]]. assert (O : owned m) by (split; [auto|eauto]). clear W0.
  pose proof (ow_nc _ _ _ OW) as N. set (v := m_nv m).
  destruct (accepted_plan o1 m P1 S1 A1) as [ws1 [fs1 [PL1 [RG1 X1]]]].
  destruct (accepted_plan o2 m P2 S2 A2) as [ws2 [fs2 [PL2 [RG2 X2]]]].
  destruct (plan_keys o1 m ws1 fs1 PL1) as [KW1 KF1].
  assert (SI0 : same_inputs m m) by (unfold same_inputs; auto).
  destruct (step o1 m) as [m1 r1] eqn:E1. cbn [snd fst] in A1. subst r1.
  destruct (step o2 m) as [m2 r2] eqn:E2. cbn [snd fst] in A2. subst r2.
  pose proof (X1 m SI0) as Y1. rewrite E1 in Y1. symmetry in Y1. apply andthen_none in Y1. destruct Y1 as [ma [Ya Yb]].
  pose proof (X2 m SI0) as Y2. rewrite E2 in Y2. symmetry in Y2. apply andthen_none in Y2. destruct Y2 as [mb [Yc Yd]].
  assert (BASE : since (fun _ => False) (fun _ => False) n v m m).
  { constructor; unfold same_tables, same_deficits, same_others.
    - apply plain_refl. - exists n; auto. - unfold v; lia.
    - intros k g Hg. exact (ky_reg _ (reached_keyed c m R) k g Hg).
    - intros k; left; repeat split. - intros k; left; repeat split. - intros k; repeat split; auto. }
  assert (SN1 := since_flexes fs1 _ _ _ _ _ _ _ (since_writes ws1 _ _ _ _ _ _ _ BASE RG1 Ya) Yb).
  assert (SN2 := since_flexes fs2 _ _ _ _ _ _ _ (since_writes ws2 _ _ _ _ _ _ _ BASE RG2 Yc) Yd).
  destruct (si_nc _ _ _ _ _ _ SN1) as [n1 [N1 L1]]. pose proof (si_nv _ _ _ _ _ _ SN1) as L2.
  set (d := (n1 - n)%nat). set (e := (m_nv m1 - v)%nat).
  set (D := fun k => In k (touches o1) /\ exists g r, group m1 k = Some g /\ In r g /\ (n <= cr_id r)%nat).
  set (E := fun key => exists k ds d0, In k (touches o1) /\ key = deficit_key k /\ dget key (m_deficits m1) = Some ds /\ In d0 ds /\ (v <= df_id d0)%nat).
  assert (LK : lock (up n d) (up v e) n d v e D E m m1 m).
  { constructor.
    - apply SN1.
    - exists n. repeat split; auto. rewrite N1. f_equal. unfold d. lia.
    - unfold e, v. split; [|lia]. unfold v in L2. lia.
    - intros k. destruct (si_tables _ _ _ _ _ _ SN1 k) as [S|[HW HG]].
      + left. apply (tables_below m n v d e); auto.
      + right. split; [|reflexivity]. split; [|exact HG]. destruct HW as [[]|HW]. apply in_map_iff in HW. destruct HW as [w [<- Hw]]. auto.
    - intros key. destruct (si_deficits _ _ _ _ _ _ SN1 key) as [S|[k [ds [d0 [HX HG]]]]].
      + left. apply (deficits_below m n v d e); auto.
      + right. split; [|reflexivity]. exists k, ds, d0. split; [|exact HG]. destruct HX as [[]|HX]. apply in_map_iff in HX. destruct HX as [w [<- Hw]]. auto.
    - intros k. apply (others_below m n d); auto. apply SN1. }
  assert (LW : Forall (low (up v e)) ws2) by (apply (plan_low o2 m ws2 fs2); [apply (fixed_below m n v d e)|]; auto).
  destruct (lock_writes (up n d) (up v e) n d v e (up_high n d) D E m ws2 m1 m mb RG2 LW LK Yc) as [mb' [Yc' LK2]].
  assert (FR : forall fs a b, do_flexes fs a = (b, None) -> forall k, group b k = group a k).
  { intros fs. induction fs as [|g t IH]; intros a b Hf k; cbn [do_flexes] in Hf; [injection Hf as <-; reflexivity|].
    apply andthen_none in Hf. destruct Hf as [a1 [F1 F2]]. rewrite (IH a1 b F2 k). destruct (flex_frame g a a1 F1) as [_ [_ [_ [Q1 [Q2 _]]]]]. unfold group. now rewrite Q1, Q2. }
  assert (LK3 : lock (up n d) (up v e) n d v e (fun _ => False) E m mb' mb).
  { destruct LK2 as [Q1 Q2 Q3 Q4 Q5 Q6]. constructor; auto. intros k. destruct (Q4 k) as [Q|[[HT [g [r [HG [Hr Hn]]]]] HS]]; [left; exact Q|exfalso].
    destruct (CV k HT) as [CV1 _]. unfold changes in CV1. rewrite E1, E2 in CV1. cbn [fst] in CV1. apply CV1.
    - eapply fresh_group with (n := n); eauto.
    - rewrite (FR fs2 mb m2 Yd k). exact HS. }
  destruct (lock_flexes (up n d) (up v e) n d v e (up_high v e) (fun _ => False) E m fs2 mb' mb m2 (fun _ _ F => F) LK3 Yd) as [m2' [Yd' LK4]].
  assert (SI1 : same_inputs m m1). { pose proof (si_plain _ _ _ _ _ _ SN1) as P. destruct P. unfold same_inputs. auto. }
  assert (E3 : step o2 m1 = (m2', None)). { rewrite (X2 m1 SI1), Yc'. exact Yd'. }
  assert (AG : forall key, agree_deficits (up n d) (up v e) key m2' m2).
  { intros key. destruct (lk_deficits _ _ _ _ _ _ _ _ _ _ _ LK4 key) as [Q|[[k [ds [d0 [HT [-> [HG [Hd Hv]]]]]]] HS]]; [exact Q|exfalso].
    destruct (CV k HT) as [_ CV2]. unfold changes_violations in CV2. rewrite E1, E2 in CV2. cbn [fst] in CV2. apply CV2.
    - eapply fresh_violations with (v := v); eauto.
    - unfold violation_vars. change (k ++ "_deficit")%string with (deficit_key k). now rewrite HS. }
  assert (AT : forall k, agree_tables (up n d) (up v e) k m2' m2).
  { intros k. destruct (lk_tables _ _ _ _ _ _ _ _ _ _ _ LK4 k) as [Q|[[] _]]. exact Q. }
  cbn [fst]. rewrite E3. split; [reflexivity|]. unfold run. cbn [fold_left]. rewrite E1. cbn [fst]. rewrite E2, E3. cbn [fst].
  assert (R1 : reached c m1) by (pose proof (reached_next c m o1 R S1) as H; rewrite E1 in H; exact H).
  assert (R2 : reached c m2) by (pose proof (reached_next c m o2 R S2) as H; rewrite E2 in H; exact H).
  assert (S2' : sane_op o2 m1). { destruct o1, o2; cbn in SM |- *; try contradiction; auto. }
  assert (R3 : reached c m2') by (pose proof (reached_next c m1 o2 R1 S2') as H; rewrite E3 in H; exact H).
  apply (alike_dispatch (up n d) (up v e) (fun i => if (i <? v)%nat then i else (i - e)%nat)).
  - apply up_inj. - apply up_inj.
  - intros i. unfold up. destruct (i <? v)%nat eqn:L; [now rewrite L|]. apply Nat.ltb_ge in L. rewrite (proj2 (Nat.ltb_ge (e + i) v)) by lia. lia.
  - pose proof (lk_plain _ _ _ _ _ _ _ _ _ _ _ LK4) as []. constructor; auto; intros k; try solve [apply (AT k)]; try solve [apply (AG k)].
    destruct (String.eqb_spec k "tie_break") as [->|NE]; [now apply (AT "tie_break")|now apply (AG k)].
  - now apply (reached_keys c). - now apply (reached_keys c).
  - apply (fixed_plain _ _ m2 m); [apply SN2|]. apply fixed_below; auto.
  - apply (reached_owned c); auto. - apply (reached_owned c); auto.
Qed.

(** ** Methods that set one group *)

Lemma one_group_plan o m ws fs : one_group o -> plan o m = Some (ws, fs) ->
  exists w, ws = [w] /\ touches o = [wkey w] /\ fs = flex_opt (wkey w) (cost_arg o).
Proof.
  intros G H. destruct o; try contradiction G; cbn [plan] in H.
  1-8: injection H as <- <-; eexists; split; [reflexivity|]; split; reflexivity.
  destruct (m_obj_bids m); [|discriminate H]. destruct (m_bids m); [|discriminate H]. injection H as <- <-. eexists. split; [reflexivity|]. split; reflexivity.
Qed.

Lemma one_group_covers c m o1 o2 : reached c m -> same_method o1 o2 -> one_group o1 -> sane_op o1 m -> sane_op o2 m ->
  snd (step o1 m) = None -> snd (step o2 m) = None ->
  cost_arg o1 = None \/ (exists q, cost_arg o2 = Some (VNum q)) -> covers o2 o1 m.
Proof.
  intros R SM G1 S1 S2 A1 A2 CO. destruct (same_method_planned o1 o2 SM) as [P1 [P2 TO]].
  assert (G2 : one_group o2) by (destruct o1, o2; try contradiction; exact I).
  destruct (reached_owned c m R) as [O _]. destruct O as [W [f [n OW]]]. assert (O : owned m) by (split; [auto|eauto]).
  pose proof (ow_nc _ _ _ OW) as N. pose proof (reached_keyed c m R) as KY.
  destruct (accepted_plan o1 m P1 S1 A1) as [ws1 [fs1 [PL1 [RG1 X1]]]].
  destruct (accepted_plan o2 m P2 S2 A2) as [ws2 [fs2 [PL2 [RG2 X2]]]].
  destruct (one_group_plan o1 m ws1 fs1 G1 PL1) as [w1 [-> [T1 ->]]].
  destruct (one_group_plan o2 m ws2 fs2 G2 PL2) as [w2 [-> [T2 ->]]].
  assert (SI0 : same_inputs m m) by (unfold same_inputs; auto).
  destruct (step o1 m) as [m1 r1] eqn:E1. cbn [snd fst] in A1. subst r1.
  destruct (step o2 m) as [m2 r2] eqn:E2. cbn [snd fst] in A2. subst r2.
  pose proof (X1 m SI0) as Y1. rewrite E1 in Y1. symmetry in Y1. apply andthen_none in Y1. destruct Y1 as [ma [Ya Yb]].
  pose proof (X2 m SI0) as Y2. rewrite E2 in Y2. symmetry in Y2. apply andthen_none in Y2. destruct Y2 as [mb [Yc Yd]].
  cbn [do_writes] in Ya, Yc. rewrite andthen_ret in Ya, Yc. inversion RG1; inversion RG2; subst.
  intros k Hk. assert (HK : k = wkey w2). { rewrite TO, T2 in Hk. cbn in Hk. destruct Hk as [<-|[]]; reflexivity. }
  assert (HK1 : k = wkey w1). { rewrite T1 in Hk. cbn in Hk. destruct Hk as [<-|[]]; reflexivity. }
  destruct (write_frame w2 m mb n) as [_ [V2 [_ [_ [D2 [[g [r [GR [Hr Lr]]]] _]]]]]]; auto.
  assert (FG : group mb k = Some g).
  { subst k. unfold group. destruct GR as [GR|[NR [Q1 Q2]]]; [now rewrite GR|].
    destruct (dget (wkey w2) (m_mrhs mb)) as [g'|] eqn:E; [|exact Q2]. exfalso. apply NR. symmetry in Q1. exact (ky_reg _ KY _ _ Q1). }
  assert (FR : group m2 k = group mb k).
  { destruct (cost_arg o2) as [q|]; cbn [flex_opt do_flexes] in Yd; [|injection Yd as <-; reflexivity].
    rewrite andthen_ret in Yd. destruct (flex_frame _ _ _ Yd) as [_ [_ [_ [Q1 [Q2 _]]]]]. unfold group. now rewrite Q1, Q2. }
  split.
  - intros _. unfold changes. rewrite E2. cbn [fst]. eapply fresh_group with (n := n); eauto. now rewrite FR.
  - intros CH. unfold changes_violations in *. rewrite E1 in CH. rewrite E2. cbn [fst] in *. destruct CO as [CO|[q CO]].
    + exfalso. rewrite CO in Yb. cbn [flex_opt do_flexes] in Yb. injection Yb as ->. apply CH.
      destruct (write_frame w1 m m1 n) as [_ [_ [_ [_ [D1 _]]]]]; auto. unfold violation_vars. now rewrite (proj1 (D1 _)).
    + rewrite CO in Yd. cbn [flex_opt do_flexes] in Yd. rewrite andthen_ret in Yd. unfold do_flex in Yd. cbn [fl_if fl_key fl_cost] in Yd.
      apply make_elastic_accepted in Yd. rewrite <- HK in Yd. destruct Yd as [rows [EG [[Z _]|[cr [CR [AD _]]]]]]; [discriminate Z|].
      assert (rows = g) by congruence. subst rows. cbn [costed_rows] in CR. injection CR as <-.
      apply add_deficits_accepted in AD. destruct AD as [[Z _]|[b [EN ->]]]; [apply map_eq_nil in Z; subst g; destruct Hr|].
      destruct (deficit_variables _ (m_nv mb)) as [|d0 ds] eqn:ED; [discriminate EN|].
      apply (fresh_violations m (m_nv m) O eq_refl k (d0 :: ds) d0).
      * rewrite (market_eta mb). fields. now rewrite dget_dset_same.
      * now left.
      * rewrite <- V2. eapply deficit_ids_ge. rewrite ED. now left.
Qed.

Lemma one_group_replaces c m o1 o2 : reached c m -> same_method o1 o2 -> one_group o1 -> sane_op o1 m -> sane_op o2 m ->
  snd (step o1 m) = None -> snd (step o2 m) = None ->
  cost_arg o1 = None \/ (exists q, cost_arg o2 = Some (VNum q)) ->
  snd (step o2 (fst (step o1 m))) = None /\ same_dispatch (run [o1; o2] m) (run [o2] m).
Proof. intros. eapply second_replaces; eauto. eapply one_group_covers; eauto. Qed.

(** ** Tables that are overwritten as a whole *)

Lemma overwriting o1 o2 m : overwrites o1 o2 -> snd (step o2 m) = None -> step o2 (fst (step o1 m)) = step o2 m.
Proof.
  intros H A. destruct o1, o2; cbn in H; try contradiction; cbn [step] in *.
  - destruct (m_bids m) as [vs|] eqn:EB; [|unfold set_price_bids in A; rewrite EB in A; discriminate A].
    assert (F : exists b, fst (set_price_bids t m) = set_m_obj_bids b m).
    { unfold set_price_bids. rewrite EB. destruct (check_bids false m t); [exists (m_obj_bids m); now destruct m|]. cbn [guard].
      destruct (check_bdu _ _); [exists (m_obj_bids m); now destruct m|]. eexists. reflexivity. }
    destruct F as [b ->]. unfold set_price_bids in *. rewrite EB in A.
    apply guard_none in A. destruct A as [C1 A]. apply guard_none in A. destruct A as [C2 _].
    change (m_bids (set_m_obj_bids b m)) with (m_bids m). rewrite EB.
    change (check_bids false (set_m_obj_bids b m) t0) with (check_bids false m t0). rewrite C1. cbn [guard].
    change (check_bdu (set_m_obj_bids b m) (energy_units t0)) with (check_bdu m (energy_units t0)). rewrite C2. reflexivity.
  - unfold link_units in *. apply guard_none in A. destruct A as [C _]. rewrite C. destruct (check_gunit m l); cbn [guard fst raise done].
    + now rewrite C.
    + change (check_gunit (set_m_gen_unit (Some l) m) l0) with (check_gunit m l0). now rewrite C.
  - unfold link_regions in *. apply guard_none in A. destruct A as [C _]. rewrite C. destruct (check_gregion m l); cbn [guard fst raise done].
    + now rewrite C.
    + change (check_gregion (set_m_gen_region (Some l) m) l0) with (check_gregion m l0). now rewrite C.
  - unfold link_inters in *. apply guard_none in A. destruct A as [C _]. rewrite C. destruct (check_ginter l); cbn [guard fst raise done]; reflexivity.
Qed.
