(** Lemmas for joint ramping, joint capacity and energy and regulation capacity:
    C12, C13, C14; fast start profiles: C27. *)

From Coq Require Import QArith Qminmax Lqa String List Bool Arith Lia ZArith Permutation.
Import ListNotations.
From Verif Require Import PandasModel TablesModel VariableIdsModel MarketConstraintsModel
  UnitConstraintsModel RampModel FcasModel InterModel ElasticModel MarketModel SolverModel
  SpecLp PandasFacts SpecHistory SpecIds SpecDispatch SpecRamp SpecTrap SpecElastic StepFacts InvariantFacts OwnerFacts SolverFacts
  MeaningFacts LimitFacts CompositeFacts RampFacts TableFacts BidFacts.
Open Scope string_scope.
Open Scope list_scope.

(** ** Rows of a constraint id *)

Definition at_con (i : nat) (cs : list ucrow) : list ucrow := filter (fun c => Nat.eqb (uc_con c) i) cs.

Lemma at_con_app i a b : at_con i (a ++ b) = at_con i a ++ at_con i b.
Proof. apply filter_app. Qed.

Lemma rows_at {A} (g : nat * A -> ucrow) n l i a : (forall p, uc_con (g p) = fst p) ->
  In (i, a) (save_index n l) -> at_con i (map g (save_index n l)) = [g (i, a)].
Proof.
  intros G H. unfold at_con. rewrite filter_map_comm.
  rewrite (filter_ext _ (fun p : nat * A => Nat.eqb (fst p) i)) by (intros p; now rewrite G).
  now rewrite (filter_save_index n l i a H).
Qed.

Lemma rows_at_some {A} (g : nat * A -> ucrow) q n l i a : (forall p, uc_con (g p) = fst p) ->
  In (i, a) (save_index n l) ->
  at_con i (map g (filter (fun p => q (snd p)) (save_index n l))) = if q a then [g (i, a)] else [].
Proof.
  intros G H. unfold at_con. rewrite filter_map_comm.
  rewrite (filter_ext _ (fun p : nat * A => Nat.eqb (fst p) i)) by (intros p; now rewrite G).
  assert (E : forall l', filter (fun p : nat * A => Nat.eqb (fst p) i) (filter (fun p => q (snd p)) l')
     = filter (fun p => q (snd p)) (filter (fun p : nat * A => Nat.eqb (fst p) i) l')).
  { induction l' as [|[j b] t IH]; [reflexivity|]. cbn.
    destruct (q b) eqn:E1, (Nat.eqb j i) eqn:E2; cbn; rewrite ?E1, ?E2; congruence. }
  rewrite E, (filter_save_index n l i a H). cbn. destruct (q a); reflexivity.
Qed.

Lemma rows_off i cs : (forall c, In c cs -> uc_con c <> i) -> at_con i cs = [].
Proof. intros H. apply filter_none. intros c Hc. apply Nat.eqb_neq. auto. Qed.

(** A constraint whose rows are all about listed units. *)
Lemma rows_hold m x k rows cs r l : owned m -> In k unit_keys ->
  unit_group_at k rows cs m x -> solution m x -> In r rows ->
  at_con (cr_id r) cs = l ->
  Forall (fun c => registered (m_cfg m) (uc_unit c) (uc_dt c)) l ->
  Exists (fun c => offers m (uc_unit c) (uc_service c) (uc_dt c)) l ->
  relation (cr_type r)
    (sumQ (fun c => uc_coef c * (load_sign m (uc_unit c) (uc_service c) (uc_dt c)
                                 * dispatch m x (uc_unit c) (uc_service c) (uc_dt c))) l) (cr_rhs r).
Proof.
  intros O Hk G [p [A F]] Hr E R Of. rewrite Forall_forall in R.
  apply Exists_exists in Of. destruct Of as [c [Hc Of]].
  destruct (offers_uv m _ _ _ (proj1 O) (R c Hc) Of) as [v [Hv [V1 [V2 V3]]]].
  assert (Hcs : In c cs /\ uc_con c = cr_id r).
  { rewrite <- E in Hc. unfold at_con in Hc. apply filter_In in Hc. rewrite Nat.eqb_eq in Hc. exact Hc. }
  destruct Hcs as [Hcs Ec].
  pose proof (unit_row_holds m p x k rows cs r c v O Hk G A F Hr Hcs Ec Hv
     (eq_sym V1) (eq_sym V2) (eq_sym V3)) as H.
  unfold unit_value in H. fold (at_con (cr_id r) cs) in H. rewrite E in H.
  assert (V : sumQ (fun c => uc_coef c * unit_term (rows_or_nil (m_unit_bids m)) x (uc_unit c) (uc_service c) (uc_dt c)) l
    == sumQ (fun c => uc_coef c * (load_sign m (uc_unit c) (uc_service c) (uc_dt c)
                                 * dispatch m x (uc_unit c) (uc_service c) (uc_dt c))) l).
  { apply sumQ_ext_in. intros a Ha. rewrite unit_term_dispatch; [reflexivity|apply O|auto]. }
  unfold relation in *. rewrite V in H. exact H.
Qed.

(** Conversely, the group is met when its rows hold. *)
Lemma rows_meet m x k rows cs : owned m -> In k unit_keys -> unit_group_is k rows cs m ->
  (forall r, In r rows -> Forall (fun c => registered (m_cfg m) (uc_unit c) (uc_dt c)) (at_con (cr_id r) cs)
    /\ relation (cr_type r)
    (sumQ (fun c => uc_coef c * (load_sign m (uc_unit c) (uc_service c) (uc_dt c)
                                 * dispatch m x (uc_unit c) (uc_service c) (uc_dt c))) (at_con (cr_id r) cs)) (cr_rhs r)) ->
  meets m x k.
Proof.
  intros O Hk G H p rows' r c A E Hr Hc Ec. rewrite (proj1 G) in E. inversion E; subst rows'. clear E.
  destruct (H r Hr) as [Rg Rl]. rewrite Forall_forall in Rg.
  apply (con_row m p x c _ (proj1 O) A Hc (in_all_rhs_unit m k rows r (proj1 G) Hr) Ec).
  cbn [r_type r_id r_rhs rhs_value].
  assert (V : sumQ (fun c => uc_coef c * (load_sign m (uc_unit c) (uc_service c) (uc_dt c)
                                 * dispatch m x (uc_unit c) (uc_service c) (uc_dt c))) (at_con (cr_id r) cs)
     == unit_value m x cs (cr_id r)).
  { apply sumQ_ext_in. intros a Ha. rewrite unit_term_dispatch; [reflexivity|apply O|auto]. }
  unfold relation in *. rewrite (unit_row_value m k rows cs r x O Hk (unit_is_at _ _ _ _ x G) Hr), <- V. exact Rl.
Qed.

Lemma sign_fcas m u s d : s <> "energy" -> load_sign m u s d = 1.
Proof. intros N. unfold load_sign. apply String.eqb_neq in N. rewrite N, andb_false_r. reflexivity. Qed.
Lemma sign_gen m u s : load_sign m u s "generator" = 1.
Proof. unfold load_sign. cbn. now rewrite andb_false_r. Qed.
Lemma sign_ordinary m u s d : mem_str u (m_bdu m) = false -> load_sign m u s d = 1.
Proof. intros N. unfold load_sign. now rewrite N. Qed.
Lemma sign_load m u : mem_str u (m_bdu m) = true -> load_sign m u "energy" "load" = -(1).
Proof. intros N. unfold load_sign. now rewrite N. Qed.

Ltac somewhere := cbn [app];
  repeat match goal with H : _ \/ _ |- _ => destruct H as [H|H] end;
  repeat first [apply Exists_cons_hd; cbn; eassumption | apply Exists_cons_tl].

(** ** C14 *)

Lemma trap_upper_row l n t : In t l -> exists i, In (i, t) (save_index n l)
  /\ (n <= i < n + length l)%nat
  /\ In (CRow i "<=" (tz_emax t) (KUnit (tz_unit t) (tz_service t) (tz_dt t))) (trap_rhs l n).
Proof.
  intros H. destruct (save_index_in n l t H) as [i Hi]. exists i. split; [exact Hi|].
  split; [now apply in_save_index in Hi|].
  apply in_or_app. left. apply in_map_iff. exists (i, t). auto.
Qed.

Lemma trap_lower_row l n t : In t l -> exists i, In (i, t) (save_index (n + length l) l)
  /\ (n + length l <= i)%nat
  /\ In (CRow i ">=" (tz_emin t) (KUnit (tz_unit t) (tz_service t) (tz_dt t))) (trap_rhs l n).
Proof.
  intros H. destruct (save_index_in (n + length l) l t H) as [i Hi]. exists i. split; [exact Hi|].
  split; [apply in_save_index in Hi; cbn in Hi; lia|].
  apply in_or_app. right. apply in_map_iff. exists (i, t). auto.
Qed.

Lemma map_off {A} (g : nat * A -> ucrow) n l i : (forall p, uc_con (g p) = fst p) ->
  (i < n \/ n + length l <= i)%nat -> at_con i (map g (save_index n l)) = [].
Proof.
  intros G H. apply rows_off. intros c Hc. apply in_map_iff in Hc. destruct Hc as [p [<- Hp]].
  apply in_save_index in Hp. rewrite G. lia.
Qed.

Lemma map_off_some {A} (g : nat * A -> ucrow) q n l i : (forall p, uc_con (g p) = fst p) ->
  (i < n \/ n + length l <= i)%nat -> at_con i (map g (filter q (save_index n l))) = [].
Proof.
  intros G H. apply rows_off. intros c Hc. apply in_map_iff in Hc. destruct Hc as [p [<- Hp]].
  apply filter_In in Hp. destruct Hp as [Hp _]. apply in_save_index in Hp. rewrite G. lia.
Qed.

Ltac rows_now := repeat rewrite at_con_app;
  repeat first
    [ erewrite rows_at by (first [intros [? ?]; reflexivity | eassumption])
    | erewrite (rows_at_some _ (fun t => mem_str (tz_unit t) _)) by (first [intros [? ?]; reflexivity | eassumption])
    | rewrite map_off by (first [intros [? ?]; reflexivity | lia])
    | rewrite map_off_some by (first [intros [? ?]; reflexivity | lia]) ];
  cbn [app].

Lemma energy_reg_upper l n i t : In (i, t) (save_index n l) -> (n <= i < n + length l)%nat ->
  at_con i (energy_reg_map l n)
  = [UC i (tz_unit t) "energy" (tz_dt t) 1; UC i (tz_unit t) (tz_service t) (tz_dt t) (upper_slope t)].
Proof. intros H L. unfold energy_reg_map. rows_now. reflexivity. Qed.

Lemma energy_reg_lower l n i t : In (i, t) (save_index (n + length l) l) -> (n + length l <= i)%nat ->
  at_con i (energy_reg_map l n)
  = [UC i (tz_unit t) "energy" (tz_dt t) 1; UC i (tz_unit t) (tz_service t) (tz_dt t) (-(1) * lower_slope t)].
Proof. intros H L. unfold energy_reg_map. rows_now. reflexivity. Qed.

(** Signed energy of one side of a unit: the load side of a bidirectional unit
    counts negative. *)
Lemma energy_reg_upheld c l v m x : upheld c (OpEnergyReg l v) m x -> solution m x ->
  forall t, In t l -> registered c (tz_unit t) (tz_dt t) ->
    (two_sided c (tz_unit t) -> tz_dt t = "generator") ->
    offers m (tz_unit t) "energy" (tz_dt t) \/ offers m (tz_unit t) (tz_service t) (tz_dt t) ->
    let e := dispatch m x (tz_unit t) "energy" (tz_dt t) in
    let q := dispatch m x (tz_unit t) (tz_service t) (tz_dt t) in
    e + upper_slope t * q <= tz_emax t /\ tz_emin t <= e - lower_slope t * q.
Proof.
  intros I S t Ht R T Of e q. apply upheld_inv in I. destruct I as [O [C [m' [m1 [O' [C' [St K]]]]]]].
  cbn [step] in St. unfold set_energy_reg in St.
  apply guard_ok in St. destruct St as [Ck St]. unfold check_traps in Ck.
  pose proof (all_rows_in (fun r => mem_str (tz_service r) allowed_regulation) l _ t Ck ltac:(cbn; auto 10) Ht) as Sv.
  cbn beta in Sv.
  assert (NE : tz_service t <> "energy") by (intros Ee; rewrite Ee in Sv; discriminate).
  destruct l as [|t0 tl]; [destruct Ht|]. set (l := t0 :: tl) in *.
  apply andthen_ok in St. destruct St as [m2 [St E]].
  destruct (new_unit_group_is _ _ _ _ _ O' (energy_reg_ok l) St) as [n [_ G]].
  apply (K _ m2) in G; [|cbn; auto|exact (maybe_settled (OpEnergyReg l v) _ _ _ E)].
  assert (LS : load_sign m (tz_unit t) "energy" (tz_dt t) = 1).
  { destruct (mem_str (tz_unit t) (m_bdu m)) eqn:B; [|now apply sign_ordinary].
    rewrite T; [apply sign_gen|]. apply (bidirectional_iff c); [rewrite <- C; apply O|].
    apply mem_str_in. unfold m_bdu in B. now rewrite C in B. }
  split.
  - destruct (trap_upper_row l n t Ht) as [i [Hi [Li Hr]]].
    pose proof (rows_hold m x "energy_and_regulation_capacity" _ _ _ _ O ltac:(cbn; auto 20) G S Hr
       (energy_reg_upper l n i t Hi Li)) as H.
    cbn [cr_type cr_rhs] in H. rewrite relation_le in H.
    rewrite !sumQ_cons, sumQ_nil in H. cbn [uc_coef uc_unit uc_service uc_dt] in H.
    rewrite LS, (sign_fcas m _ (tz_service t)) in H by exact NE. fold e q in H.
    eapply Qle_trans; [|apply H; [now repeat constructor; cbn; rewrite C|somewhere]]. lra.
  - destruct (trap_lower_row l n t Ht) as [i [Hi [Li Hr]]].
    pose proof (rows_hold m x "energy_and_regulation_capacity" _ _ _ _ O ltac:(cbn; auto 20) G S Hr
       (energy_reg_lower l n i t Hi Li)) as H.
    cbn [cr_type cr_rhs] in H. rewrite relation_ge in H.
    rewrite !sumQ_cons, sumQ_nil in H. cbn [uc_coef uc_unit uc_service uc_dt] in H.
    rewrite LS, (sign_fcas m _ (tz_service t)) in H by exact NE. fold e q in H.
    eapply Qle_trans; [apply H; [now repeat constructor; cbn; rewrite C|somewhere]|]. lra.
Qed.

Lemma energy_reg_in_force c l m x : in_force c (OpEnergyReg l None) m -> solution m x ->
  forall t, In t l -> registered c (tz_unit t) (tz_dt t) ->
    (two_sided c (tz_unit t) -> tz_dt t = "generator") ->
    offers m (tz_unit t) "energy" (tz_dt t) \/ offers m (tz_unit t) (tz_service t) (tz_dt t) ->
    let e := dispatch m x (tz_unit t) "energy" (tz_dt t) in
    let q := dispatch m x (tz_unit t) (tz_service t) (tz_dt t) in
    e + upper_slope t * q <= tz_emax t /\ tz_emin t <= e - lower_slope t * q.
Proof. intros I. exact (energy_reg_upheld c l None m x (in_force_upheld _ _ _ _ I eq_refl)). Qed.

Lemma energy_reg_meets c l m : in_force c (OpEnergyReg l None) m -> forall x,
  (forall t, In t l -> registered c (tz_unit t) (tz_dt t) /\ (two_sided c (tz_unit t) -> tz_dt t = "generator")
    /\ let e := dispatch m x (tz_unit t) "energy" (tz_dt t) in
       let q := dispatch m x (tz_unit t) (tz_service t) (tz_dt t) in
       e + upper_slope t * q <= tz_emax t /\ tz_emin t <= e - lower_slope t * q) ->
  meets m x "energy_and_regulation_capacity".
Proof.
  intros I x H. apply in_force_inv in I. destruct I as [O [C [m' [m1 [O' [C' [St K]]]]]]].
  cbn [step] in St. unfold set_energy_reg in St.
  apply guard_ok in St. destruct St as [Ck St]. unfold check_traps in Ck.
  assert (NE : forall t, In t l -> tz_service t <> "energy").
  { intros t Ht Ee. pose proof (all_rows_in (fun r => mem_str (tz_service r) allowed_regulation) l _ t Ck ltac:(cbn; auto 10) Ht) as Sv.
    cbn beta in Sv. rewrite Ee in Sv. discriminate. }
  destruct l as [|t0 tl] eqn:El; [discriminate|]. rewrite <- El in *. clear El.
  apply andthen_ok in St. destruct St as [m2 [St E]]. cbn in E. inversion E; subst m2.
  destruct (new_unit_group_is _ _ _ _ _ O' (energy_reg_ok l) St) as [n [_ G]].
  apply (unit_group_is_same _ _ _ _ m) in G; [|apply K; cbn; auto].
  assert (LS : forall t, In t l -> load_sign m (tz_unit t) "energy" (tz_dt t) = 1).
  { intros t Ht. destruct (mem_str (tz_unit t) (m_bdu m)) eqn:B; [|now apply sign_ordinary].
    rewrite (proj1 (proj2 (H t Ht))); [apply sign_gen|]. apply (bidirectional_iff c); [rewrite <- C; apply O|].
    apply mem_str_in. unfold m_bdu in B. now rewrite C in B. }
  apply (rows_meet m x _ _ _ O ltac:(cbn; auto 20) G). intros r Hr. unfold trap_rhs in Hr.
  apply in_app_or in Hr. destruct Hr as [Hr|Hr]; apply in_map_iff in Hr; destruct Hr as [[i t] [<- Hi]]; cbn [cr_id cr_type cr_rhs].
  - assert (Ht : In t l) by (now apply in_save_index in Hi).
    assert (Li : (n <= i < n + length l)%nat) by (now apply in_save_index in Hi).
    destruct (H t Ht) as [R [_ [H1 H2]]]. rewrite (energy_reg_upper l n i t Hi Li). split.
    + repeat constructor; cbn; now rewrite C.
    + rewrite relation_le, !sumQ_cons, sumQ_nil. cbn [uc_coef uc_unit uc_service uc_dt].
      rewrite (LS t Ht), (sign_fcas m _ (tz_service t)) by auto. lra.
  - assert (Ht : In t l) by (now apply in_save_index in Hi).
    assert (Li : (n + length l <= i)%nat) by (apply in_save_index in Hi; cbn in Hi; lia).
    destruct (H t Ht) as [R [_ [H1 H2]]]. rewrite (energy_reg_lower l n i t Hi Li). split.
    + repeat constructor; cbn; now rewrite C.
    + rewrite relation_ge, !sumQ_cons, sumQ_nil. cbn [uc_coef uc_unit uc_service uc_dt].
      rewrite (LS t Ht), (sign_fcas m _ (tz_service t)) by auto. lra.
Qed.

(** ** C13 *)

Definition reg_up (t : trap_row) := if String.eqb (tz_dt t) "generator" then "raise_reg" else "lower_reg".
Definition reg_down (t : trap_row) := if String.eqb (tz_dt t) "generator" then "lower_reg" else "raise_reg".

Lemma rows_at_both (g : nat * trap_row -> ucrow) bdu n l i a : (forall p, uc_con (g p) = fst p) ->
  In (i, a) (save_index n l) ->
  at_con i (map g (filter (fun p => mem_str (tz_unit (snd p)) bdu) (save_index n l)))
  = if mem_str (tz_unit a) bdu then [g (i, a)] else [].
Proof. apply (rows_at_some g (fun t => mem_str (tz_unit t) bdu)). Qed.

Lemma jc_upper_off l bdu n i : (i < n \/ n + length l <= i)%nat -> at_con i (jc_upper_map (save_index n l) bdu) = [].
Proof.
  intros H. unfold jc_upper_map. rewrite !at_con_app.
  rewrite !map_off, !map_off_some; try reflexivity; try lia; now intros [? ?].
Qed.
Lemma jc_lower_off l bdu n i : (i < n \/ n + length l <= i)%nat -> at_con i (jc_lower_map (save_index n l) bdu) = [].
Proof.
  intros H. unfold jc_lower_map. rewrite !at_con_app.
  rewrite !map_off, !map_off_some; try reflexivity; try lia; now intros [? ?].
Qed.

Lemma jc_upper_at l bdu n i t : In (i, t) (save_index n l) ->
  at_con i (jc_upper_map (save_index n l) bdu)
  = [UC i (tz_unit t) "energy" (tz_dt t) 1; UC i (tz_unit t) (tz_service t) (tz_dt t) (upper_slope t)]
    ++ (if mem_str (tz_unit t) bdu then [UC i (tz_unit t) "energy" "load" 1; UC i (tz_unit t) (reg_up t) "load" 1] else [])
    ++ [UC i (tz_unit t) (reg_up t) (tz_dt t) 1].
Proof.
  intros H. unfold jc_upper_map. rewrite !at_con_app.
  rewrite !(rows_at _ n l i t) by (auto; now intros [? ?]).
  rewrite !(rows_at_both _ bdu n l i t) by (auto; now intros [? ?]).
  destruct (mem_str (tz_unit t) bdu); reflexivity.
Qed.
Lemma jc_lower_at l bdu n i t : In (i, t) (save_index n l) ->
  at_con i (jc_lower_map (save_index n l) bdu)
  = [UC i (tz_unit t) "energy" (tz_dt t) 1]
    ++ (if mem_str (tz_unit t) bdu then [UC i (tz_unit t) "energy" "load" 1] else [])
    ++ [UC i (tz_unit t) (tz_service t) (tz_dt t) (-(1) * lower_slope t); UC i (tz_unit t) (reg_down t) (tz_dt t) (-(1))]
    ++ (if mem_str (tz_unit t) bdu then [UC i (tz_unit t) (reg_down t) "load" 1] else []).
Proof.
  intros H. unfold jc_lower_map. rewrite !at_con_app.
  rewrite !(rows_at _ n l i t) by (auto; now intros [? ?]).
  rewrite !(rows_at_both _ bdu n l i t) by (auto; now intros [? ?]).
  destruct (mem_str (tz_unit t) bdu); reflexivity.
Qed.

Lemma joint_capacity_inv c l v m x : upheld c (OpJointCapacity l v) m x ->
  owned m /\ m_cfg m = c /\ l <> []
  /\ (forall t, In t l -> mem_str (tz_service t) allowed_contingency = true /\ mem_str (tz_dt t) allowed_dt = true)
  /\ exists n, unit_group_at "joint_capacity" (trap_rhs l n) (joint_capacity_map l (m_bdu m) n) m x.
Proof.
  intros I. apply upheld_inv in I. destruct I as [O [C [m' [m1 [O' [C' [St K]]]]]]].
  split; [exact O|]. split; [exact C|].
  cbn [step] in St. unfold set_joint_capacity in St.
  apply guard_ok in St. destruct St as [Ck St]. unfold check_traps in Ck.
  assert (B : m_bdu m' = m_bdu m) by (unfold m_bdu; congruence).
  destruct l as [|t0 tl]; [discriminate|]. set (l := t0 :: tl) in *. split; [subst l; discriminate|]. split.
  - intros t Ht. split.
    + apply (all_rows_in (fun r => mem_str (tz_service r) allowed_contingency) l _ t Ck); [cbn; auto 10|exact Ht].
    + apply (all_rows_in (fun r => mem_str (tz_dt r) allowed_dt) l _ t Ck); [cbn; auto 10|exact Ht].
  - apply andthen_ok in St. destruct St as [m2 [St E]].
    destruct (new_unit_group_is _ _ _ _ _ O' (joint_capacity_ok l _) St) as [n [_ G]].
    exists n. rewrite <- B. apply (K _ m2) in G; [exact G|cbn; auto|exact (maybe_settled (OpJointCapacity l v) _ _ _ E)].
Qed.

Lemma joint_capacity_rows c l v m x : upheld c (OpJointCapacity l v) m x -> solution m x ->
  forall t, In t l -> registered c (tz_unit t) (tz_dt t) -> 
    offers m (tz_unit t) (tz_service t) (tz_dt t) \/ offers m (tz_unit t) "energy" (tz_dt t) ->
    let val := sumQ (fun c => uc_coef c * (load_sign m (uc_unit c) (uc_service c) (uc_dt c)
                                 * dispatch m x (uc_unit c) (uc_service c) (uc_dt c))) in
    (exists i, val ([UC i (tz_unit t) "energy" (tz_dt t) 1; UC i (tz_unit t) (tz_service t) (tz_dt t) (upper_slope t)]
    ++ (if mem_str (tz_unit t) (m_bdu m) then [UC i (tz_unit t) "energy" "load" 1; UC i (tz_unit t) (reg_up t) "load" 1] else [])
    ++ [UC i (tz_unit t) (reg_up t) (tz_dt t) 1]) <= tz_emax t)
    /\ exists i, tz_emin t <= val ([UC i (tz_unit t) "energy" (tz_dt t) 1]
    ++ (if mem_str (tz_unit t) (m_bdu m) then [UC i (tz_unit t) "energy" "load" 1] else [])
    ++ [UC i (tz_unit t) (tz_service t) (tz_dt t) (-(1) * lower_slope t); UC i (tz_unit t) (reg_down t) (tz_dt t) (-(1))]
    ++ (if mem_str (tz_unit t) (m_bdu m) then [UC i (tz_unit t) (reg_down t) "load" 1] else [])).
Proof.
  intros I Sl t Ht R Of. destruct (joint_capacity_inv c l _ m x I) as [O [C [_ [_ [n G]]]]].
  assert (RL : mem_str (tz_unit t) (m_bdu m) = true -> registered (m_cfg m) (tz_unit t) "load").
  { intros B. apply mem_str_in in B. unfold m_bdu in B. apply bidirectional_iff in B; [apply B|apply O]. }
  rewrite <- C in R. split.
  - destruct (trap_upper_row l n t Ht) as [i [Hi [Li Hr]]]. exists i.
    assert (E : at_con i (joint_capacity_map l (m_bdu m) n) =
       [UC i (tz_unit t) "energy" (tz_dt t) 1; UC i (tz_unit t) (tz_service t) (tz_dt t) (upper_slope t)]
    ++ (if mem_str (tz_unit t) (m_bdu m) then [UC i (tz_unit t) "energy" "load" 1; UC i (tz_unit t) (reg_up t) "load" 1] else [])
    ++ [UC i (tz_unit t) (reg_up t) (tz_dt t) 1]).
    { unfold joint_capacity_map. rewrite at_con_app, (jc_upper_at l _ n i t Hi), jc_lower_off by lia.
      apply app_nil_r. }
    pose proof (rows_hold m x "joint_capacity" _ _ _ _ O ltac:(cbn; auto 20) G Sl Hr E) as H.
    cbn [cr_type cr_rhs] in H. rewrite relation_le in H. apply H.
    + destruct (mem_str (tz_unit t) (m_bdu m)); repeat constructor; cbn; auto.
    + destruct Of as [Of|Of]; [apply Exists_cons_tl|]; apply Exists_cons_hd; exact Of.
  - destruct (trap_lower_row l n t Ht) as [i [Hi [Li Hr]]]. exists i.
    assert (E : at_con i (joint_capacity_map l (m_bdu m) n) =
       [UC i (tz_unit t) "energy" (tz_dt t) 1]
    ++ (if mem_str (tz_unit t) (m_bdu m) then [UC i (tz_unit t) "energy" "load" 1] else [])
    ++ [UC i (tz_unit t) (tz_service t) (tz_dt t) (-(1) * lower_slope t); UC i (tz_unit t) (reg_down t) (tz_dt t) (-(1))]
    ++ (if mem_str (tz_unit t) (m_bdu m) then [UC i (tz_unit t) (reg_down t) "load" 1] else [])).
    { unfold joint_capacity_map. rewrite at_con_app, jc_upper_off by lia. now apply (jc_lower_at l _ (n + length l)). }
    pose proof (rows_hold m x "joint_capacity" _ _ _ _ O ltac:(cbn; auto 20) G Sl Hr E) as H.
    cbn [cr_type cr_rhs] in H. rewrite relation_ge in H. apply H.
    + destruct (mem_str (tz_unit t) (m_bdu m)); repeat constructor; cbn; auto.
    + destruct (mem_str (tz_unit t) (m_bdu m)); destruct Of as [Of|Of]; somewhere.
Qed.

Lemma reg_up_fcas t : reg_up t <> "energy".
Proof. unfold reg_up. destruct (String.eqb _ _); discriminate. Qed.
Lemma reg_down_fcas t : reg_down t <> "energy".
Proof. unfold reg_down. destruct (String.eqb _ _); discriminate. Qed.
Lemma contingency_fcas s : mem_str s allowed_contingency = true -> s <> "energy".
Proof. intros H ->. discriminate. Qed.

Lemma joint_capacity_ordinary_upheld c l v m x : upheld c (OpJointCapacity l v) m x -> solution m x ->
  forall t, In t l -> registered c (tz_unit t) (tz_dt t) -> ~ two_sided c (tz_unit t) ->
    offers m (tz_unit t) (tz_service t) (tz_dt t) ->
    let e := dispatch m x (tz_unit t) "energy" (tz_dt t) in
    let q := dispatch m x (tz_unit t) (tz_service t) (tz_dt t) in
    let rr := dispatch m x (tz_unit t) "raise_reg" (tz_dt t) in
    let lr := dispatch m x (tz_unit t) "lower_reg" (tz_dt t) in
    e + upper_slope t * q + (if String.eqb (tz_dt t) "generator" then rr else lr) <= tz_emax t
    /\ tz_emin t <= e - lower_slope t * q - (if String.eqb (tz_dt t) "generator" then lr else rr).
Proof.
  intros I Sl t Ht R T Of. pose proof (joint_capacity_rows c l _ m x I Sl t Ht R (or_introl Of)) as H.
  destruct (joint_capacity_inv c l _ m x I) as [O [C [_ [Ck _]]]].
  apply (bdu_false c _ m (proj1 O) C) in T. rewrite T in H. cbn [app] in H.
  destruct (Ck t Ht) as [Sv _]. apply contingency_fcas in Sv.
  destruct H as [[i H1] [j H2]]. rewrite !sumQ_cons, !sumQ_nil in H1, H2.
  cbn [uc_coef uc_unit uc_service uc_dt] in H1, H2.
  rewrite !(sign_ordinary m) in H1, H2 by exact T.
  unfold reg_up in H1. unfold reg_down in H2.
  destruct (String.eqb (tz_dt t) "generator"); cbn zeta; split; lra.
Qed.

Lemma joint_capacity_ordinary c l m x : in_force c (OpJointCapacity l None) m -> solution m x ->
  forall t, In t l -> registered c (tz_unit t) (tz_dt t) -> ~ two_sided c (tz_unit t) ->
    offers m (tz_unit t) (tz_service t) (tz_dt t) ->
    let e := dispatch m x (tz_unit t) "energy" (tz_dt t) in
    let q := dispatch m x (tz_unit t) (tz_service t) (tz_dt t) in
    let rr := dispatch m x (tz_unit t) "raise_reg" (tz_dt t) in
    let lr := dispatch m x (tz_unit t) "lower_reg" (tz_dt t) in
    e + upper_slope t * q + (if String.eqb (tz_dt t) "generator" then rr else lr) <= tz_emax t
    /\ tz_emin t <= e - lower_slope t * q - (if String.eqb (tz_dt t) "generator" then lr else rr).
Proof. intros I. exact (joint_capacity_ordinary_upheld c l None m x (in_force_upheld _ _ _ _ I eq_refl)). Qed.

Lemma joint_capacity_bdu_upheld c l v m x : upheld c (OpJointCapacity l v) m x -> solution m x ->
  forall t, In t l -> two_sided c (tz_unit t) -> tz_dt t = "generator" ->
    offers m (tz_unit t) (tz_service t) "generator" ->
    let e := net_energy m x (tz_unit t) in
    let q := dispatch m x (tz_unit t) (tz_service t) "generator" in
    let rg s d := dispatch m x (tz_unit t) s d in
    e + upper_slope t * q + (rg "raise_reg" "generator" + rg "raise_reg" "load") <= tz_emax t
    /\ tz_emin t <= e - lower_slope t * q - (rg "lower_reg" "generator" - rg "lower_reg" "load").
Proof.
  intros I Sl t Ht T G Of e q rg. destruct (joint_capacity_inv c l _ m x I) as [O [C [_ [Ck _]]]].
  pose proof (joint_capacity_rows c l _ m x I Sl t Ht) as H. rewrite G in H.
  specialize (H (proj1 T) (or_introl Of)).
  apply (bdu_true c _ m (proj1 O) C) in T. rewrite T in H. cbn [app] in H.
  destruct (Ck t Ht) as [Sv _]. apply contingency_fcas in Sv.
  unfold reg_up, reg_down in H. rewrite G in H. cbn [String.eqb Ascii.eqb Bool.eqb] in H.
  destruct H as [[i H1] [j H2]]. rewrite !sumQ_cons, !sumQ_nil in H1, H2.
  cbn [uc_coef uc_unit uc_service uc_dt] in H1, H2.
  rewrite !sign_gen, (sign_load m _ T), !(sign_fcas m _ "raise_reg") in H1 by discriminate.
  rewrite !sign_gen, (sign_load m _ T), !(sign_fcas m _ "lower_reg") in H2 by discriminate.
  unfold e, net_energy, q, rg. split; lra.
Qed.

Lemma joint_capacity_bdu c l m x : in_force c (OpJointCapacity l None) m -> solution m x ->
  forall t, In t l -> two_sided c (tz_unit t) -> tz_dt t = "generator" ->
    offers m (tz_unit t) (tz_service t) "generator" ->
    let e := net_energy m x (tz_unit t) in
    let q := dispatch m x (tz_unit t) (tz_service t) "generator" in
    let rg s d := dispatch m x (tz_unit t) s d in
    e + upper_slope t * q + (rg "raise_reg" "generator" + rg "raise_reg" "load") <= tz_emax t
    /\ tz_emin t <= e - lower_slope t * q - (rg "lower_reg" "generator" - rg "lower_reg" "load").
Proof. intros I. exact (joint_capacity_bdu_upheld c l None m x (in_force_upheld _ _ _ _ I eq_refl)). Qed.

(** ** Membership of the trapezium *)

Lemma trapezium_inside t e q : 0 < tz_max t -> 0 <= q -> q <= tz_max t ->
  e + upper_slope t * q <= tz_emax t -> tz_emin t <= e - lower_slope t * q -> in_trapezium t e q.
Proof.
  intros Mx Q0 Q1 U L. unfold upper_slope, lower_slope in *.
  assert (N : ~ tz_max t == 0) by lra.
  set (s := q / tz_max t).
  assert (Eq : q == s * tz_max t) by (unfold s; field; exact N).
  assert (S0 : 0 <= s) by (unfold s; apply Qle_shift_div_l; lra).
  assert (S1 : s <= 1) by (unfold s; apply Qle_shift_div_r; lra).
  assert (U' : e + s * (tz_emax t - tz_hbp t) <= tz_emax t).
  { setoid_replace (s * (tz_emax t - tz_hbp t)) with ((tz_emax t - tz_hbp t) / tz_max t * q); [exact U|].
    unfold s. field. exact N. }
  assert (L' : tz_emin t <= e - s * (tz_lbp t - tz_emin t)).
  { setoid_replace (s * (tz_lbp t - tz_emin t)) with ((tz_lbp t - tz_emin t) / tz_max t * q); [exact L|].
    unfold s. field. exact N. }
  clear U L. clearbody s.
  set (lo := tz_emin t + s * (tz_lbp t - tz_emin t)). set (hi := tz_emax t - s * (tz_emax t - tz_hbp t)).
  assert (B1 : lo <= e) by (unfold lo; lra). assert (B2 : e <= hi) by (unfold hi; lra).
  assert (W : exists w, 0 <= w /\ w <= 1 /\ e == (1 - w) * lo + w * hi).
  { destruct (Qlt_le_dec lo hi) as [Lt|Ge].
    - exists ((e - lo) / (hi - lo)). repeat split.
      + apply Qle_shift_div_l; lra.
      + apply Qle_shift_div_r; lra.
      + field. lra.
    - exists 0. repeat split; lra. }
  destruct W as [w [W0 [W1 We]]]. unfold lo, hi in We.
  exists ((1 - w) * (1 - s)), ((1 - w) * s), (w * s), (w * (1 - s)).
  repeat split; try (apply Qmult_le_0_compat; lra); [ring|rewrite We; ring|rewrite Eq; ring].
Qed.

Lemma trapezium_constraints t e q : proper_trapezium t -> in_trapezium t e q ->
  0 <= q /\ q <= tz_max t /\ e + upper_slope t * q <= tz_emax t /\ tz_emin t <= e - lower_slope t * q.
Proof.
  intros [Mx [O1 [O2 O3]]] [a [b [c [d [A [B [C [D [S1 [Ee Eq]]]]]]]]]]. unfold upper_slope, lower_slope.
  assert (N : ~ tz_max t == 0) by lra.
  assert (Uq : (tz_emax t - tz_hbp t) / tz_max t * q == (b + c) * (tz_emax t - tz_hbp t)).
  { rewrite Eq. field. exact N. }
  assert (Lq : (tz_lbp t - tz_emin t) / tz_max t * q == (b + c) * (tz_lbp t - tz_emin t)).
  { rewrite Eq. field. exact N. }
  rewrite Uq, Lq, Ee. repeat split.
  - rewrite Eq. apply Qmult_le_0_compat; lra.
  - rewrite Eq. nra.
  - assert (E : d == 1 - a - b - c) by lra. rewrite E. nra.
  - assert (E : a == 1 - b - c - d) by lra. rewrite E. nra.
Qed.

Lemma joint_capacity_inside_upheld c l v a w m x : upheld c (OpJointCapacity l v) m x -> upheld c (OpMaxAvail a w) m x ->
  solution m x ->
  forall t r, In t l -> In r a -> ma_unit r = tz_unit t -> ma_service r = tz_service t -> ma_dt r = tz_dt t ->
    ma_max r <= tz_max t -> 0 < tz_max t ->
    registered c (tz_unit t) (tz_dt t) -> ~ two_sided c (tz_unit t) ->
    offers m (tz_unit t) (tz_service t) (tz_dt t) ->
    in_trapezium t (dispatch m x (tz_unit t) "energy" (tz_dt t)) (dispatch m x (tz_unit t) (tz_service t) (tz_dt t)).
Proof.
  intros I1 I2 Sl t r Ht Hr E1 E2 E3 Le P R N2 Of.
  pose proof (upheld_reached _ _ _ _ I1) as Rc.
  destruct (joint_capacity_ordinary_upheld c l _ m x I1 Sl t Ht R N2 Of) as [H1 H2].
  pose proof (dispatch_nonneg c m x (tz_unit t) "raise_reg" (tz_dt t) Rc Sl) as P1.
  pose proof (dispatch_nonneg c m x (tz_unit t) "lower_reg" (tz_dt t) Rc Sl) as P2.
  pose proof (dispatch_nonneg c m x (tz_unit t) (tz_service t) (tz_dt t) Rc Sl) as P3.
  rewrite <- E1, <- E3 in R. pose proof (max_avail_upheld c a _ m x I2 Sl r Hr R) as Mx. rewrite E1, E2, E3 in Mx.
  apply trapezium_inside; auto.
  - lra.
  - destruct (String.eqb (tz_dt t) "generator"); lra.
  - destruct (String.eqb (tz_dt t) "generator"); lra.
Qed.

Lemma joint_capacity_inside c l a m x : in_force c (OpJointCapacity l None) m -> in_force c (OpMaxAvail a None) m ->
  solution m x ->
  forall t r, In t l -> In r a -> ma_unit r = tz_unit t -> ma_service r = tz_service t -> ma_dt r = tz_dt t ->
    ma_max r <= tz_max t -> 0 < tz_max t ->
    registered c (tz_unit t) (tz_dt t) -> ~ two_sided c (tz_unit t) ->
    offers m (tz_unit t) (tz_service t) (tz_dt t) ->
    in_trapezium t (dispatch m x (tz_unit t) "energy" (tz_dt t)) (dispatch m x (tz_unit t) (tz_service t) (tz_dt t)).
Proof. intros I J. exact (joint_capacity_inside_upheld c l None a None m x (in_force_upheld _ _ _ _ I eq_refl) (in_force_upheld _ _ _ _ J eq_refl)). Qed.

Lemma energy_reg_inside_upheld c l v a w m x : upheld c (OpEnergyReg l v) m x -> upheld c (OpMaxAvail a w) m x ->
  solution m x ->
  forall t r, In t l -> In r a -> ma_unit r = tz_unit t -> ma_service r = tz_service t -> ma_dt r = tz_dt t ->
    ma_max r <= tz_max t -> 0 < tz_max t ->
    registered c (tz_unit t) (tz_dt t) -> (two_sided c (tz_unit t) -> tz_dt t = "generator") ->
    offers m (tz_unit t) "energy" (tz_dt t) \/ offers m (tz_unit t) (tz_service t) (tz_dt t) ->
    in_trapezium t (dispatch m x (tz_unit t) "energy" (tz_dt t)) (dispatch m x (tz_unit t) (tz_service t) (tz_dt t)).
Proof.
  intros I1 I2 Sl t r Ht Hr E1 E2 E3 Le P R N2 Of.
  pose proof (upheld_reached _ _ _ _ I1) as Rc.
  destruct (energy_reg_upheld c l _ m x I1 Sl t Ht R N2 Of) as [H1 H2].
  pose proof (dispatch_nonneg c m x (tz_unit t) (tz_service t) (tz_dt t) Rc Sl) as P3.
  rewrite <- E1, <- E3 in R. pose proof (max_avail_upheld c a _ m x I2 Sl r Hr R) as Mx. rewrite E1, E2, E3 in Mx.
  apply trapezium_inside; auto. lra.
Qed.

Lemma energy_reg_inside c l a m x : in_force c (OpEnergyReg l None) m -> in_force c (OpMaxAvail a None) m ->
  solution m x ->
  forall t r, In t l -> In r a -> ma_unit r = tz_unit t -> ma_service r = tz_service t -> ma_dt r = tz_dt t ->
    ma_max r <= tz_max t -> 0 < tz_max t ->
    registered c (tz_unit t) (tz_dt t) -> (two_sided c (tz_unit t) -> tz_dt t = "generator") ->
    offers m (tz_unit t) "energy" (tz_dt t) \/ offers m (tz_unit t) (tz_service t) (tz_dt t) ->
    in_trapezium t (dispatch m x (tz_unit t) "energy" (tz_dt t)) (dispatch m x (tz_unit t) (tz_service t) (tz_dt t)).
Proof. intros I J. exact (energy_reg_inside_upheld c l None a None m x (in_force_upheld _ _ _ _ I eq_refl) (in_force_upheld _ _ _ _ J eq_refl)). Qed.

Lemma energy_reg_complete c l m : in_force c (OpEnergyReg l None) m -> forall x,
  (forall t, In t l -> registered c (tz_unit t) (tz_dt t) /\ (two_sided c (tz_unit t) -> tz_dt t = "generator")
    /\ proper_trapezium t
    /\ in_trapezium t (dispatch m x (tz_unit t) "energy" (tz_dt t)) (dispatch m x (tz_unit t) (tz_service t) (tz_dt t))) ->
  meets m x "energy_and_regulation_capacity".
Proof.
  intros I x H. apply (energy_reg_meets c l m I). intros t Ht. destruct (H t Ht) as [R [T [P In_]]].
  split; [exact R|]. split; [exact T|]. apply (trapezium_constraints t _ _ P In_).
Qed.
