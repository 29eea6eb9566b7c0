(** What the tables of an elastic group look like after a history of calls. *)

From Coq Require Import QArith Lqa String List Bool Arith Lia ZArith.
Import ListNotations.
From Verif Require Import PandasModel TablesModel VariableIdsModel MarketConstraintsModel
  UnitConstraintsModel RampModel FcasModel InterModel ElasticModel MarketModel SolverModel
  SpecLp PandasFacts SpecHistory SpecIds SpecDispatch SpecElastic StepFacts InvariantFacts OwnerFacts SolverFacts
  MeaningFacts LimitFacts TableFacts DeficitFacts.
Open Scope string_scope.
Open Scope list_scope.

(** ** Where groups are kept *)

Record keyed (m : market) : Prop := {
  ky_reg : forall k g, dget k (m_mrhs m) = Some g -> In k regional_keys;
  ky_rhs : forall k g, dget k (m_rhs m) = Some g -> ~ In k regional_keys;
  ky_unit : forall k g, In k unit_keys -> dget k (m_rhs m) = Some g -> dhas k (m_c2v_unit m) = true;
  ky_nodup : NoDup (dkeys (m_rhs m)) }.

Lemma dget_dset_cases {A} k k' (a : A) d : dget k (dset k' a d) = if String.eqb k k' then Some a else dget k d.
Proof.
  destruct (String.eqb k k') eqn:E.
  - apply String.eqb_eq in E. subst. apply dget_dset_same.
  - apply String.eqb_neq in E. now apply dget_dset_other.
Qed.

Lemma keyed_same m m' : m_mrhs m' = m_mrhs m -> m_rhs m' = m_rhs m -> m_c2v_unit m' = m_c2v_unit m -> keyed m -> keyed m'.
Proof. intros E1 E2 E3 [A B C D]. constructor; rewrite ?E1, ?E2, ?E3; auto. Qed.

Lemma keyed_rhs k g m : ~ In k regional_keys -> ~ In k unit_keys -> keyed m -> keyed (set_m_rhs (dset k g (m_rhs m)) m).
Proof.
  intros N1 N2 [A B C D]. constructor; fields; auto.
  - intros k' g' H. rewrite dget_dset_cases in H. destruct (String.eqb k' k) eqn:E; [|eauto].
    apply String.eqb_eq in E. now subst.
  - intros k' g' Hu H. rewrite dget_dset_cases in H. destruct (String.eqb k' k) eqn:E; [|eauto].
    apply String.eqb_eq in E. now subst.
  - now apply dset_NoDup.
Qed.

Lemma unit_not_regional k : In k unit_keys -> ~ In k regional_keys.
Proof. unfold unit_keys, regional_keys. cbn. intuition (subst; discriminate). Qed.

Lemma keyed_unit k g cs m : In k unit_keys -> keyed m ->
  keyed (set_m_c2v_unit (dset k cs (m_c2v_unit m)) (set_m_rhs (dset k g (m_rhs m)) m)).
Proof.
  intros N [A B C D]. constructor; fields; auto.
  - intros k' g' H. rewrite dget_dset_cases in H. destruct (String.eqb k' k) eqn:E; [|eauto].
    apply String.eqb_eq in E. subst. now apply unit_not_regional.
  - intros k' g' Hu H. unfold dhas. rewrite dget_dset_cases. rewrite dget_dset_cases in H. destruct (String.eqb k' k) eqn:E; [reflexivity|].
    specialize (C k' g' Hu H). exact C.
  - now apply dset_NoDup.
Qed.

Lemma new_unit_group_keyed k mr mm m : In k unit_keys -> keyed m -> keyed (fst (new_unit_group k mr mm m)).
Proof.
  intros Hk H. unfold new_unit_group.
  assert (P : forall r c m0, keyed m0 -> keyed (put_unit k r c m0)).
  { intros r c m0 H0. eapply keyed_same; [..|apply (keyed_unit k r c m0 Hk H0)]; reflexivity. }
  destruct (m_nc m).
  - destruct (next_id _); fields; [|now apply P].
    eapply keyed_same; [..|apply (P (mr n) (mm n) m H)]; reflexivity.
  - destruct (mr 0%nat); fields; now apply P.
Qed.

Lemma new_regional_group_keyed k mr mm m : In k regional_keys -> keyed m -> keyed (fst (new_regional_group k mr mm m)).
Proof.
  intros Hk H. unfold new_regional_group.
  assert (P : forall r c m0, keyed m0 -> keyed (put_regional k r c m0)).
  { intros r c m0 [A B C D]. unfold put_regional. constructor; fields; auto.
    intros k' g H0. rewrite dget_dset_cases in H0. destruct (String.eqb k' k) eqn:E; [|eauto].
    apply String.eqb_eq in E. now subst. }
  destruct (m_nc m).
  - destruct (next_id _); fields; [|now apply P].
    eapply keyed_same; [..|apply (P (mr n) (mm n) m H)]; reflexivity.
  - destruct (mr 0%nat); fields; now apply P.
Qed.

Lemma add_deficits_keyed k rows m : keyed m -> keyed (fst (add_deficits k rows m)).
Proof.
  intros H. unfold add_deficits. destruct rows; [exact H|].
  destruct (next_id _); eapply keyed_same; [..|exact H| | | |exact H]; reflexivity.
Qed.
Lemma make_elastic_keyed k v m : keyed m -> keyed (fst (make_elastic k v m)).
Proof.
  intros H. unfold make_elastic. destruct (group_rows k m) as [g|]; [|exact H]. destruct v.
  - now apply add_deficits_keyed.
  - apply guard_fst; [exact H|]. intros _. destruct (has_set_column k); [|exact H]. now apply add_deficits_keyed.
  - destruct g; exact H.
Qed.

Lemma step_keyed o m : keyed m -> keyed (fst (step o m)).
Proof.
  intros H.
  apply (step_preserves keyed (fun _ => True)) with (ok := fun _ _ => True); auto; clear o m H.
  - intros t m1 H. unfold set_volume_bids. repeat (apply guard_fst; [exact H|intros _]).
    destruct (next_id _); eapply keyed_same; [..|exact H| | | |exact H]; reflexivity.
  - intros t m1 H. unfold set_price_bids. destruct (m_bids m1); [|exact H].
    repeat (apply guard_fst; [exact H|intros _]). eapply keyed_same; [..|exact H]; reflexivity.
  - intros. now apply new_unit_group_keyed.
  - intros. now apply new_regional_group_keyed.
  - intros. now apply make_elastic_keyed.
  - intros m1 _ H. unfold remove_fast_start.
    set (m2 := if dhas "fast_start" (m_rhs m1) then _ else m1).
    assert (K2 : keyed m2).
    { unfold m2. destruct (dhas "fast_start" (m_rhs m1)) eqn:E; [|exact H]. destruct H as [A B C D].
      constructor; fields; auto.
      - intros k g Hd. destruct (String.eqb k "fast_start") eqn:Ek.
        + apply String.eqb_eq in Ek. subst. cbn. intuition discriminate.
        + apply String.eqb_neq in Ek. rewrite dget_ddel_other in Hd by auto. eauto.
      - intros k g Hu Hd. destruct (String.eqb k "fast_start") eqn:Ek.
        + apply String.eqb_eq in Ek. subst. exfalso.
          rewrite ddel_gone in Hd by auto. discriminate.
        + apply String.eqb_neq in Ek. rewrite dget_ddel_other in Hd by auto.
          unfold dhas. rewrite dget_ddel_other by auto. now apply (C k g).
      - now apply ddel_NoDup. }
    destruct (dhas "fast_start_deficit" _); fields; [|exact K2].
    eapply keyed_same; [..|exact K2]; reflexivity.
  - intros l m1 H. unfold set_interconnectors. apply guard_fst; [exact H|intros _].
    destruct (next_id _); eapply keyed_same; [..|exact H| | | |exact H]; reflexivity.
  - intros l m1 H. eapply keyed_same; [..|exact H]; reflexivity.
  - intros l m1 H. eapply keyed_same; [..|exact H]; reflexivity.
  - intros l m1 H. eapply keyed_same; [..|exact H]; reflexivity.
  - intros pairs m1 _ _ H.
    assert (K : keyed (set_m_rhs (dset "tie_break" (match m_nc m1 with Some n => tie_rhs pairs n | None => [] end) (m_rhs m1)) m1)).
    { apply keyed_rhs; auto; cbn; intuition discriminate. }
    unfold put_tie. destruct (m_nc m1); eapply keyed_same; [..|exact K| | | |exact K]; reflexivity.
  - intros lf bps m1 _ _ H. destruct (set_losses_cases lf bps m1) as [[e E]|[[e E]|[p [_ E]]]]; rewrite E; fields.
    + exact H.
    + eapply keyed_same; [..|exact H]; reflexivity.
    + assert (K : keyed (set_m_rhs (dset "interpolation_weights" (match m_nc m1 with Some n => lp_sum_rhs p | None => [] end) (m_rhs m1)) m1)).
      { apply keyed_rhs; auto; cbn; intuition discriminate. }
      unfold put_losses. destruct (m_nc m1); eapply keyed_same; [..|exact K| | | |exact K]; reflexivity.
  - intros l v m1 _ _ H.
    assert (K : keyed (set_m_rhs (dset "generic" (match m_nc m1 with Some n => generic_rhs l n | None => [] end) (m_rhs m1)) m1)).
    { apply keyed_rhs; auto; cbn; intuition discriminate. }
    unfold put_generic. destruct (m_nc m1); eapply keyed_same; [..|exact K| | | |exact K]; reflexivity.
Qed.

Lemma reached_keyed c m : reached c m -> keyed m.
Proof.
  intros [m0 [ops [H1 [_ ->]]]]. apply (run_preserves keyed); [intros; now apply step_keyed|].
  unfold new_market in H1. destruct (check_unit_info c); [discriminate|]. inversion H1; subst.
  constructor; try (intros; discriminate). constructor.
Qed.


(** ** The state of an elastic group *)

Definition costed (v : vcost) (g : list crow) : list (crow * Q) :=
  match v with
  | VNum c => map (fun r => (r, c)) g
  | VTable t => map (fun p => (fst p, snd (snd p))) (merge (fun r (s : string * Q) => in_set r (fst s)) g t)
  | VOther => []
  end.

Definition elastic_state (k : string) (v : vcost) (m : market) : Prop :=
  forall g, group m k = Some g -> costed v g = [] \/ exists n,
    dget (deficit_key k) (m_lhs m) = Some (deficit_lhs (costed v g) n)
    /\ dget (deficit_key k) (m_deficits m) = Some (deficit_variables (costed v g) n)
    /\ dget (deficit_key k) (m_obj_def m) = Some (deficit_costs (costed v g) n).

Lemma elastic_state_same k v m m' : same_def k m m' -> elastic_state k v m -> elastic_state k v m'.
Proof.
  intros [[E1 [E2 [_ [_ E3]]]] [E4 E5]] H g G. unfold group in G. rewrite E1, E2 in G.
  destruct (H g G) as [Z|[n [A [B C]]]]; [now left|]. right. exists n. rewrite E3, E4, E5. auto.
Qed.

Lemma add_deficits_state k v g m m' : group m k = Some g ->
  add_deficits k (costed v g) m = (m', None) -> elastic_state k v m'.
Proof.
  intros G H g' G'. unfold add_deficits in H. destruct (costed v g) as [|r0 t] eqn:E.
  - inversion H; subst m'. assert (g' = g) by congruence. subst. now left.
  - right. destruct (next_id _) as [n'|] eqn:N; inversion H; subst m'.
    revert G'. unfold group; fields. intros G'. assert (g' = g) by (unfold group in G; congruence). subst g'.
    exists (m_nv m). rewrite !dget_dset_same, E. auto.
Qed.

Lemma make_elastic_state k v m m' : make_elastic k v m = (m', None) -> elastic_state k v m'.
Proof.
  unfold make_elastic. change (group_rows k m) with (group m k). destruct (group m k) as [g|] eqn:G; [|discriminate].
  destruct v.
  - apply (add_deficits_state k (VNum c) g). exact G.
  - intros H. apply guard_ok in H. destruct H as [_ H]. destruct (has_set_column k); [|discriminate].
    revert H. apply (add_deficits_state k (VTable t) g). exact G.
  - destruct g; [|discriminate]. intros H g' G'. inversion H; subst. now left.
Qed.

Lemma elastic_if_present_state k v m m' : In k unit_keys -> keyed m -> elastic_if_present k v m = (m', None) -> elastic_state k v m'.
Proof.
  intros Hk K. unfold elastic_if_present. destruct (dhas k (m_c2v_unit m)) eqn:E; [apply make_elastic_state|].
  intros H g G. inversion H; subst. exfalso. unfold group in G.
  destruct (dget k (m_mrhs m')) eqn:G1.
  - apply (ky_reg _ K) in G1. now apply (unit_not_regional k).
  - apply (ky_unit _ K k g Hk) in G. congruence.
Qed.

Lemma elastic_if_present_same_def k k' v m : k' <> k -> same_def k m (fst (elastic_if_present k' v m)).
Proof.
  intros N. unfold elastic_if_present. destruct (dhas k' (m_c2v_unit m)); [now apply make_elastic_same_def|apply same_def_refl].
Qed.
Lemma elastic_if_present_keyed k v m : keyed m -> keyed (fst (elastic_if_present k v m)).
Proof. intros. unfold elastic_if_present. destruct (dhas k (m_c2v_unit m)); [now apply make_elastic_keyed|auto]. Qed.

(** The four groups of the ramping calls. *)
Lemma four_elastic a b c d v m m' : In c unit_keys -> In d unit_keys -> keyed m -> NoDup [a; b; c; d] ->
  andthen (make_elastic a v m) (fun m =>
  andthen (make_elastic b v m) (fun m =>
  andthen (elastic_if_present c v m) (fun m => elastic_if_present d v m))) = (m', None) ->
  forall k, In k [a; b; c; d] -> elastic_state k v m'.
Proof.
  intros Hc Hd K0 ND H.
  apply andthen_ok in H. destruct H as [m1 [H1 H]]. apply andthen_ok in H. destruct H as [m2 [H2 H]].
  apply andthen_ok in H. destruct H as [m3 [H3 H4]].
  assert (K1 : keyed m1) by (change m1 with (fst (m1, @None err)); rewrite <- H1; now apply make_elastic_keyed).
  assert (K2 : keyed m2) by (change m2 with (fst (m2, @None err)); rewrite <- H2; now apply make_elastic_keyed).
  assert (K3 : keyed m3) by (change m3 with (fst (m3, @None err)); rewrite <- H3; now apply elastic_if_present_keyed).
  assert (S2 : forall k, k <> b -> same_def k m1 m2).
  { intros k N. change m2 with (fst (m2, @None err)); rewrite <- H2. now apply make_elastic_same_def; auto. }
  assert (S3 : forall k, k <> c -> same_def k m2 m3).
  { intros k N. change m3 with (fst (m3, @None err)); rewrite <- H3. now apply elastic_if_present_same_def; auto. }
  assert (S4 : forall k, k <> d -> same_def k m3 m').
  { intros k N. change m' with (fst (m', @None err)); rewrite <- H4. now apply elastic_if_present_same_def; auto. }
  inversion ND as [|? ? N1 ND1]; subst. inversion ND1 as [|? ? N2 ND2]; subst. inversion ND2 as [|? ? N3 ND3]; subst.
  cbn in N1, N2, N3.
  intros k [<-|[<-|[<-|[<-|[]]]]].
  - eapply elastic_state_same; [apply S4; intuition congruence|]. eapply elastic_state_same; [apply S3; intuition congruence|].
    eapply elastic_state_same; [apply S2; intuition congruence|]. now apply (make_elastic_state _ _ m).
  - eapply elastic_state_same; [apply S4; intuition congruence|]. eapply elastic_state_same; [apply S3; intuition congruence|].
    now apply (make_elastic_state _ _ m1).
  - eapply elastic_state_same; [apply S4; intuition congruence|]. now apply (elastic_if_present_state _ _ m2).
  - now apply (elastic_if_present_state _ _ m3).
Qed.

Lemma new_unit_group_if_keyed {A} (l : list A) k mr mm m : In k unit_keys -> keyed m -> keyed (fst (new_unit_group_if l k mr mm m)).
Proof. intros. destruct l; cbn; [auto|now apply new_unit_group_keyed]. Qed.

Lemma step_elastic_state c o k v m m' : reached c m -> In k (touches o) -> cost_arg o = Some v ->
  (forall l w, o = OpFastStart l w -> group m k = None) ->
  step o m = (m', None) -> elastic_state k v m'.
Proof.
  intros R Hk Hv Hf H. apply reached_keyed in R.
  destruct o; cbn [cost_arg] in Hv; try discriminate; cbn [touches] in Hk; cbn [step] in H.
  - destruct Hk as [<-|[]]. subst. unfold set_capacity, need_bids in H. destruct (m_bids m); [|discriminate].
    apply guard_ok in H. destruct H as [_ H]. apply andthen_ok in H. destruct H as [m1 [_ H]]. now apply make_elastic_state in H.
  - destruct Hk as [<-|[]]. subst. unfold set_uigf, need_bids in H. destruct (m_bids m); [|discriminate].
    apply guard_ok in H. destruct H as [_ H]. apply andthen_ok in H. destruct H as [m1 [_ H]]. now apply make_elastic_state in H.
  - subst. unfold set_ramp in H. do 4 (apply guard_ok in H; destruct H as [_ H]).
    destruct (ramp_step _ _ _ _ _ _) as [l|e]; [|discriminate].
    apply andthen_ok in H. destruct H as [m1 [H1 H]]. apply andthen_ok in H. destruct H as [m2 [H2 H]].
    apply andthen_ok in H. destruct H as [m3 [H3 H]].
    assert (K3 : keyed m3).
    { change m3 with (fst (m3, @None err)). rewrite <- H3.
      assert (K2 : keyed m2).
      { change m2 with (fst (m2, @None err)). rewrite <- H2. apply new_unit_group_keyed; [cbn; auto 20|].
        change m1 with (fst (m1, @None err)). rewrite <- H1. apply new_unit_group_keyed; [cbn; auto 20|auto]. }
      destruct (bdu_ramp_step _ _ _ _); [exact K2|].
      apply andthen_fst; [apply new_unit_group_keyed; [cbn; auto 20|auto]|].
      intros. apply new_unit_group_keyed; [cbn; auto 20|auto]. }
    revert k Hk Hf. intros k Hk _. revert k Hk.
    apply (four_elastic "ramp_up" "ramp_down" "bidirectional_ramp_up" "bidirectional_ramp_down" v m3); auto;
      try (cbn; auto 20; fail).
    repeat constructor; cbn; intuition discriminate.
  - destruct Hk as [<-|[]]. subst. unfold set_fast_start in H.
    apply guard_ok in H. destruct H as [_ H]. destruct (fast_start_rhs _ 0).
    + inversion H; subst. intros g G. rewrite (Hf l (Some v) eq_refl) in G. discriminate.
    + apply andthen_ok in H. destruct H as [m1 [_ H]]. now apply make_elastic_state in H.
  - destruct Hk as [<-|[]]. subst. unfold set_demand in H. apply guard_ok in H. destruct H as [_ H].
    apply andthen_ok in H. destruct H as [m1 [_ H]]. now apply make_elastic_state in H.
  - destruct Hk as [<-|[]]. subst. unfold set_fcas_req in H. apply guard_ok in H. destruct H as [_ H].
    apply andthen_ok in H. destruct H as [m1 [_ H]]. now apply make_elastic_state in H.
  - destruct Hk as [<-|[]]. subst. unfold set_max_avail in H. apply guard_ok in H. destruct H as [_ H].
    apply andthen_ok in H. destruct H as [m1 [_ H]]. now apply make_elastic_state in H.
  - subst. unfold set_joint_ramping in H. do 2 (apply guard_ok in H; destruct H as [_ H]).
    destruct (m_bids m) as [vs|]; [|discriminate]. destruct (fast_start_adjust _ _ _ _) as [rates|e]; [|discriminate].
    cbv zeta in H.
    apply andthen_ok in H. destruct H as [m1 [H1 H]]. apply andthen_ok in H. destruct H as [m2 [H2 H]].
    apply andthen_ok in H. destruct H as [m3 [H3 H]]. apply andthen_ok in H. destruct H as [m4 [H4 H]].
    assert (K4 : keyed m4).
    { change m4 with (fst (m4, @None err)). rewrite <- H4. apply new_unit_group_if_keyed; [cbn; auto 20|].
      change m3 with (fst (m3, @None err)). rewrite <- H3. apply new_unit_group_if_keyed; [cbn; auto 20|].
      change m2 with (fst (m2, @None err)). rewrite <- H2. apply new_unit_group_if_keyed; [cbn; auto 20|].
      change m1 with (fst (m1, @None err)). rewrite <- H1. apply new_unit_group_if_keyed; [cbn; auto 20|auto]. }
    apply (four_elastic "joint_ramping_raise_reg" "joint_ramping_lower_reg" "joint_ramping_raise_reg_bdu"
      "joint_ramping_lower_reg_bdu" v m4); auto; try (cbn; auto 20; fail).
    + repeat constructor; cbn; intuition discriminate.
    + cbn in *. tauto.
  - destruct Hk as [<-|[]]. subst. unfold set_joint_capacity in H. apply guard_ok in H. destruct H as [_ H].
    destruct l; [discriminate|]. apply andthen_ok in H. destruct H as [m1 [_ H]]. now apply make_elastic_state in H.
  - destruct Hk as [<-|[]]. subst. unfold set_energy_reg in H. apply guard_ok in H. destruct H as [_ H].
    destruct l; [discriminate|]. apply andthen_ok in H. destruct H as [m1 [_ H]]. now apply make_elastic_state in H.
  - destruct Hk as [<-|[]]. subst. unfold set_generic in H. apply guard_ok in H. destruct H as [_ H].
    now apply make_elastic_state in H.
  - destruct Hk as [<-|[]]. inversion Hv; subst. now apply make_elastic_state in H.
  - destruct Hk as [<-|[]]. inversion Hv; subst. unfold set_tie_break in H. destruct (m_obj_bids m); [|discriminate].
    destruct (m_bids m); [|discriminate]. destruct (tie_pairs _); [discriminate|]. now apply make_elastic_state in H.
Qed.

Lemma made_elastic_state c k v m : made_elastic c k v m -> reached c m /\ elastic_state k v m.
Proof.
  intros [o [m' [[m0 [pre [post [H1 [H2 [-> [H3 [H4 ->]]]]]]]] [Hk [Hv Hf]]]]].
  split; [exists m0, (pre ++ o :: post); auto|].
  rewrite run_app, run_cons. eapply elastic_state_same; [apply run_same_def; now apply H4|].
  unfold sane in H2. apply along_app in H2. destruct H2 as [H2 _].
  assert (R : reached c (run pre m0)) by (exists m0, pre; auto).
  destruct (step o (run pre m0)) as [m1 e] eqn:St. cbn [snd] in H3. subst e. cbn [fst].
  apply (step_elastic_state c o k v _ _ R Hk Hv Hf St).
Qed.
