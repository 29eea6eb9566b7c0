(** Tables set by a call stay as they are while other calls are made. *)

From Coq Require Import QArith Lqa String List Bool Arith Lia ZArith.
Import ListNotations.
From Verif Require Import PandasModel TablesModel VariableIdsModel MarketConstraintsModel
  UnitConstraintsModel RampModel FcasModel InterModel ElasticModel MarketModel SolverModel
  SpecLp PandasFacts SpecHistory SpecIds SpecDispatch StepFacts InvariantFacts OwnerFacts SolverFacts
  MeaningFacts LimitFacts.
Open Scope string_scope.
Open Scope list_scope.

Definition same_bids (m m' : market) : Prop :=
  m_bids m' = m_bids m /\ m_reg_bids m' = m_reg_bids m /\ m_unit_bids m' = m_unit_bids m.
Definition same_inter (m m' : market) : Prop :=
  m_inter m' = m_inter m /\ m_reg_inter m' = m_reg_inter m /\ m_directions m' = m_directions m.
Definition same_loss (m m' : market) : Prop :=
  m_loss m' = m_loss m /\ m_reg_loss m' = m_reg_loss m /\ m_weights m' = m_weights m
  /\ m_shares m' = m_shares m /\ m_dyn m' = m_dyn m
  /\ dget "interconnector_losses" (m_lhs m') = dget "interconnector_losses" (m_lhs m).

Definition same_table (k : string) (m m' : market) : Prop :=
  (k = "bids" -> same_bids m m') /\ (k = "prices" -> m_obj_bids m' = m_obj_bids m)
  /\ (k = "interconnectors" -> same_inter m m') /\ (k = "losses" -> same_loss m m')
  /\ (k = "unit links" -> m_gen_unit m' = m_gen_unit m)
  /\ (k = "region links" -> m_gen_region m' = m_gen_region m)
  /\ (k = "interconnector links" -> m_gen_inter m' = m_gen_inter m)
  /\ (k = "tie_break" -> dget "tie_break" (m_lhs m') = dget "tie_break" (m_lhs m)).

Lemma same_table_refl k m : same_table k m m.
Proof. repeat split. Qed.

Lemma same_table_trans k m1 m2 m3 : same_table k m1 m2 -> same_table k m2 m3 -> same_table k m1 m3.
Proof.
  unfold same_table, same_bids, same_inter, same_loss. intros H1 H2.
  repeat match goal with |- _ /\ _ => split end; intros Ek; subst k; cbn in *;
    intuition congruence.
Qed.

(** States that differ only in constraint groups and counters. *)
Lemma same_table_groups k m m' :
  m_bids m' = m_bids m -> m_reg_bids m' = m_reg_bids m -> m_unit_bids m' = m_unit_bids m ->
  m_obj_bids m' = m_obj_bids m -> m_inter m' = m_inter m -> m_reg_inter m' = m_reg_inter m ->
  m_directions m' = m_directions m -> m_loss m' = m_loss m -> m_reg_loss m' = m_reg_loss m ->
  m_weights m' = m_weights m -> m_shares m' = m_shares m -> m_dyn m' = m_dyn m ->
  m_gen_unit m' = m_gen_unit m -> m_gen_region m' = m_gen_region m -> m_gen_inter m' = m_gen_inter m ->
  dget "interconnector_losses" (m_lhs m') = dget "interconnector_losses" (m_lhs m) ->
  dget "tie_break" (m_lhs m') = dget "tie_break" (m_lhs m) -> same_table k m m'.
Proof. intros. unfold same_table, same_bids, same_inter, same_loss. auto 20. Qed.

Ltac groups := apply same_table_groups; fields; rewrite ?dget_dset_other, ?dget_ddel_other; auto;
  try (intros E; symmetry in E; revert E); try apply deficit_key_losses; try apply deficit_key_tie;
  try (change "fast_start_deficit" with (deficit_key "fast_start");
       first [apply deficit_key_losses|apply deficit_key_tie]); try discriminate.

Lemma step_same_table k o m : ~ In k (touches o) -> same_table k m (fst (step o m)).
Proof.
  intros Ht.
  apply (step_preserves_all (same_table k m) (fun k' => k' <> k)) with (ok := fun _ _ => True); auto;
    [..|apply same_table_refl].
  - intros t m1 N H. eapply same_table_trans; [exact H|]. unfold set_volume_bids.
    repeat (apply guard_fst; [apply same_table_refl|intros _]).
    destruct (next_id _); unfold same_table, same_bids, same_inter, same_loss; fields;
      repeat split; congruence.
  - intros t m1 N H. eapply same_table_trans; [exact H|]. unfold set_price_bids.
    destruct (m_bids m1); [|apply same_table_refl].
    repeat (apply guard_fst; [apply same_table_refl|intros _]).
    unfold same_table, same_bids, same_inter, same_loss; fields; repeat split; congruence.
  - intros k' mr mm m1 _ N _ H. eapply same_table_trans; [exact H|]. unfold new_unit_group, put_unit.
    destruct (m_nc m1); [destruct (next_id _)|destruct (mr 0%nat)]; groups.
  - intros k' mr mm m1 _ N _ H. eapply same_table_trans; [exact H|]. unfold new_regional_group, put_regional.
    destruct (m_nc m1); [destruct (next_id _)|destruct (mr 0%nat)]; groups.
  - intros k' v m1 N H. eapply same_table_trans; [exact H|]. unfold make_elastic.
    destruct (group_rows k' m1); [|apply same_table_refl].
    assert (A : forall rows, same_table k m1 (fst (add_deficits k' rows m1))).
    { intros rows. unfold add_deficits. destruct rows; [apply same_table_refl|].
      destruct (next_id _); groups. }
    destruct v; auto.
    + apply guard_fst; [apply same_table_refl|]. intros _. destruct (has_set_column k'); auto.
      apply same_table_refl.
    + destruct l; apply same_table_refl.
  - intros m1 N H. eapply same_table_trans; [exact H|]. unfold remove_fast_start.
    destruct (dhas "fast_start" (m_rhs m1)); fields; destruct (dhas "fast_start_deficit" (m_deficits m1)); groups.
  - intros l m1 N H. eapply same_table_trans; [exact H|]. unfold set_interconnectors.
    apply guard_fst; [apply same_table_refl|intros _].
    destruct (next_id _); unfold same_table, same_bids, same_inter, same_loss; fields; repeat split; congruence.
  - intros l m1 N H. eapply same_table_trans; [exact H|].
    unfold same_table, same_bids, same_inter, same_loss; fields; repeat split; congruence.
  - intros l m1 N H. eapply same_table_trans; [exact H|].
    unfold same_table, same_bids, same_inter, same_loss; fields; repeat split; congruence.
  - intros l m1 N H. eapply same_table_trans; [exact H|].
    unfold same_table, same_bids, same_inter, same_loss; fields; repeat split; congruence.
  - intros pairs m1 N _ H. eapply same_table_trans; [exact H|]. unfold put_tie.
    destruct (m_nc m1); unfold same_table, same_bids, same_inter, same_loss; fields; repeat split;
      rewrite ?dget_dset_other by discriminate; congruence.
  - intros lf bps m1 N1 N2 _ H. eapply same_table_trans; [exact H|].
    destruct (set_losses_cases lf bps m1) as [[e E]|[[e E]|[p [_ E]]]]; rewrite E; fields.
    + apply same_table_refl.
    + unfold same_table, same_bids, same_inter, same_loss; fields; repeat split; congruence.
    + unfold put_losses, same_table, same_bids, same_inter, same_loss; fields; repeat split;
      rewrite ?dget_dset_other by discriminate; congruence.
  - intros l v m1 N _ H. eapply same_table_trans; [exact H|]. unfold put_generic.
    destruct (m_nc m1); groups.
  - intros k' Hk' E. subst. now apply Ht.
Qed.

Lemma run_same_table k ops m : leaves k ops -> same_table k m (run ops m).
Proof.
  intros H. apply (run_preserves (same_table k m)); [|apply same_table_refl].
  intros o m1 Ho H1. eapply same_table_trans; [exact H1|]. now apply step_same_table, H.
Qed.

(** The state right after a standing call. *)
Lemma stands_inv_table c m0 ops o : new_market c = Ok m0 -> sane ops m0 -> stands m0 ops o ->
  exists m' m1, owned m' /\ m_cfg m' = c /\ step o m' = (m1, None)
    /\ (forall k, In k (touches o) -> same_group k m1 (run ops m0))
    /\ (forall k, In k (touches o) -> same_table k m1 (run ops m0)).
Proof.
  intros H1 H2 [pre [post [-> [H3 H4]]]].
  unfold sane in H2. apply along_app in H2. destruct H2 as [S1 [S2 S3]].
  destruct (step o (run pre m0)) as [m1 e] eqn:E. cbn in H3. subst e.
  exists (run pre m0), m1. split; [now apply (run_owned c)|]. split; [now apply run_cfg_new|].
  split; [exact E|]. split; intros k Hk; rewrite run_app, run_cons, E; cbn [fst];
    [now apply run_same_group, H4|now apply run_same_table, H4].
Qed.

Lemma in_force_table c o m : in_force c o m ->
  owned m /\ m_cfg m = c /\
  exists m' m1, owned m' /\ m_cfg m' = c /\ step o m' = (m1, None)
    /\ (forall k, In k (touches o) -> same_group k m1 m)
    /\ (forall k, In k (touches o) -> same_table k m1 m).
Proof.
  intros [m0 [ops [H1 [H2 [H3 ->]]]]].
  split; [now apply (run_owned c)|]. split; [now apply run_cfg_new|]. now apply (stands_inv_table c).
Qed.
