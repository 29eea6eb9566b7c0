(** Removing the fast start constraints. *)

From Coq Require Import QArith String List Bool Arith Lia.
Import ListNotations.
From Verif Require Import PandasModel TablesModel UnitConstraintsModel ElasticModel MarketModel SolverModel SpecLp SpecHistory SpecElastic SpecReplace.
From Verif Require Import PandasFacts StepFacts InvariantFacts MeaningFacts ElasticStateFacts.
Open Scope string_scope.
Open Scope list_scope.

Lemma dhas_dset {A} k k' (a : A) d : dhas k (dset k' a d) = String.eqb k k' || dhas k d.
Proof. unfold dhas. rewrite dget_dset_cases. now destruct (String.eqb k k'). Qed.

Lemma dhas_ddel {A} k k' (d : dict A) : NoDup (dkeys d) -> dhas k (ddel k' d) = negb (String.eqb k k') && dhas k d.
Proof.
  intros N. unfold dhas. destruct (String.eqb k k') eqn:E.
  - apply String.eqb_eq in E. subst. now rewrite ddel_gone.
  - apply String.eqb_neq in E. now rewrite dget_ddel_other.
Qed.

Lemma ddel_dset {A} k (a : A) d : ddel k (dset k a d) = ddel k d.
Proof.
  induction d as [|[k' v'] t IH]; cbn [dset ddel].
  - now rewrite String.eqb_refl.
  - destruct (String.eqb k k') eqn:E; cbn [ddel]; rewrite ?String.eqb_refl; [reflexivity|].
    rewrite E. now f_equal.
Qed.

Lemma ddel_none {A} k (d : dict A) : dhas k d = false -> ddel k d = d.
Proof.
  unfold dhas. induction d as [|[k' v'] t IH]; cbn [dget ddel]; [reflexivity|].
  destruct (String.eqb k k'); [discriminate|]. intros H. f_equal. now apply IH.
Qed.

Definition fs := "fast_start".
Definition fsd := "fast_start_deficit".

(** The entries of the fast start group in the different dictionaries go together. *)
Record fast (m : market) : Prop := {
  fa_unit : NoDup (dkeys (m_c2v_unit m));
  fa_def : NoDup (dkeys (m_deficits m));
  fa_obj : NoDup (dkeys (m_obj_def m));
  fa_lhs : NoDup (dkeys (m_lhs m));
  fa_ru : dhas fs (m_c2v_unit m) = dhas fs (m_rhs m);
  fa_do : dhas fsd (m_obj_def m) = dhas fsd (m_deficits m);
  fa_dl : dhas fsd (m_lhs m) = dhas fsd (m_deficits m);
  fa_rd : dhas fs (m_rhs m) = false -> dhas fsd (m_deficits m) = false }.

Lemma fast_same m m' : m_rhs m' = m_rhs m -> m_c2v_unit m' = m_c2v_unit m -> m_deficits m' = m_deficits m ->
  m_obj_def m' = m_obj_def m -> m_lhs m' = m_lhs m -> fast m -> fast m'.
Proof. intros E1 E2 E3 E4 E5 [A B C D E F G H]. constructor; rewrite ?E1, ?E2, ?E3, ?E4, ?E5; auto. Qed.

Lemma fast_rhs k g m : k <> fs -> fast m -> fast (set_m_rhs (dset k g (m_rhs m)) m).
Proof.
  intros N [A B C D E F G H]. assert (E' : String.eqb fs k = false) by (apply String.eqb_neq; congruence).
  constructor; fields; rewrite ?dhas_dset, ?E'; auto.
Qed.

Lemma fast_lhs k g m : k <> fsd -> fast m -> fast (set_m_lhs (dset k g (m_lhs m)) m).
Proof.
  intros N [A B C D E F G H]. assert (E' : String.eqb fsd k = false) by (apply String.eqb_neq; congruence).
  constructor; fields; rewrite ?dhas_dset, ?E'; auto. now apply dset_NoDup.
Qed.

Lemma put_unit_fast k r c m : fast m -> fast (put_unit k r c m).
Proof.
  intros [A B C D E F G H]. unfold put_unit. constructor; fields; rewrite ?dhas_dset; auto.
  - now apply dset_NoDup.
  - now rewrite E.
  - intros N. apply orb_false_iff in N. tauto.
Qed.

Lemma new_unit_group_fast k mr mm m : fast m -> fast (fst (new_unit_group k mr mm m)).
Proof.
  intros H. unfold new_unit_group. destruct (m_nc m).
  - pose proof (put_unit_fast k (mr n) (mm n) m H) as P. destruct (next_id _); fields; [|exact P].
    eapply fast_same; [..|exact P]; reflexivity.
  - pose proof (put_unit_fast k [] [] m H) as P. destruct (mr 0%nat); exact P.
Qed.

Lemma add_deficits_fast k rows m : (k = fs -> dhas fs (m_rhs m) = true) -> fast m -> fast (fst (add_deficits k rows m)).
Proof.
  intros K H. unfold add_deficits. destruct rows as [|r rs]; [exact H|]. set (l := r :: rs). clearbody l.
  destruct H as [A B C D E F G H].
  assert (W : forall a b c, fast (set_m_lhs (dset (deficit_key k) c (m_lhs m)) (set_m_obj_def (dset (deficit_key k) b (m_obj_def m))
    (set_m_deficits (dset (deficit_key k) a (m_deficits m)) m)))).
  { intros a b c. constructor; fields; rewrite ?dhas_dset; auto; try (now apply dset_NoDup); [now rewrite F|now rewrite G|].
    intros N. rewrite (H N), orb_false_r. apply String.eqb_neq. intros Q.
    change fsd with (deficit_key fs) in Q. apply deficit_key_inj in Q. rewrite K in N; congruence. }
  fields. destruct (next_id _); fields; [|apply W].
  eapply fast_same; [..|apply (W (deficit_variables l (m_nv m)) (deficit_costs l (m_nv m)) (deficit_lhs l (m_nv m)))]; reflexivity.
Qed.

Lemma make_elastic_fast k v m : keyed m -> fast m -> fast (fst (make_elastic k v m)).
Proof.
  intros K H. unfold make_elastic. destruct (group_rows k m) as [g|] eqn:Eg; [|exact H].
  assert (P : k = fs -> dhas fs (m_rhs m) = true).
  { intros ->. unfold group_rows in Eg. destruct (dget fs (m_mrhs m)) eqn:E.
    - apply (ky_reg m K) in E. exfalso. revert E. unfold fs. cbn. intuition discriminate.
    - unfold dhas. now rewrite Eg. }
  destruct v.
  - now apply add_deficits_fast.
  - apply guard_fst; [exact H|]. intros _. destruct (has_set_column k); [|exact H]. now apply add_deficits_fast.
  - destruct g; exact H.
Qed.

(** What removing does. *)
Definition without (m : market) : market :=
  set_m_c2v_unit (ddel fs (m_c2v_unit m)) (set_m_rhs (ddel fs (m_rhs m))
    (set_m_lhs (ddel fsd (m_lhs m)) (set_m_obj_def (ddel fsd (m_obj_def m))
      (set_m_deficits (ddel fsd (m_deficits m)) m)))).

Lemma remove_is m : fast m -> remove_fast_start m = (without m, None).
Proof.
  intros [A B C D E F G H]. unfold remove_fast_start, without, done. f_equal. change "fast_start" with fs. change "fast_start_deficit" with fsd.
  destruct (dhas fs (m_rhs m)) eqn:ER; fields; destruct (dhas fsd (m_deficits m)) eqn:ED; fields.
  - reflexivity.
  - rewrite (ddel_none fsd (m_lhs m)), (ddel_none fsd (m_obj_def m)), (ddel_none fsd (m_deficits m)) by auto. reflexivity.
  - specialize (H eq_refl). congruence.
  - rewrite (ddel_none fsd (m_lhs m)), (ddel_none fsd (m_obj_def m)), (ddel_none fsd (m_deficits m)) by auto.
    rewrite (ddel_none fs (m_c2v_unit m)), (ddel_none fs (m_rhs m)) by auto. now destruct m.
Qed.

Lemma without_fast m : keyed m -> fast m -> fast (without m).
Proof.
  intros K [A B C D E F G H]. pose proof (ky_nodup m K) as N. unfold without.
  constructor; fields; rewrite ?dhas_ddel by auto; auto; try (now apply ddel_NoDup).
Qed.

Lemma step_fast o m : keyed m /\ fast m -> keyed (fst (step o m)) /\ fast (fst (step o m)).
Proof.
  intros [K H]. split; [now apply step_keyed|].
  assert (X : keyed (fst (step o m)) /\ fast (fst (step o m))); [|apply X].
  apply (step_preserves (fun m => keyed m /\ fast m) (fun _ => True)) with (ok := fun _ _ => True); auto; clear o m K H.
  - intros t m1 [K H]. split; [apply (step_keyed (OpVolumeBids t) m1 K)|].
    unfold set_volume_bids. repeat (apply guard_fst; [exact H|intros _]).
    destruct (next_id _); eapply fast_same; [..|exact H| | | | | |exact H]; reflexivity.
  - intros t m1 [K H]. split; [apply (step_keyed (OpPriceBids t) m1 K)|].
    unfold set_price_bids. destruct (m_bids m1); [|exact H].
    repeat (apply guard_fst; [exact H|intros _]). eapply fast_same; [..|exact H]; reflexivity.
  - intros k mr mm m1 Hk _ _ [K H]. split; [now apply new_unit_group_keyed|now apply new_unit_group_fast].
  - intros k mr mm m1 Hk _ _ [K H]. split; [now apply new_regional_group_keyed|].
    unfold new_regional_group. destruct (m_nc m1).
    + destruct (next_id _); eapply fast_same; [..|exact H| | | | | |exact H]; reflexivity.
    + destruct (mr 0%nat); eapply fast_same; [..|exact H| | | | | |exact H]; reflexivity.
  - intros k v m1 _ [K H]. split; [now apply make_elastic_keyed|now apply make_elastic_fast].
  - intros m1 _ [K H]. split; [apply (step_keyed OpRemoveFastStart m1 K)|].
    rewrite remove_is by auto. fields. now apply without_fast.
  - intros l m1 [K H]. split; [apply (step_keyed (OpInterconnectors l) m1 K)|].
    unfold set_interconnectors. apply guard_fst; [exact H|intros _].
    destruct (next_id _); eapply fast_same; [..|exact H| | | | | |exact H]; reflexivity.
  - intros l m1 [K H]. split; [eapply keyed_same; [..|exact K]; reflexivity|eapply fast_same; [..|exact H]; reflexivity].
  - intros l m1 [K H]. split; [eapply keyed_same; [..|exact K]; reflexivity|eapply fast_same; [..|exact H]; reflexivity].
  - intros l m1 [K H]. split; [eapply keyed_same; [..|exact K]; reflexivity|eapply fast_same; [..|exact H]; reflexivity].
  - intros pairs m1 _ _ [K H]. split.
    { assert (K' : keyed (set_m_rhs (dset "tie_break" (match m_nc m1 with Some n => tie_rhs pairs n | None => [] end) (m_rhs m1)) m1)).
      { apply keyed_rhs; auto; cbn; intuition discriminate. }
      unfold put_tie. destruct (m_nc m1); eapply keyed_same; [..|exact K'| | | |exact K']; reflexivity. }
    unfold put_tie. destruct (m_nc m1) as [n|].
    + pose proof (fast_rhs "tie_break" (tie_rhs pairs n) _ ltac:(discriminate)
        (fast_lhs "tie_break" (tie_lhs pairs n) m1 ltac:(discriminate) H)) as F.
      eapply fast_same; [..|exact F]; reflexivity.
    + exact (fast_rhs "tie_break" [] _ ltac:(discriminate) (fast_lhs "tie_break" [] m1 ltac:(discriminate) H)).
  - intros lf bps m1 _ _ [K H]. split; [apply (step_keyed (OpLosses lf bps) m1 K)|].
    destruct (set_losses_cases lf bps m1) as [[e E]|[[e E]|[p [_ E]]]]; rewrite E; fields.
    + exact H.
    + eapply fast_same; [..|exact H]; reflexivity.
    + pose proof (fast_rhs "interpolation_weights" (match m_nc m1 with Some n => lp_sum_rhs p | None => [] end) _ ltac:(discriminate)
        (fast_lhs "interconnector_losses" (match m_nc m1 with Some n => lp_lhs p | None => [] end) m1 ltac:(discriminate) H)) as F.
      unfold put_losses. destruct (m_nc m1); eapply fast_same; [..|exact F| | | | | |exact F]; reflexivity.
  - intros l v m1 _ _ [K H]. split.
    { assert (K' : keyed (set_m_rhs (dset "generic" (match m_nc m1 with Some n => generic_rhs l n | None => [] end) (m_rhs m1)) m1)).
      { apply keyed_rhs; auto; cbn; intuition discriminate. }
      unfold put_generic. destruct (m_nc m1); eapply keyed_same; [..|exact K'| | | |exact K']; reflexivity. }
    pose proof (fast_rhs "generic" (match m_nc m1 with Some n => generic_rhs l n | None => [] end) m1 ltac:(discriminate) H) as F.
    unfold put_generic. destruct (m_nc m1); eapply fast_same; [..|exact F| | | | | |exact F]; reflexivity.
Qed.

Lemma reached_fast c m : reached c m -> keyed m /\ fast m.
Proof.
  intros [m0 [ops [H1 [_ ->]]]]. apply (run_preserves (fun m => keyed m /\ fast m)); [intros; now apply step_fast|].
  unfold new_market in H1. destruct (check_unit_info c); [discriminate|]. inversion H1; subst.
  split; [constructor; try (intros; discriminate)|constructor; cbn; auto]; constructor.
Qed.

(** The same market but for the fast start group and the id counters. *)
Definition but_fast (m m' : market) : Prop := exists a b, without m' = set_m_nv a (set_m_nc b m).

Lemma put_unit_but m0 r c m : but_fast m0 m -> but_fast m0 (put_unit fs r c m).
Proof.
  intros [a [b E]]. exists a, b. rewrite <- E. unfold put_unit, without. fields. now rewrite !ddel_dset.
Qed.

Lemma nc_but m0 n m : but_fast m0 m -> but_fast m0 (set_m_nc n m).
Proof.
  intros [a [b E]]. exists a, n. transitivity (set_m_nc n (without m)); [reflexivity|]. rewrite E. reflexivity.
Qed.
Lemma nv_but m0 n m : but_fast m0 m -> but_fast m0 (set_m_nv n m).
Proof.
  intros [a [b E]]. exists n, b. transitivity (set_m_nv n (without m)); [reflexivity|]. rewrite E. reflexivity.
Qed.

Lemma add_deficits_but m0 rows m : but_fast m0 m -> but_fast m0 (fst (add_deficits fs rows m)).
Proof.
  intros H. unfold add_deficits. destruct rows as [|r rs]; [exact H|]. set (l := r :: rs). clearbody l.
  assert (W : forall a b c, but_fast m0 (set_m_lhs (dset fsd c (m_lhs m)) (set_m_obj_def (dset fsd b (m_obj_def m))
    (set_m_deficits (dset fsd a (m_deficits m)) m)))).
  { intros x y z. destruct H as [a [b E]]. exists a, b. rewrite <- E. unfold without. fields. now rewrite !ddel_dset. }
  change (deficit_key fs) with fsd. fields. destruct (next_id _); fields; [apply nv_but|]; apply W.
Qed.

Lemma make_elastic_but m0 v m : but_fast m0 m -> but_fast m0 (fst (make_elastic fs v m)).
Proof.
  intros H. unfold make_elastic. destruct (group_rows fs m) as [g|]; [|exact H]. destruct v.
  - now apply add_deficits_but.
  - apply guard_fst; [exact H|]. intros _. destruct (has_set_column fs); [|exact H]. now apply add_deficits_but.
  - destruct g; exact H.
Qed.

Lemma step_but m0 o m : only_fast_start o -> keyed m /\ fast m -> but_fast m0 m -> but_fast m0 (fst (step o m)).
Proof.
  intros Ho K H. destruct o; cbn in Ho; try contradiction; cbn [step].
  - unfold set_fast_start. apply guard_fst; [exact H|]. intros _. destruct (fast_start_rhs _ 0); [exact H|].
    change "fast_start" with fs. apply andthen_fst.
    + unfold new_unit_group. destruct (m_nc m).
      * destruct (next_id _); fields; [apply nc_but|]; now apply put_unit_but.
      * destruct (fast_start_rhs _ 0); now apply put_unit_but.
    + intros m1 H1. destruct v; [now apply make_elastic_but|exact H1].
  - rewrite remove_is by apply K. cbn [fst]. destruct K as [K F]. destruct H as [a [b E]]. exists a, b. rewrite <- E.
    unfold without. fields. destruct F as [A B C D _ _ _ _]. pose proof (ky_nodup m K) as N.
    assert (W : forall T k (d : dict T), NoDup (dkeys d) -> ddel k (ddel k d) = ddel k d).
    { intros T k d Nd. apply ddel_none. rewrite dhas_ddel by auto. now rewrite String.eqb_refl. }
    now rewrite !W by auto.
  - subst. change "fast_start" with fs. now apply make_elastic_but.
Qed.

Lemma run_but m0 ops m : Forall only_fast_start ops -> keyed m /\ fast m -> but_fast m0 m ->
  (keyed (run ops m) /\ fast (run ops m)) /\ but_fast m0 (run ops m).
Proof.
  revert m. induction ops as [|o ops IH]; intros m A K H; [auto|]. inversion A; subst. cbn [run fold_left].
  apply IH; auto; [now apply step_fast|now apply step_but].
Qed.

Lemma removal_undoes c m ops : reached c m -> group m "fast_start" = None -> Forall only_fast_start ops ->
  exists a b, run (ops ++ [OpRemoveFastStart]) m = set_m_nv a (set_m_nc b m) /\ snd (step OpRemoveFastStart (run ops m)) = None.
Proof.
  intros R N A. pose proof (reached_fast c m R) as KF.
  assert (N' : dhas fs (m_rhs m) = false).
  { unfold group in N. unfold dhas. destruct (dget "fast_start" (m_mrhs m)); [discriminate|]. change fs with "fast_start". now rewrite N. }
  assert (B : but_fast m m).
  { exists (m_nv m), (m_nc m). destruct KF as [_ [X1 X2 X3 X4 X5 X6 X7 X8]]. specialize (X8 N'). unfold without.
    rewrite (ddel_none fsd (m_lhs m)), (ddel_none fsd (m_obj_def m)), (ddel_none fsd (m_deficits m)) by congruence.
    rewrite (ddel_none fs (m_c2v_unit m)), (ddel_none fs (m_rhs m)) by congruence. now destruct m. }
  destruct (run_but m ops m A KF B) as [[K F] [a [b E]]].
  exists a, b. rewrite run_app. cbn [run fold_left step]. fold (run ops m). rewrite remove_is by auto. auto.
Qed.

Lemma removal_restores c m ops : reached c m -> group m "fast_start" = None -> Forall only_fast_start ops ->
  assemble (run (ops ++ [OpRemoveFastStart]) m) = assemble m.
Proof. intros R N A. destruct (removal_undoes c m ops R N A) as [a [b [-> _]]]. reflexivity. Qed.

Lemma removal_of_nothing c m : reached c m -> group m "fast_start" = None -> step OpRemoveFastStart m = (m, None).
Proof.
  intros R N. pose proof (reached_fast c m R) as [K F].
  assert (N' : dhas fs (m_rhs m) = false).
  { unfold group in N. unfold dhas. destruct (dget "fast_start" (m_mrhs m)); [discriminate|]. change fs with "fast_start". now rewrite N. }
  cbn [step]. unfold remove_fast_start. change "fast_start" with fs. change "fast_start_deficit" with fsd.
  rewrite N'. destruct F as [_ _ _ _ _ _ _ X8]. now rewrite (X8 N').
Qed.

Lemma removal_clears c m : reached c m -> group (fst (step OpRemoveFastStart m)) "fast_start" = None
  /\ violation_vars (fst (step OpRemoveFastStart m)) "fast_start" = []
  /\ forall k, k <> "fast_start" -> group (fst (step OpRemoveFastStart m)) k = group m k
     /\ violation_vars (fst (step OpRemoveFastStart m)) k = violation_vars m k.
Proof.
  intros R. pose proof (reached_fast c m R) as [K F]. cbn [step]. rewrite remove_is by auto. cbn [fst].
  unfold group, violation_vars, without. fields. split; [|split].
  - destruct (dget "fast_start" (m_mrhs m)) eqn:E.
    + apply (ky_reg m K) in E. exfalso. revert E. cbn. intuition discriminate.
    + apply ddel_gone. apply K.
  - change ("fast_start" ++ "_deficit")%string with fsd. rewrite ddel_gone by apply F. reflexivity.
  - intros k Nk. rewrite !dget_ddel_other; auto. intros E. apply Nk. change fsd with (deficit_key fs) in E. now apply deficit_key_inj in E.
Qed.
