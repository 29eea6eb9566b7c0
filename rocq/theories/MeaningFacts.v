(** What the rows of a unit level or regional constraint group mean in terms of
    dispatch, and that a group keeps its meaning while other calls are made. *)

From Coq Require Import QArith String List Bool Arith Lia ZArith Permutation.
Import ListNotations.
From Verif Require Import PandasModel TablesModel VariableIdsModel MarketConstraintsModel
  UnitConstraintsModel RampModel FcasModel InterModel ElasticModel MarketModel SolverModel
  SpecLp PandasFacts SpecHistory SpecIds SpecDispatch SpecElastic StepFacts InvariantFacts OwnerFacts SolverFacts.
Open Scope string_scope.
Open Scope list_scope.

Lemma sumQ_swap {A B} (f : A -> B -> Q) (l1 : list A) (l2 : list B) :
  sumQ (fun a => sumQ (f a) l2) l1 == sumQ (fun b => sumQ (fun a => f a b) l1) l2.
Proof.
  induction l1 as [|a t IH].
  - rewrite sumQ_nil. symmetry. apply sumQ_zero. reflexivity.
  - rewrite sumQ_cons, IH, <- sumQ_plus. apply sumQ_ext. intros b. now rewrite sumQ_cons.
Qed.

(** ** Keys *)

Lemma append_inj_r a b c : (a ++ c = b ++ c)%string -> a = b.
Proof.
  revert b. induction a as [|x a IH]; intros [|y b]; cbn; intros H; auto.
  - exfalso. assert (L : String.length c = String.length (String y (b ++ c))) by now rewrite <- H.
    cbn in L. assert (forall s t, String.length (s ++ t) = (String.length s + String.length t)%nat).
    { clear. induction s; cbn; congruence. } rewrite H0 in L. lia.
  - exfalso. assert (L : String.length c = String.length (String x (a ++ c))) by now rewrite H.
    cbn in L. assert (forall s t, String.length (s ++ t) = (String.length s + String.length t)%nat).
    { clear. induction s; cbn; congruence. } rewrite H0 in L. lia.
  - inversion H; subst. f_equal. auto.
Qed.

Lemma deficit_key_inj a b : deficit_key a = deficit_key b -> a = b.
Proof. apply append_inj_r. Qed.

Lemma append_length a b : String.length (a ++ b) = (String.length a + String.length b)%nat.
Proof. induction a; cbn; congruence. Qed.

(** The last character of a key. *)
Fixpoint last_char (d : Ascii.ascii) (s : string) : Ascii.ascii :=
  match s with EmptyString => d | String c t => last_char c t end.
Lemma last_char_app d a b : last_char d (a ++ b) = last_char (last_char d a) b.
Proof. revert d. induction a; intros; cbn; auto. Qed.

Lemma deficit_key_losses k : deficit_key k <> "interconnector_losses".
Proof.
  intros H. apply (f_equal (last_char Ascii.zero)) in H. unfold deficit_key in H. rewrite last_char_app in H.
  cbn in H. discriminate.
Qed.
Lemma deficit_key_tie k : deficit_key k <> "tie_break".
Proof.
  intros H. apply (f_equal (last_char Ascii.zero)) in H. unfold deficit_key in H. rewrite last_char_app in H.
  cbn in H. discriminate.
Qed.

(** ** A group is left alone by calls that do not touch it *)

Definition same_group (k : string) (m m' : market) : Prop :=
  dget k (m_rhs m') = dget k (m_rhs m) /\ dget k (m_mrhs m') = dget k (m_mrhs m)
  /\ dget k (m_c2v_unit m') = dget k (m_c2v_unit m) /\ dget k (m_c2v_reg m') = dget k (m_c2v_reg m)
  /\ dget (deficit_key k) (m_lhs m') = dget (deficit_key k) (m_lhs m).

Lemma same_group_refl k m : same_group k m m.
Proof. repeat split. Qed.

Lemma same_group_trans k m1 m2 m3 : same_group k m1 m2 -> same_group k m2 m3 -> same_group k m1 m3.
Proof. unfold same_group. intuition congruence. Qed.

Lemma add_deficits_same k k' rows m : k' <> k -> same_group k m (fst (add_deficits k' rows m)).
Proof.
  intros N. unfold add_deficits. destruct rows; [apply same_group_refl|].
  assert (deficit_key k <> deficit_key k') by (intros E; apply deficit_key_inj in E; congruence).
  destruct (next_id _); unfold same_group; fields; rewrite dget_dset_other by auto; auto 10.
Qed.

Lemma make_elastic_same k k' v m : k' <> k -> same_group k m (fst (make_elastic k' v m)).
Proof.
  intros N. unfold make_elastic. destruct (group_rows k' m); [|apply same_group_refl].
  destruct v; [now apply add_deficits_same| |destruct l; apply same_group_refl].
  apply guard_fst; [apply same_group_refl|]. intros _. destruct (has_set_column k');
    [now apply add_deficits_same|apply same_group_refl].
Qed.

Lemma new_unit_group_same k k' mr mm m : k' <> k -> same_group k m (fst (new_unit_group k' mr mm m)).
Proof.
  intros N. unfold new_unit_group, put_unit. destruct (m_nc m).
  - destruct (next_id _); unfold same_group; fields; rewrite !dget_dset_other by auto; auto 10.
  - destruct (mr 0%nat); unfold same_group; fields; rewrite !dget_dset_other by auto; auto 10.
Qed.

Lemma new_regional_group_same k k' mr mm m : k' <> k -> same_group k m (fst (new_regional_group k' mr mm m)).
Proof.
  intros N. unfold new_regional_group, put_regional. destruct (m_nc m).
  - destruct (next_id _); unfold same_group; fields; rewrite !dget_dset_other by auto; auto 10.
  - destruct (mr 0%nat); unfold same_group; fields; rewrite !dget_dset_other by auto; auto 10.
Qed.

Lemma set_losses_same k lf bps m : k <> "interpolation_weights" ->
  same_group k m (fst (set_losses lf bps m)).
Proof.
  intros N. destruct (set_losses_cases lf bps m) as [[e H]|[[e H]|[p [_ H]]]]; rewrite H; fields.
  - apply same_group_refl.
  - repeat split.
  - unfold put_losses. destruct (m_nc m); unfold same_group; fields;
      rewrite !dget_dset_other by (try apply deficit_key_losses; congruence); auto 10.
Qed.

Lemma step_same_group k o m : ~ In k (touches o) -> same_group k m (fst (step o m)).
Proof.
  intros Ht.
  apply (step_preserves (same_group k m) (fun k' => k' <> k)) with (ok := fun _ _ => True); auto;
    [..|apply same_group_refl].
  - intros t m1 H. unfold set_volume_bids. repeat (apply guard_fst; [exact H|intros _]).
    destruct (next_id _); exact H.
  - intros t m1 H. unfold set_price_bids. destruct (m_bids m1); [|exact H].
    repeat (apply guard_fst; [exact H|intros _]). exact H.
  - intros k' mr mm m1 _ N _ H. eapply same_group_trans; [exact H|]. now apply new_unit_group_same.
  - intros k' mr mm m1 _ N _ H. eapply same_group_trans; [exact H|]. now apply new_regional_group_same.
  - intros k' v m1 N H. eapply same_group_trans; [exact H|]. now apply make_elastic_same.
  - intros m1 N H. eapply same_group_trans; [exact H|]. unfold remove_fast_start.
    destruct (dhas "fast_start" (m_rhs m1)); fields; (destruct (dhas "fast_start_deficit" (m_deficits m1));
      [change "fast_start_deficit" with (deficit_key "fast_start");
       assert (deficit_key k <> deficit_key "fast_start") by (intros E; apply deficit_key_inj in E; congruence)|]);
      unfold same_group; fields; rewrite ?dget_ddel_other by auto; auto 10.
  - intros l m1 H. unfold set_interconnectors. apply guard_fst; [exact H|intros _].
    destruct (next_id _); exact H.
  - intros pairs m1 N _ H. eapply same_group_trans; [exact H|]. unfold put_tie.
    destruct (m_nc m1); unfold same_group; fields;
      rewrite !dget_dset_other by (try apply deficit_key_tie; congruence); auto 10.
  - intros lf bps m1 N _ H. eapply same_group_trans; [exact H|]. apply set_losses_same. congruence.
  - intros l v m1 N _ H. eapply same_group_trans; [exact H|]. unfold put_generic.
    destruct (m_nc m1); unfold same_group; fields; rewrite !dget_dset_other by congruence; auto 10.
  - intros k' Hk' E. subst. now apply Ht.
Qed.

Lemma run_same_group k ops m : leaves k ops -> same_group k m (run ops m).
Proof.
  intros H. apply (run_preserves (same_group k m)); [|apply same_group_refl].
  intros o m1 Ho H1. eapply same_group_trans; [exact H1|]. now apply step_same_group, H.
Qed.

(** ** The variables of a group's violations *)

Definition same_def (k : string) (m m' : market) : Prop :=
  same_group k m m' /\ dget (deficit_key k) (m_deficits m') = dget (deficit_key k) (m_deficits m)
  /\ dget (deficit_key k) (m_obj_def m') = dget (deficit_key k) (m_obj_def m).

Lemma same_def_refl k m : same_def k m m.
Proof. split; [apply same_group_refl|auto]. Qed.
Lemma same_def_trans k m1 m2 m3 : same_def k m1 m2 -> same_def k m2 m3 -> same_def k m1 m3.
Proof. intros [A [B C]] [A' [B' C']]. split; [now apply (same_group_trans k m1 m2)|]. split; congruence. Qed.

Lemma add_deficits_same_def k k' rows m : k' <> k -> same_def k m (fst (add_deficits k' rows m)).
Proof.
  intros N. split; [now apply add_deficits_same|]. unfold add_deficits. destruct rows; [auto|].
  assert (deficit_key k <> deficit_key k') by (intros E; apply deficit_key_inj in E; congruence).
  destruct (next_id _); fields; rewrite !dget_dset_other by auto; auto 10.
Qed.

Lemma make_elastic_same_def k k' v m : k' <> k -> same_def k m (fst (make_elastic k' v m)).
Proof.
  intros N. unfold make_elastic. destruct (group_rows k' m); [|apply same_def_refl].
  destruct v; [now apply add_deficits_same_def| |destruct l; apply same_def_refl].
  apply guard_fst; [apply same_def_refl|]. intros _. destruct (has_set_column k');
    [now apply add_deficits_same_def|apply same_def_refl].
Qed.

Lemma step_same_def k o m : ~ In k (touches o) -> same_def k m (fst (step o m)).
Proof.
  intros Ht.
  apply (step_preserves (same_def k m) (fun k' => k' <> k)) with (ok := fun _ _ => True); auto;
    [..|apply same_def_refl].
  - intros t m1 H. unfold set_volume_bids. repeat (apply guard_fst; [exact H|intros _]).
    destruct (next_id _); exact H.
  - intros t m1 H. unfold set_price_bids. destruct (m_bids m1); [|exact H].
    repeat (apply guard_fst; [exact H|intros _]). exact H.
  - intros k' mr mm m1 _ N _ H. eapply same_def_trans; [exact H|]. split; [now apply new_unit_group_same|].
    unfold new_unit_group, put_unit. destruct (m_nc m1); [destruct (next_id _)|destruct (mr 0%nat)]; fields; auto.
  - intros k' mr mm m1 _ N _ H. eapply same_def_trans; [exact H|]. split; [now apply new_regional_group_same|].
    unfold new_regional_group, put_regional. destruct (m_nc m1); [destruct (next_id _)|destruct (mr 0%nat)]; fields; auto.
  - intros k' v m1 N H. eapply same_def_trans; [exact H|]. now apply make_elastic_same_def.
  - intros m1 N H. eapply same_def_trans; [exact H|]. split.
    + apply (step_same_group k OpRemoveFastStart). cbn. intuition congruence.
    + unfold remove_fast_start.
      destruct (dhas "fast_start" (m_rhs m1)); fields; (destruct (dhas "fast_start_deficit" (m_deficits m1));
      [change "fast_start_deficit" with (deficit_key "fast_start");
       assert (deficit_key k <> deficit_key "fast_start") by (intros E; apply deficit_key_inj in E; congruence)|]);
      fields; rewrite ?dget_ddel_other by auto; auto 10.
  - intros l m1 H. unfold set_interconnectors. apply guard_fst; [exact H|intros _].
    destruct (next_id _); exact H.
  - intros pairs m1 N _ H. eapply same_def_trans; [exact H|]. split.
    + unfold put_tie. destruct (m_nc m1); unfold same_group; fields;
      rewrite !dget_dset_other by (try apply deficit_key_tie; congruence); auto 10.
    + unfold put_tie. destruct (m_nc m1); fields; auto.
  - intros lf bps m1 N _ H. eapply same_def_trans; [exact H|]. split; [apply set_losses_same; congruence|].
    destruct (set_losses_cases lf bps m1) as [[e E]|[[e E]|[p [_ E]]]]; rewrite E; fields; auto.
  - intros l v m1 N _ H. eapply same_def_trans; [exact H|]. unfold put_generic.
    destruct (m_nc m1); unfold same_def, same_group; fields; rewrite !dget_dset_other by congruence; auto 10.
  - intros k' Hk' E. subst. now apply Ht.
Qed.

Lemma run_same_def k ops m : leaves k ops -> same_def k m (run ops m).
Proof.
  intros H. apply (run_preserves (same_def k m)); [|apply same_def_refl].
  intros o m1 Ho H1. eapply same_def_trans; [exact H1|]. now apply step_same_def, H.
Qed.

(** ** Groups without deficit variables *)

Definition free_of (k : string) (rows : list crow) (m : market) : Prop :=
  forall l r, In l (rows_or_nil (dget (deficit_key k) (m_lhs m))) -> In r rows -> l_con l <> cr_id r.

Definition unit_group_is (k : string) (rows : list crow) (cs : list ucrow) (m : market) : Prop :=
  dget k (m_rhs m) = Some rows /\ dget k (m_c2v_unit m) = Some cs /\ free_of k rows m.
Definition regional_group_is (k : string) (rows : list crow) (cs : list rcrow) (m : market) : Prop :=
  dget k (m_mrhs m) = Some rows /\ dget k (m_c2v_reg m) = Some cs /\ free_of k rows m.

Lemma unit_group_is_same k rows cs m m' :
  same_group k m m' -> unit_group_is k rows cs m -> unit_group_is k rows cs m'.
Proof.
  intros [E1 [E2 [E3 [E4 E5]]]] [H1 [H2 H3]]. unfold unit_group_is, free_of in *.
  rewrite E1, E3, E5. auto.
Qed.

Lemma regional_group_is_same k rows cs m m' :
  same_group k m m' -> regional_group_is k rows cs m -> regional_group_is k rows cs m'.
Proof.
  intros [E1 [E2 [E3 [E4 E5]]]] [H1 [H2 H3]]. unfold regional_group_is, free_of in *.
  rewrite E2, E4, E5. auto.
Qed.

Lemma new_unit_group_is k mr mm m m1 : owned m -> unit_group_ok mr mm ->
  new_unit_group k mr mm m = (m1, None) ->
  exists n, m_nc m = Some n /\ unit_group_is k (mr n) (mm n) m1.
Proof.
  intros [_ [f [n O]]] [G _] H. exists n. split; [apply (ow_nc _ _ _ O)|].
  unfold new_unit_group in H. rewrite (ow_nc _ _ _ O) in H.
  destruct (next_id _); inversion H; subst m1. unfold unit_group_is, put_unit; fields.
  rewrite !dget_dset_same. repeat split. intros l r Hl Hr E.
  revert Hl. unfold put_unit; fields. destruct (dget (deficit_key k) (m_lhs m)) as [ls|] eqn:D; [|intros []].
  cbn [rows_or_nil]. intros Hl. apply dget_in in D. destruct (ow_lhs _ _ _ O _ _ _ D Hl) as [_ L].
  assert (n <= cr_id r)%nat by (apply (G n); now apply in_map). lia.
Qed.

Lemma new_regional_group_is k mr mm m m1 : owned m -> regional_group_ok mr mm ->
  new_regional_group k mr mm m = (m1, None) ->
  exists n, m_nc m = Some n /\ regional_group_is k (mr n) (mm n) m1.
Proof.
  intros [_ [f [n O]]] [G _] H. exists n. split; [apply (ow_nc _ _ _ O)|].
  unfold new_regional_group in H. rewrite (ow_nc _ _ _ O) in H.
  destruct (next_id _); inversion H; subst m1. unfold regional_group_is, put_regional; fields.
  rewrite !dget_dset_same. repeat split. intros l r Hl Hr E.
  revert Hl. unfold put_regional; fields. destruct (dget (deficit_key k) (m_lhs m)) as [ls|] eqn:D; [|intros []].
  cbn [rows_or_nil]. intros Hl. apply dget_in in D. destruct (ow_lhs _ _ _ O _ _ _ D Hl) as [_ L].
  assert (n <= cr_id r)%nat by (apply (G n); now apply in_map). lia.
Qed.

(** ** Groups without violations *)

(** The violation variables in the rows of the group are zero. *)
Definition silent (k : string) (rows : list crow) (m : market) (x : assignment) : Prop :=
  forall l r, In l (rows_or_nil (dget (deficit_key k) (m_lhs m))) -> In r rows -> l_con l = cr_id r -> x (l_var l) == 0.
Definition unit_group_at (k : string) (rows : list crow) (cs : list ucrow) (m : market) (x : assignment) : Prop :=
  dget k (m_rhs m) = Some rows /\ dget k (m_c2v_unit m) = Some cs /\ silent k rows m x.
Definition regional_group_at (k : string) (rows : list crow) (cs : list rcrow) (m : market) (x : assignment) : Prop :=
  dget k (m_mrhs m) = Some rows /\ dget k (m_c2v_reg m) = Some cs /\ silent k rows m x.

Lemma free_silent k rows m x : free_of k rows m -> silent k rows m x.
Proof. intros F l r Hl Hr E. exfalso. exact (F l r Hl Hr E). Qed.
Lemma unit_is_at k rows cs m x : unit_group_is k rows cs m -> unit_group_at k rows cs m x.
Proof. intros [A [B C]]. split; [exact A|]. split; [exact B|]. now apply free_silent. Qed.
Lemma regional_is_at k rows cs m x : regional_group_is k rows cs m -> regional_group_at k rows cs m x.
Proof. intros [A [B C]]. split; [exact A|]. split; [exact B|]. now apply free_silent. Qed.

(** The variables in the rows of the group are its violation variables. *)
Definition tracked (k : string) (rows : list crow) (m : market) : Prop :=
  forall l r, In l (rows_or_nil (dget (deficit_key k) (m_lhs m))) -> In r rows -> l_con l = cr_id r -> In (l_var l) (violation_vars m k).
Lemma tracked_silent k rows m x : tracked k rows m -> no_violation m k x -> silent k rows m x.
Proof. intros T N l r Hl Hr E. apply N. exact (T l r Hl Hr E). Qed.

(** The group is the same, up to violation variables. *)
Definition carried (k : string) (m m' : market) : Prop :=
  dget k (m_rhs m') = dget k (m_rhs m) /\ dget k (m_mrhs m') = dget k (m_mrhs m)
  /\ dget k (m_c2v_unit m') = dget k (m_c2v_unit m) /\ dget k (m_c2v_reg m') = dget k (m_c2v_reg m)
  /\ forall rows, tracked k rows m -> tracked k rows m'.
Lemma carried_refl k m : carried k m m.
Proof. unfold carried. auto 10. Qed.
Lemma carried_trans k m1 m2 m3 : carried k m1 m2 -> carried k m2 m3 -> carried k m1 m3.
Proof. intros [A [B [C [D E]]]] [A' [B' [C' [D' E']]]]. unfold carried. rewrite A', B', C', D'. auto 10. Qed.
Lemma same_def_carried k m m' : same_def k m m' -> carried k m m'.
Proof.
  intros [[A [B [C [D E]]]] [F _]]. unfold carried. split; [exact A|]. split; [exact B|]. split; [exact C|]. split; [exact D|].
  intros rows T l r. unfold violation_vars. change (k ++ "_deficit")%string with (deficit_key k). rewrite E, F. apply T.
Qed.

Lemma add_deficits_carried k rows m : carried k m (fst (add_deficits k rows m)).
Proof.
  unfold add_deficits. destruct rows as [|r0 t] eqn:Er; [apply carried_refl|]. rewrite <- Er.
  assert (T : forall m', dget (deficit_key k) (m_lhs m') = Some (deficit_lhs rows (m_nv m)) ->
              dget (deficit_key k) (m_deficits m') = Some (deficit_variables rows (m_nv m)) -> forall g, tracked k g m').
  { intros m' E1 E2 g l r Hl _ _. unfold violation_vars. change (k ++ "_deficit")%string with (deficit_key k). rewrite E1 in Hl. rewrite E2.
    cbn [rows_or_nil] in *. unfold deficit_lhs in Hl. apply in_map_iff in Hl. destruct Hl as [[[i [q c]] d] [<- Hl]]. cbn [l_var].
    apply in_map_iff. exists (Def i 0 None). split; [reflexivity|]. unfold deficit_variables. apply in_map_iff. exists ((i, (q, c)), d). auto. }
  destruct (next_id _); unfold carried; fields; (split; [reflexivity|]; split; [reflexivity|]; split; [reflexivity|]; split; [reflexivity|]);
    intros g _; apply T; fields; apply dget_dset_same.
Qed.
Lemma make_elastic_carried k k' v m : carried k m (fst (make_elastic k' v m)).
Proof.
  destruct (String.eqb_spec k' k) as [->|N]; [|apply same_def_carried, make_elastic_same_def; exact N].
  unfold make_elastic. destruct (group_rows k m); [|apply carried_refl].
  destruct v; [apply add_deficits_carried| |destruct l; apply carried_refl].
  apply guard_fst; [apply carried_refl|]. intros _. destruct (has_set_column k); [apply add_deficits_carried|apply carried_refl].
Qed.
Lemma maybe_elastic_carried k k' v m : carried k m (fst (maybe_elastic k' v m)).
Proof. destruct v; [apply make_elastic_carried|apply carried_refl]. Qed.
Lemma elastic_if_present_carried k k' v m : carried k m (fst (elastic_if_present k' v m)).
Proof. unfold elastic_if_present. destruct (dhas k' (m_c2v_unit m)); [apply make_elastic_carried|apply carried_refl]. Qed.

Lemma unit_carried_at k rows cs m m' x : carried k m m' -> unit_group_is k rows cs m -> no_violation m' k x -> unit_group_at k rows cs m' x.
Proof.
  intros [A [B [C [D E]]]] [G1 [G2 G3]] N. split; [congruence|]. split; [congruence|]. apply tracked_silent; [|exact N]. apply E.
  intros l r Hl Hr Eq. exfalso. exact (G3 l r Hl Hr Eq).
Qed.
Lemma regional_carried_at k rows cs m m' x : carried k m m' -> regional_group_is k rows cs m -> no_violation m' k x -> regional_group_at k rows cs m' x.
Proof.
  intros [A [B [C [D E]]]] [G1 [G2 G3]] N. split; [congruence|]. split; [congruence|]. apply tracked_silent; [|exact N]. apply E.
  intros l r Hl Hr Eq. exfalso. exact (G3 l r Hl Hr Eq).
Qed.

(** ** The value of a row *)

Lemma sumQ_filter_concat {A} (g : A -> Q) (p : A -> bool) k (l : list A) (d : dict (list A)) :
  NoDup (dkeys d) -> dget k d = Some l ->
  (forall k' l' a, In (k', l') d -> In a l' -> p a = true -> k' = k) ->
  sumQ g (filter p (dconcat d)) == sumQ g (filter p l).
Proof.
  unfold dkeys. induction d as [|[k' l'] t IH]; intros ND D H; [discriminate|].
  cbn in ND, D. inversion ND as [|? ? N1 N2]; subst.
  change (dconcat ((k', l') :: t)) with (l' ++ dconcat t). rewrite filter_app, (sumQ_app g).
  destruct (String.eqb k k') eqn:E.
  - apply String.eqb_eq in E. inversion D; subst.
    rewrite (sumQ_zero g (filter p (dconcat t))); [ring|]. intros a Ha. apply filter_In in Ha.
    destruct Ha as [H1 H2]. apply in_dconcat in H1. destruct H1 as [k2 [l2 [H3 H4]]].
    exfalso. apply N1. assert (k2 = k') as <- by (apply (H k2 l2 a); auto; now right).
    change k2 with (fst (k2, l2)). now apply in_map.
  - rewrite IH; auto; [|intros; eapply H; eauto; now right].
    rewrite (sumQ_zero g (filter p l')); [ring|]. intros a Ha. apply filter_In in Ha.
    destruct Ha as [H1 H2]. exfalso. assert (k' = k) by (apply (H k' l' a); auto; now left). subst.
    rewrite String.eqb_refl in E. discriminate.
Qed.

Lemma own_generic f n m l : own f n m -> In l (generic_lhs m) ->
  f (l_con l) = GRhs "generic" \/ f (l_con l) = GMkt "fcas".
Proof.
  intros O H. apply generic_lhs_con in H. destruct H as [r [H ->]]. apply in_app_or in H. destruct H as [H|H].
  - destruct (dget "generic" (m_rhs m)) as [g|] eqn:D; [|destruct H]. apply dget_in in D.
    left. now apply (ow_rhs _ _ _ O _ _ _ D).
  - destruct (dget "fcas" (m_mrhs m)) as [g|] eqn:D; [|destruct H]. apply dget_in in D.
    right. now apply (ow_mrhs _ _ _ O _ _ _ D).
Qed.

Lemma lhs_part f n m k i x : own f n m ->
  (f i = GRhs k /\ k <> "tie_break" /\ k <> "interpolation_weights" \/ f i = GMkt k) ->
  (forall l, In l (rows_or_nil (dget (deficit_key k) (m_lhs m))) -> l_con l = i -> x (l_var l) == 0) ->
  row_value (dconcat (m_lhs m)) x i == 0.
Proof.
  intros O Hk Hf. unfold row_value. apply sumQ_zero. intros l Hl. apply filter_In in Hl. destruct Hl as [Hl E]. apply Nat.eqb_eq in E. subst i.
  apply in_dconcat in Hl.
  destruct Hl as [k' [ls [H1 H2]]]. destruct (ow_lhs _ _ _ O _ _ _ H1 H2) as [[[k2 [E1 E2]]|[[E1 E2]|[E1 E2]]] _].
  - assert (k2 = k) by (destruct Hk as [[E _]|E]; destruct E2 as [E2|E2]; congruence). subst.
    apply in_dget in H1; [|apply (ow_keys _ _ _ O)]. rewrite H1 in Hf. rewrite (Hf l H2 eq_refl). ring.
  - destruct Hk as [[E [N1 N2]]|E]; [|congruence]. rewrite E in E2. inversion E2. congruence.
  - destruct Hk as [[E [N1 N2]]|E]; destruct E2 as [E2|E2]; rewrite E in E2; inversion E2. congruence.
Qed.

Lemma unit_part_none f n m k i x : own f n m -> f i = GMkt k ->
  row_value (unit_lhs (dconcat (m_c2v_unit m)) (rows_or_nil (m_unit_bids m))) x i == 0.
Proof.
  intros O E. apply row_value_none. intros l Hl E2. apply in_unit_lhs in Hl.
  destruct Hl as [c [v [H1 [_ [_ [_ [_ ->]]]]]]]. cbn in E2. subst i. apply in_dconcat in H1.
  destruct H1 as [k' [cs [H1 H2]]]. destruct (ow_unit _ _ _ O _ _ _ H1 H2). congruence.
Qed.

Lemma regional_part_none f n m k i x vs : own f n m -> f i = GRhs k ->
  row_value (regional_lhs (dconcat (m_c2v_reg m)) vs) x i == 0.
Proof.
  intros O E. apply row_value_none. intros l Hl E2. apply in_regional_lhs in Hl.
  destruct Hl as [c [v [H1 [_ [_ [_ ->]]]]]]. cbn in E2. subst i. apply in_dconcat in H1.
  destruct H1 as [k' [cs [H1 H2]]]. destruct (ow_reg _ _ _ O _ _ _ H1 H2). congruence.
Qed.

Lemma unit_key_ok k : In k unit_keys ->
  k <> "tie_break" /\ k <> "interpolation_weights" /\ k <> "generic".
Proof.
  unfold unit_keys. cbn. intros H.
  repeat (destruct H as [<-|H]; [repeat split; discriminate|]). destruct H.
Qed.

Definition unit_value (m : market) (x : assignment) (cs : list ucrow) (i : nat) : Q :=
  sumQ (fun c => uc_coef c * unit_term (rows_or_nil (m_unit_bids m)) x (uc_unit c) (uc_service c) (uc_dt c))
       (filter (fun c => Nat.eqb (uc_con c) i) cs).
Definition regional_value (m : market) (x : assignment) (cs : list rcrow) (i : nat) : Q :=
  sumQ (fun c => rc_coef c * region_term (regional_vars m) x (rc_region c) (rc_service c))
       (filter (fun c => Nat.eqb (rc_con c) i) cs).

(** A row of a unit level group: its left-hand side is the mapped dispatch. *)
Lemma unit_row_value m k rows cs r x : owned m -> In k unit_keys -> unit_group_at k rows cs m x -> In r rows ->
  row_value (all_lhs m) x (cr_id r) == unit_value m x cs (cr_id r).
Proof.
  intros [W [f [n O]]] Hk [G1 [G2 G3]] Hr. pose proof (unit_key_ok k Hk) as [K1 [K2 K3]].
  assert (Fr : f (cr_id r) = GRhs k) by (apply dget_in in G1; apply (ow_rhs _ _ _ O _ _ _ G1 Hr)).
  unfold all_lhs. rewrite !row_value_app.
  rewrite (lhs_part f n m k) by (auto 10; intros l Hl E; exact (G3 l r Hl Hr E)).
  rewrite (row_value_none (generic_lhs m)).
  2:{ intros l Hl E. apply (own_generic f n) in Hl; auto. rewrite E, Fr in Hl. destruct Hl as [Hl|Hl]; inversion Hl. congruence. }
  rewrite (regional_part_none f n m k) by auto.
  rewrite unit_lhs_value. unfold unit_value.
  rewrite (sumQ_filter_concat _ _ k cs); [ring|apply (ow_keys _ _ _ O)|exact G2|].
  intros k' l' c H1 H2 E. apply Nat.eqb_eq in E. destruct (ow_unit _ _ _ O _ _ _ H1 H2) as [E2 _]. congruence.
Qed.

Lemma unit_row_lhs m k (rows : list crow) cs r c v : dget k (m_c2v_unit m) = Some cs -> In r rows ->
  In c cs -> uc_con c = cr_id r -> In v (rows_or_nil (m_unit_bids m)) ->
  uc_unit c = uv_unit v -> uc_service c = uv_service v -> uc_dt c = uv_dt v ->
  exists l, In l (all_lhs m) /\ l_con l = cr_id r.
Proof.
  intros G2 Hr Hc E Hv E1 E2 E3. exists (LRow (uc_con c) (uv_id v) (uc_coef c * uv_coef v)).
  split; [|exact E]. unfold all_lhs. rewrite !in_app_iff. right; right; right. apply in_unit_lhs.
  exists c, v. repeat split; auto. apply in_dconcat. apply dget_in in G2. eauto.
Qed.

Lemma in_all_rhs_unit m k rows r : dget k (m_rhs m) = Some rows -> In r rows ->
  In (RRow (cr_id r) (cr_type r) (RNum (cr_rhs r))) (all_rhs m).
Proof.
  intros G Hr. unfold all_rhs. apply in_or_app. left. unfold static_rrows. apply in_map_iff. exists r.
  split; auto. apply in_dconcat. apply dget_in in G. eauto.
Qed.

Lemma in_all_rhs_regional m k rows r : dget k (m_mrhs m) = Some rows -> In r rows ->
  In (RRow (cr_id r) (cr_type r) (RNum (cr_rhs r))) (all_rhs m).
Proof.
  intros G Hr. unfold all_rhs. apply in_or_app. right. apply in_or_app. left.
  unfold static_rrows. apply in_map_iff. exists r.
  split; auto. apply in_dconcat. apply dget_in in G. eauto.
Qed.

(** Feasible points satisfy the rows of a unit level group that have a variable. *)
Lemma unit_row_holds m p x k rows cs r c v : owned m -> In k unit_keys -> unit_group_at k rows cs m x ->
  assemble m = Ok p -> feasible p x -> In r rows ->
  In c cs -> uc_con c = cr_id r -> In v (rows_or_nil (m_unit_bids m)) ->
  uc_unit c = uv_unit v -> uc_service c = uv_service v -> uc_dt c = uv_dt v ->
  relation (cr_type r) (unit_value m x cs (cr_id r)) (cr_rhs r).
Proof.
  intros O Hk G A F Hr Hc E Hv E1 E2 E3.
  pose proof (feasible_row m p x _ (proj1 O) A F (in_all_rhs_unit m k rows r (proj1 G) Hr)
                (unit_row_lhs m k rows cs r c v (proj1 (proj2 G)) Hr Hc E Hv E1 E2 E3)) as R.
  cbn [r_type r_id r_rhs rhs_value] in R. unfold relation in *.
  rewrite (unit_row_value m k rows cs r x O Hk G Hr) in R. exact R.
Qed.

(** ** Regional groups *)

Lemma regional_row_value m k rows cs r x : owned m -> k <> "fcas" -> regional_group_at k rows cs m x -> In r rows ->
  row_value (all_lhs m) x (cr_id r) == regional_value m x cs (cr_id r).
Proof.
  intros [W [f [n O]]] Hk [G1 [G2 G3]] Hr.
  assert (Fr : f (cr_id r) = GMkt k) by (apply dget_in in G1; apply (ow_mrhs _ _ _ O _ _ _ G1 Hr)).
  unfold all_lhs. rewrite !row_value_app.
  rewrite (lhs_part f n m k) by (auto 10; intros l Hl E; exact (G3 l r Hl Hr E)).
  rewrite (row_value_none (generic_lhs m)).
  2:{ intros l Hl E. apply (own_generic f n) in Hl; auto. rewrite E, Fr in Hl. destruct Hl as [Hl|Hl]; inversion Hl. congruence. }
  rewrite (unit_part_none f n m k) by auto.
  rewrite regional_lhs_value. unfold regional_value.
  rewrite (sumQ_filter_concat _ _ k cs); [ring|apply (ow_keys _ _ _ O)|exact G2|].
  intros k' l' c H1 H2 E. apply Nat.eqb_eq in E. destruct (ow_reg _ _ _ O _ _ _ H1 H2) as [E2 _]. congruence.
Qed.

(** The fcas group also collects the rows of linked generic sets. *)
Lemma fcas_row_value m rows cs r x : owned m -> regional_group_at "fcas" rows cs m x -> In r rows ->
  row_value (all_lhs m) x (cr_id r)
  == row_value (generic_lhs m) x (cr_id r) + regional_value m x cs (cr_id r).
Proof.
  intros [W [f [n O]]] [G1 [G2 G3]] Hr.
  assert (Fr : f (cr_id r) = GMkt "fcas") by (apply dget_in in G1; apply (ow_mrhs _ _ _ O _ _ _ G1 Hr)).
  unfold all_lhs. rewrite !row_value_app.
  rewrite (lhs_part f n m "fcas") by (auto 10; intros l Hl E; exact (G3 l r Hl Hr E)).
  rewrite (unit_part_none f n m "fcas") by auto.
  rewrite regional_lhs_value. unfold regional_value.
  rewrite (sumQ_filter_concat _ _ "fcas" cs); [ring|apply (ow_keys _ _ _ O)|exact G2|].
  intros k' l' c H1 H2 E. apply Nat.eqb_eq in E. destruct (ow_reg _ _ _ O _ _ _ H1 H2) as [E2 _]. congruence.
Qed.

Lemma regional_row_lhs m k (rows : list crow) cs r c v : dget k (m_c2v_reg m) = Some cs -> In r rows ->
  In c cs -> rc_con c = cr_id r -> In v (regional_vars m) ->
  rc_region c = rv_region v -> rc_service c = rv_service v ->
  exists l, In l (all_lhs m) /\ l_con l = cr_id r.
Proof.
  intros G2 Hr Hc E Hv E1 E2. exists (LRow (rc_con c) (rv_id v) (rc_coef c * rv_coef v)).
  split; [|exact E]. unfold all_lhs. rewrite !in_app_iff. right; right; left. apply in_regional_lhs.
  exists c, v. repeat split; auto. apply in_dconcat. apply dget_in in G2. eauto.
Qed.

Lemma regional_row_holds m p x k rows cs r : owned m -> k <> "fcas" -> regional_group_at k rows cs m x ->
  assemble m = Ok p -> feasible p x -> In r rows ->
  (exists l, In l (all_lhs m) /\ l_con l = cr_id r) ->
  relation (cr_type r) (regional_value m x cs (cr_id r)) (cr_rhs r).
Proof.
  intros O Hk G A F Hr HL.
  pose proof (feasible_row m p x _ (proj1 O) A F (in_all_rhs_regional m k rows r (proj1 G) Hr) HL) as R.
  cbn [r_type r_id r_rhs rhs_value] in R. unfold relation in *.
  rewrite (regional_row_value m k rows cs r x O Hk G Hr) in R. exact R.
Qed.

(** ** Terms *)

Lemma ui_unique c u d : check_unit_info c = None -> registered c u d ->
  exists r, In r (c_ui c) /\ ui_unit r = u /\ ui_dt r = d
    /\ filter (fun r => String.eqb u (ui_unit r) && String.eqb d (ui_dt r)) (c_ui c) = [r].
Proof.
  intros H [r [H1 [H2 H3]]]. exists r. repeat split; auto.
  unfold check_unit_info in H.
  assert (FP : ForallOrdPairs (fun a b => String.eqb (ui_unit a) (ui_unit b) && String.eqb (ui_dt a) (ui_dt b) = false) (c_ui c))
    by (eapply no_repeats_in; [exact H|cbn; auto 10]). clear H.
  induction FP as [|a l Ha Hl IH]; [destruct H1|]. cbn [filter]. destruct H1 as [->|H1].
  - rewrite H2, H3, !String.eqb_refl. cbn. f_equal.
    assert (E : forall b, In b l -> String.eqb u (ui_unit b) && String.eqb d (ui_dt b) = false).
    { intros b Hb. rewrite Forall_forall in Ha. specialize (Ha b Hb). now rewrite H2, H3 in Ha. }
    clear -E. induction l as [|b t IH]; [reflexivity|]. cbn. rewrite E by now left. apply IH. intros; apply E; now right.
  - rewrite Forall_forall in Ha. specialize (Ha r H1). rewrite H2, H3 in Ha.
    rewrite (String.eqb_sym u), (String.eqb_sym d), Ha. auto.
Qed.

Lemma bids_tables m : wf m -> exists vs, rows_or_nil (m_bids m) = vs
  /\ rows_or_nil (m_reg_bids m) = bid_regional_map vs (c_ui (m_cfg m))
  /\ rows_or_nil (m_unit_bids m) = bid_unit_map vs (c_ui (m_cfg m)) (m_bdu m).
Proof.
  intros W. pose proof (wf_bids m W) as B. unfold bids_wf in B. destruct (m_bids m) as [vs|].
  - destruct B as [t [n [_ [_ [_ [E1 E2]]]]]]. exists vs. now rewrite E1, E2.
  - destruct B as [E1 E2]. exists []. now rewrite E1, E2.
Qed.

Definition load_sign (m : market) (u s d : string) : Q :=
  if mem_str u (m_bdu m) && String.eqb s "energy" && String.eqb d "load" then -(1) else 1.

Lemma dispatch_sum m x u s d : dispatch m x u s d = sumQ (fun v => x (bv_id v))
  (filter (fun v => String.eqb u (bv_unit v) && String.eqb s (bv_service v) && String.eqb d (bv_dt v))
            (rows_or_nil (m_bids m))).
Proof. reflexivity. Qed.

Lemma names_eq u s d v :
  String.eqb u (bv_unit v) && String.eqb s (bv_service v) && String.eqb d (bv_dt v) = true <->
  bv_unit v = u /\ bv_service v = s /\ bv_dt v = d.
Proof. rewrite !andb_true_iff, !String.eqb_eq. intuition. Qed.

Lemma unit_term_dispatch m x u s d : wf m -> registered (m_cfg m) u d ->
  unit_term (rows_or_nil (m_unit_bids m)) x u s d == load_sign m u s d * dispatch m x u s d.
Proof.
  intros W R. destruct (bids_tables m W) as [vs [E1 [_ E2]]]. rewrite E2, dispatch_sum, E1.
  unfold unit_term, bid_unit_map, bid_constraint_map. rewrite sumQ_filter, sumQ_map, sumQ_merge.
  rewrite <- sumQ_scale, sumQ_filter. apply sumQ_ext. intros v.
  destruct (ui_unique _ u d (wf_cfg m W) R) as [r [_ [_ [_ Er]]]].
  destruct (String.eqb u (bv_unit v) && String.eqb s (bv_service v) && String.eqb d (bv_dt v)) eqn:E.
  - apply names_eq in E. destruct E as [<- [<- <-]].
    rewrite Er. rewrite sumQ_cons, sumQ_nil. cbn [uv_unit uv_service uv_dt uv_coef uv_id].
    rewrite !String.eqb_refl. cbn [andb]. unfold load_sign. ring.
  - apply sumQ_zero. intros a _. cbn [uv_unit uv_service uv_dt]. now rewrite E.
Qed.

Lemma offers_uv m u s d : wf m -> registered (m_cfg m) u d -> offers m u s d ->
  exists v, In v (rows_or_nil (m_unit_bids m)) /\ uv_unit v = u /\ uv_service v = s /\ uv_dt v = d.
Proof.
  intros W R [v [Hv [<- [<- <-]]]]. destruct (bids_tables m W) as [vs [E1 [_ E2]]]. rewrite E2. rewrite E1 in Hv.
  destruct R as [r [H1 [H2 H3]]].
  eexists. split; [apply in_map_iff; exists (v, r); split; [reflexivity|]|repeat split].
  unfold bid_constraint_map. apply in_merge. rewrite H2, H3, !String.eqb_refl. auto.
Qed.

Lemma no_offers m x u s d : ~ offers m u s d -> dispatch m x u s d == 0.
Proof.
  intros H. rewrite dispatch_sum. apply sumQ_zero. intros v Hv. apply filter_In in Hv. destruct Hv as [H1 H2].
  exfalso. apply H. apply names_eq in H2. exists v. tauto.
Qed.

Lemma offers_dec m u s d : {offers m u s d} + {~ offers m u s d}.
Proof.
  destruct (existsb (fun v => String.eqb u (bv_unit v) && String.eqb s (bv_service v) && String.eqb d (bv_dt v))
    (rows_or_nil (m_bids m))) eqn:E; [left|right].
  - apply existsb_exists in E. destruct E as [v [H1 H2]]. apply names_eq in H2. exists v. tauto.
  - intros [v [H1 H2]]. assert (existsb (fun v => String.eqb u (bv_unit v) && String.eqb s (bv_service v) && String.eqb d (bv_dt v))
    (rows_or_nil (m_bids m)) = true); [|congruence]. apply existsb_exists. exists v. rewrite names_eq. tauto.
Qed.

(** Bidirectional units are the ones registered on both sides. *)
Lemma count_one c u d : check_unit_info c = None -> mem_str d allowed_dt = true ->
  length (filter (fun r => String.eqb u (ui_unit r) && String.eqb d (ui_dt r)) (c_ui c)) = 1%nat
  <-> registered c u d.
Proof.
  intros H Hd. split.
  - intros L. destruct (filter _ _) as [|r [|]] eqn:E; try discriminate.
    assert (Hr : In r [r]) by now left. rewrite <- E in Hr. apply filter_In in Hr. destruct Hr as [H1 H2].
    apply andb_true_iff in H2. rewrite !String.eqb_eq in H2. exists r. intuition.
  - intros R. destruct (ui_unique c u d H R) as [r [_ [_ [_ ->]]]]. reflexivity.
Qed.

Lemma registered_dec c u d : {registered c u d} + {~ registered c u d}.
Proof.
  destruct (existsb (fun r => String.eqb u (ui_unit r) && String.eqb d (ui_dt r)) (c_ui c)) eqn:E; [left|right].
  - apply existsb_exists in E. destruct E as [r [H1 H2]]. rewrite andb_true_iff, !String.eqb_eq in H2. exists r. intuition.
  - intros [r [H1 [H2 H3]]]. assert (existsb (fun r => String.eqb u (ui_unit r) && String.eqb d (ui_dt r)) (c_ui c) = true); [|congruence].
    apply existsb_exists. exists r. rewrite andb_true_iff, !String.eqb_eq. auto.
Qed.

Lemma bidirectional_iff c u : check_unit_info c = None ->
  In u (bidirectional (c_ui c)) <-> two_sided c u.
Proof.
  intros H. unfold bidirectional. rewrite filter_In, Nat.eqb_eq.
  assert (K : In u (keys_of String.eqb (map ui_unit (c_ui c))) <-> In u (map ui_unit (c_ui c))).
  { rewrite keys_of_drop. split; [apply drop_duplicates_incl|]. intros Hi.
    destruct (drop_duplicates_repr String.eqb (map ui_unit (c_ui c)) u) as [b [Hb E]]; auto.
    - intros a b E1 d E2. apply String.eqb_eq in E1, E2. subst. apply String.eqb_refl.
    - apply String.eqb_refl.
    - intros a b E. now rewrite String.eqb_sym.
    - apply String.eqb_eq in E. now subst. }
  rewrite K. clear K.
  assert (C : count_unit u (c_ui c)
     = (length (filter (fun r => String.eqb u (ui_unit r) && String.eqb "generator" (ui_dt r)) (c_ui c))
        + length (filter (fun r => String.eqb u (ui_unit r) && String.eqb "load" (ui_dt r)) (c_ui c)))%nat).
  { unfold count_unit. assert (D : forall r, In r (c_ui c) -> mem_str (ui_dt r) allowed_dt = true).
    { intros r Hr. unfold check_unit_info in H.
      apply (all_rows_in (fun r => mem_str (ui_dt r) allowed_dt) (c_ui c) _ r H); [cbn; auto 10|exact Hr]. }
    clear H. induction (c_ui c) as [|r t IH]; [reflexivity|]. cbn [filter].
    assert (Dr : mem_str (ui_dt r) allowed_dt = true) by (apply D; now left).
    rewrite (String.eqb_sym (ui_unit r)). destruct (String.eqb u (ui_unit r)); cbn [andb length].
    - rewrite IH by (intros; apply D; now right). apply mem_str_in in Dr. cbn in Dr.
      destruct Dr as [<-|[<-|[]]]; cbn; lia.
    - apply IH. intros; apply D; now right. }
  rewrite C. unfold two_sided.
  assert (G : forall d, mem_str d allowed_dt = true ->
     (length (filter (fun r => String.eqb u (ui_unit r) && String.eqb d (ui_dt r)) (c_ui c)) <= 1)%nat).
  { intros d Hd. destruct (registered_dec c u d) as [R|R].
    - now rewrite (proj2 (count_one c u d H Hd) R).
    - destruct (filter (fun r => String.eqb u (ui_unit r) && String.eqb d (ui_dt r)) (c_ui c)) as [|r t] eqn:E;
        [apply Nat.le_0_l|]. exfalso. apply R.
      assert (Hr : In r (r :: t)) by now left. rewrite <- E in Hr. apply filter_In in Hr. destruct Hr as [H1 H2].
      rewrite andb_true_iff, !String.eqb_eq in H2. exists r. intuition. }
  pose proof (G "generator" eq_refl). pose proof (G "load" eq_refl).
  pose proof (count_one c u "generator" H eq_refl). pose proof (count_one c u "load" H eq_refl).
  split.
  - intros [_ E]. split; [apply H2|apply H3]; lia.
  - intros [R1 R2]. split; [|apply H2 in R1; apply H3 in R2; lia].
    destruct R1 as [r [Hr [E _]]]. rewrite <- E. now apply in_map.
Qed.

Lemma bdu_true c u m : wf m -> m_cfg m = c -> two_sided c u -> mem_str u (m_bdu m) = true.
Proof. intros W <- T. apply mem_str_in. unfold m_bdu. apply bidirectional_iff; [apply W|exact T]. Qed.
Lemma bdu_false c u m : wf m -> m_cfg m = c -> ~ two_sided c u -> mem_str u (m_bdu m) = false.
Proof. intros W <- T. apply mem_str_not_in. unfold m_bdu. rewrite bidirectional_iff; [exact T|apply W]. Qed.
