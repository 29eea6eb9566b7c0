(** Lemmas about the validator. *)

From Coq Require Import QArith ZArith String List Bool Lia.
Import ListNotations.
From Verif Require Import PandasModel FrameModel SpecFrame PandasFacts OffersFacts TablesModel MarketModel CallModel.
Open Scope string_scope.
Open Scope list_scope.

(** ** Cells *)

Lemma cell_eqb_same a b : cell_eqb a b = true <-> same_cell a b.
Proof.
  unfold same_cell. destruct a, b; cbn; try (split; [discriminate | tauto]);
    try (split; [discriminate | intros [E _]; discriminate E]).
  - rewrite String.eqb_eq. split; [intros ->; split; [reflexivity | discriminate] | intros [E _]; congruence].
  - rewrite Z.eqb_eq, inject_Z_injective. reflexivity.
  - rewrite Qeq_bool_iff. reflexivity.
  - rewrite Qeq_bool_iff. reflexivity.
  - rewrite Qeq_bool_iff. reflexivity.
  - split; [split; [reflexivity | discriminate] | reflexivity].
  - split; [split; [reflexivity | discriminate] | reflexivity].
  - split; [split; [reflexivity | discriminate] | reflexivity].
  - split; [discriminate | intros [_ N]; exfalso; exact (N f eq_refl)].
  - rewrite Nat.eqb_eq. split; [intros ->; split; [reflexivity | discriminate] | intros [E _]; congruence].
Qed.

Lemma cells_eqb_iff a b : cells_eqb a b = true <-> Forall2 same_cell a b.
Proof.
  revert b. induction a as [|x a IH]; intros [|y b]; cbn.
  - split; [constructor | reflexivity].
  - split; [discriminate | intros H; inversion H].
  - split; [discriminate | intros H; inversion H].
  - rewrite andb_true_iff, cell_eqb_same, IH. split.
    + intros [H1 H2]. constructor; assumption.
    + intros H. inversion H; subst. tauto.
Qed.

(** ** Columns *)

Lemma col_some n f c : col n f = Some c -> In c (fm_cols f) /\ cl_name c = n.
Proof. unfold col. intros H. apply find_some in H. rewrite String.eqb_eq in H. exact H. Qed.

Lemma col_in f c : NoDup (names f) -> In c (fm_cols f) -> col (cl_name c) f = Some c.
Proof.
  unfold names, col. induction (fm_cols f) as [|a l IH]; cbn; intros N H; [tauto|].
  inversion N as [|x y Nx Ny]; subst. destruct (String.eqb (cl_name a) (cl_name c)) eqn:E.
  - apply String.eqb_eq in E. destruct H as [->|H]; [reflexivity|].
    exfalso. apply Nx. rewrite E. apply in_map. exact H.
  - destruct H as [->|H]; [rewrite String.eqb_refl in E; discriminate|]. apply IH; assumption.
Qed.

Lemma col_none n f : col n f = None -> ~ In n (names f).
Proof.
  unfold col, names. intros H I. apply in_map_iff in I. destruct I as [c [<- I]].
  pose proof (find_none _ _ H c I) as E. cbn in E. rewrite String.eqb_refl in E. discriminate.
Qed.

Lemma col_name n f : In n (names f) -> exists c, col n f = Some c.
Proof. destruct (col n f) eqn:E; [eauto|]. intros I. exfalso. exact (col_none _ _ E I). Qed.

(** ** A schema and the list of its columns *)

Lemma dset_new {A} k (v : A) d : ~ In k (map fst d) -> dset k v d = d ++ [(k, v)].
Proof.
  induction d as [|[k' v'] d IH]; cbn; intros N; [reflexivity|].
  destruct (String.eqb k k') eqn:E; [apply String.eqb_eq in E; exfalso; apply N; left; congruence|]. rewrite IH by tauto. reflexivity.
Qed.

Definition named_cols (cols : list (series * bool)) : dict series := map (fun c => (se_name (fst c), fst c)) cols.
Definition required_of (cols : list (series * bool)) : list string :=
  map (fun c => se_name (fst c)) (filter (fun c => negb (snd c)) cols).

Lemma make_schema_eq keys cols :
  NoDup (map (fun c => se_name (fst c)) cols) ->
  make_schema keys cols = Schema (Some keys) (named_cols cols) (required_of cols).
Proof.
  unfold make_schema. intros N.
  enough (G : forall l s, NoDup (map fst (sc_columns s) ++ map (fun c : series * bool => se_name (fst c)) l) ->
            fold_left (fun s (c : series * bool) => add_column (fst c) (snd c) s) l s
            = Schema (sc_keys s) (sc_columns s ++ named_cols l) (sc_required s ++ required_of l)).
  { rewrite (G cols (new_schema (Some keys))); [reflexivity | exact N]. }
  clear N. induction l as [|[d b] l IH]; intros s N; cbn [fold_left].
  - rewrite !app_nil_r. destruct s; reflexivity.
  - cbn [map fst] in N.
    assert (NN : ~ In (se_name d) (map fst (sc_columns s))).
    { intros I. apply NoDup_remove_2 in N. apply N. apply in_or_app. left. exact I. }
    rewrite IH.
    + unfold add_column; cbn. rewrite dset_new by exact NN. f_equal.
      * rewrite <- app_assoc. reflexivity.
      * unfold required_of. cbn [filter map snd]. destruct b; cbn; [reflexivity | rewrite <- app_assoc; reflexivity].
    + unfold add_column; cbn [sc_columns fst snd]. rewrite dset_new by exact NN.
      rewrite map_app. cbn. rewrite <- app_assoc. exact N.
Qed.

Lemma dhas_known cols n : dhas n (named_cols cols) = true <-> known cols n.
Proof.
  unfold dhas, known. split.
  - destruct (dget n (named_cols cols)) eqn:E; [|discriminate]. intros _.
    apply dget_in in E. apply in_map_iff in E. destruct E as [[d b] [E I]]. cbn in E. exists d, b.
    split; [exact I | congruence].
  - intros [d [b [I <-]]]. destruct (dget (se_name d) (named_cols cols)) eqn:E; [reflexivity|].
    exfalso. revert E. induction cols as [|[d' b'] cols IH]; [destruct I|]. cbn.
    destruct (String.eqb (se_name d) (se_name d')) eqn:E; [discriminate|].
    destruct I as [I|I]; [inversion I; subst; rewrite String.eqb_refl in E; discriminate|]. exact (IH I).
Qed.

Lemma required_needed cols n : In n (required_of cols) <-> needed cols n.
Proof.
  unfold required_of, needed. rewrite in_map_iff. split.
  - intros [[d b] [<- I]]. apply filter_In in I. cbn in I. destruct I as [I B]. exists d. split; [|reflexivity].
    destruct b; [discriminate | exact I].
  - intros [d [I <-]]. exists (d, false). split; [reflexivity|]. apply filter_In. split; [exact I | reflexivity].
Qed.

(** ** The checks *)

Lemma is_str_iff x : is_str x = true <-> exists s, x = CStr s.
Proof. destruct x; cbn; split; intros H; try discriminate; try (destruct H; discriminate); eauto. Qed.
Lemma is_callable_iff x : is_callable x = true <-> exists g, x = CFun g.
Proof. destruct x; cbn; split; intros H; try discriminate; try (destruct H; discriminate); eauto. Qed.
Lemma dtype_eqb_iff a b : dtype_eqb a b = true <-> a = b.
Proof. destruct a, b; cbn; split; congruence. Qed.

Lemma type_ok_iff d c : type_ok (se_type d) c = true <-> right_type d c.
Proof.
  unfold type_ok, right_type. destruct (se_type d).
  - rewrite forallb_forall. split; intros H x I; specialize (H x I); apply is_str_iff; assumption.
  - rewrite forallb_forall. split; intros H x I; specialize (H x I); apply is_callable_iff; assumption.
  - apply dtype_eqb_iff.
  - apply dtype_eqb_iff.
Qed.

Lemma is_real_iff x : is_real x = true <-> x <> CPosInf /\ x <> CNegInf /\ x <> CNaN.
Proof. destruct x; cbn; split; intros H; try discriminate; try reflexivity; try (repeat split; discriminate); tauto. Qed.

Lemma not_negative_iff x : negb (is_negative x) = true <-> x <> CNegInf /\ forall q, value x = Some q -> 0 <= q.
Proof.
  destruct x; cbn.
  - split; [split; [discriminate | discriminate] | reflexivity].
  - rewrite negb_true_iff, Z.ltb_ge. split.
    + intros H. split; [discriminate|]. intros q E. inversion E; subst. unfold Qle; cbn. lia.
    + intros [_ H]. specialize (H _ eq_refl). unfold Qle in H; cbn in H. lia.
  - rewrite negb_true_iff. split.
    + intros H. split; [discriminate|]. intros q' E. inversion E; subst. apply qlt_false in H. exact H.
    + intros [_ H]. specialize (H _ eq_refl). destruct (Qlt_bool q 0) eqn:E; [|reflexivity].
      apply qlt_true in E. exfalso. exact (Qlt_not_le _ _ E H).
  - split; [split; discriminate | reflexivity].
  - split; [discriminate | tauto].
  - split; [split; discriminate | reflexivity].
  - split; [split; discriminate | reflexivity].
  - split; [split; discriminate | reflexivity].
Qed.

Lemma values_ok_iff d c :
  allowed_ok (se_allowed d) c && real_ok (se_real d) c && sign_ok (se_not_negative d) c = true <-> right_values d c.
Proof.
  rewrite !andb_true_iff. unfold right_values, allowed_ok, real_ok, sign_ok. split.
  - intros [[A R] S] x I. split; [|split].
    + intros vs E. rewrite E in A. rewrite forallb_forall in A. specialize (A x I).
      apply existsb_exists in A. destruct A as [v [Iv E']]. exists v. split; [exact Iv|]. apply cell_eqb_same. exact E'.
    + intros E. rewrite E in R. rewrite forallb_forall in R. apply is_real_iff. auto.
    + intros E. rewrite E in S. rewrite forallb_forall in S. apply not_negative_iff. auto.
  - intros H. split; [split|].
    + destruct (se_allowed d) as [vs|]; [|reflexivity]. apply forallb_forall. intros x I.
      destruct (H x I) as [A _]. destruct (A vs eq_refl) as [v [Iv E]].
      apply existsb_exists. exists v. split; [exact Iv|]. apply cell_eqb_same. exact E.
    + destruct (se_real d); [|reflexivity]. apply forallb_forall. intros x I. apply is_real_iff. apply (H x I). reflexivity.
    + destruct (se_not_negative d); [|reflexivity]. apply forallb_forall. intros x I.
      apply not_negative_iff. apply (H x I). reflexivity.
Qed.

(** The outcome for one column. *)
Lemma check_series_none d c : check_series d c = None <-> right_type d c /\ right_values d c.
Proof.
  unfold check_series. rewrite <- type_ok_iff, <- values_ok_iff.
  destruct (type_ok (se_type d) c), (allowed_ok (se_allowed d) c && real_ok (se_real d) c && sign_ok (se_not_negative d) c); split; try discriminate; try reflexivity; intuition discriminate.
Qed.
Lemma check_series_type d c : check_series d c = Some EDataType <-> ~ right_type d c.
Proof.
  unfold check_series. rewrite <- type_ok_iff.
  destruct (type_ok (se_type d) c), (allowed_ok (se_allowed d) c && real_ok (se_real d) c && sign_ok (se_not_negative d) c); split; try discriminate; try reflexivity; intuition discriminate.
Qed.
Lemma check_series_values d c : check_series d c = Some EColumnValues <-> right_type d c /\ ~ right_values d c.
Proof.
  unfold check_series. rewrite <- type_ok_iff, <- values_ok_iff.
  destruct (type_ok (se_type d) c), (allowed_ok (se_allowed d) c && real_ok (se_real d) c && sign_ok (se_not_negative d) c); split; try discriminate; try reflexivity; intuition discriminate.
Qed.
Lemma check_series_class d c e : check_series d c = Some e -> e = EDataType \/ e = EColumnValues.
Proof. unfold check_series. destruct (type_ok (se_type d) c), (allowed_ok (se_allowed d) c && real_ok (se_real d) c && sign_ok (se_not_negative d) c); intros H; inversion H; tauto. Qed.

(** ** Repeated rows *)

Lemma FOP_nth {A} (R : A -> A -> Prop) l :
  ForallOrdPairs R l <-> (forall i j a b, (i < j)%nat -> nth_error l i = Some a -> nth_error l j = Some b -> R a b).
Proof.
  induction l as [|x l IH].
  - split; [|constructor]. intros _ i j a b _ H. destruct i; discriminate.
  - split.
    + intros H i j a b L Ha Hb. inversion H as [|? ? F P]; subst. destruct i as [|i].
      * destruct j as [|j]; [lia|]. cbn in Ha, Hb. inversion Ha; subst. apply nth_error_In in Hb.
        rewrite Forall_forall in F. auto.
      * destruct j as [|j]; [lia|]. cbn in Ha, Hb. pose proof (proj1 IH P) as P'. apply (P' i j); [lia | assumption | assumption].
    + intros H. constructor.
      * apply Forall_forall. intros b I. apply In_nth_error in I. destruct I as [j Hj].
        apply (H 0%nat (S j)); [lia | reflexivity | exact Hj].
      * apply (proj2 IH). intros i j a b L Ha Hb. apply (H (S i) (S j)); [lia | exact Ha | exact Hb].
Qed.

Lemma dd_length {A} (same : A -> A -> bool) l :
  length l = length (drop_duplicates same l) <-> ForallOrdPairs (fun a b => same a b = false) l.
Proof.
  split.
  - intros H. pose proof (drop_duplicates_distinct same l) as D. rewrite (no_repeats_same same l H) in D. exact D.
  - intros H. rewrite (distinct_no_repeats same l H). reflexivity.
Qed.

Definition key_cols (keys : list string) (f : frame) : list column :=
  flat_map (fun n => match col n f with Some c => [c] | None => [] end) keys.

Lemma key_cols_in keys f c : NoDup (names f) -> (In c (key_cols keys f) <-> In c (fm_cols f) /\ In (cl_name c) keys).
Proof.
  intros N. unfold key_cols. rewrite in_flat_map. split.
  - intros [n [I H]]. destruct (col n f) eqn:E; [|destruct H]. destruct H as [->|[]].
    apply col_some in E. destruct E as [E <-]. auto.
  - intros [I K]. exists (cl_name c). split; [exact K|]. rewrite (col_in f c N I). left; reflexivity.
Qed.

Lemma not_Forall2_map {A} (g h : A -> cell) l :
  cells_eqb (map g l) (map h l) = false <-> exists a, In a l /\ ~ same_cell (g a) (h a).
Proof.
  induction l as [|a l IH]; cbn.
  - split; [discriminate | intros [a [[] _]]].
  - rewrite andb_false_iff, IH. split.
    + intros [H|[b [I H]]].
      * exists a. split; [left; reflexivity|]. intros S. apply cell_eqb_same in S. congruence.
      * exists b. auto.
    + intros [b [[->|I] H]].
      * left. destruct (cell_eqb (g b) (h b)) eqn:E; [|reflexivity]. apply cell_eqb_same in E. tauto.
      * right. eauto.
Qed.

Lemma repeated_false keys f : is_table f -> (repeated keys f = false <-> keys_differ keys f).
Proof.
  intros [N T]. unfold repeated. fold (key_cols keys f).
  rewrite negb_false_iff, Nat.eqb_eq, dd_length, FOP_nth. unfold keys_differ, holds. split.
  - intros H i j L Lj.
    assert (E : forall k, (k < fm_rows f)%nat ->
                nth_error (map (key_of (key_cols keys f)) (seq 0 (fm_rows f))) k = Some (key_of (key_cols keys f) k)).
    { intros k Lk. rewrite nth_error_map, (nth_error_nth' _ 0%nat) by (rewrite seq_length; exact Lk).
      rewrite seq_nth by exact Lk. reflexivity. }
    specialize (H i j _ _ L (E i ltac:(lia)) (E j Lj)). unfold key_of in H.
    rewrite (not_Forall2_map (fun c => nth i (cl_cells c) CNaN) (fun c => nth j (cl_cells c) CNaN)) in H.
    destruct H as [c [I D]]. apply (key_cols_in keys f c N) in I. destruct I as [I K].
    destruct (T c I) as [Len _].
    exists (cl_name c), (nth i (cl_cells c) CNaN), (nth j (cl_cells c) CNaN). split; [exact K|]. split; [|split].
    + exists c. split; [exact I|]. split; [reflexivity|]. apply nth_error_nth'. lia.
    + exists c. split; [exact I|]. split; [reflexivity|]. apply nth_error_nth'. lia.
    + exact D.
  - intros H i j a b L Ha Hb.
    assert (Lj : (j < fm_rows f)%nat).
    { assert (Hn : nth_error (map (key_of (key_cols keys f)) (seq 0 (fm_rows f))) j <> None) by congruence.
      apply nth_error_Some in Hn. rewrite map_length, seq_length in Hn. exact Hn. }
    rewrite nth_error_map in Ha, Hb.
    rewrite (nth_error_nth' _ 0%nat) in Ha by (rewrite seq_length; lia).
    rewrite (nth_error_nth' _ 0%nat) in Hb by (rewrite seq_length; lia).
    rewrite seq_nth in Ha by lia. rewrite seq_nth in Hb by lia. cbn in Ha, Hb.
    inversion Ha; inversion Hb; subst. unfold key_of.
    rewrite (not_Forall2_map (fun c => nth i (cl_cells c) CNaN) (fun c => nth j (cl_cells c) CNaN)).
    destruct (H i j L Lj) as [n [x [y [K [[c [I [<- Hx]]] [[c' [I' [E' Hy]]] D]]]]]].
    assert (c' = c).
    { pose proof (col_in f c N I) as E1. pose proof (col_in f c' N I') as E2. rewrite E' in E2. congruence. }
    subst c'. exists c. split; [apply (key_cols_in keys f c N); auto|].
    rewrite (nth_error_nth _ _ CNaN Hx), (nth_error_nth _ _ CNaN Hy). exact D.
Qed.

(** ** The whole validation *)

Definition columns_error (cols : list (series * bool)) (f : frame) : option err :=
  fold_right (fun (p : string * series) r =>
                or_else (match col (fst p) f with Some c => check_series (snd p) c | None => None end) r)
    None (named_cols cols).

Lemma or_else_none a b : or_else a b = None <-> a = None /\ b = None.
Proof. destruct a; cbn; intuition discriminate. Qed.

Lemma columns_none cols f :
  is_table f ->
  (columns_error cols f = None
   <-> forall d b c, In (d, b) cols -> In c (fm_cols f) -> cl_name c = se_name d -> right_type d c /\ right_values d c).
Proof.
  intros [N _]. unfold columns_error, named_cols. induction cols as [|[d b] cols IH]; cbn [map fold_right fst snd].
  - split; [intros _ d b c [] | reflexivity].
  - rewrite or_else_none, IH. split.
    + intros [H1 H2] d' b' c [E|I] Ic En; [|eapply H2; eauto]. inversion E; subst.
      rewrite <- En, (col_in f c N Ic) in H1. apply check_series_none. exact H1.
    + intros H. split.
      * destruct (col (se_name d) f) as [c|] eqn:E; [|reflexivity]. apply check_series_none.
        apply col_some in E. destruct E as [I E]. apply (H d b c); [left; reflexivity | exact I | exact E].
      * intros d' b' c I Ic En. apply (H d' b' c); [right; exact I | exact Ic | exact En].
Qed.

Lemma columns_some cols f e :
  is_table f ->
  (columns_error cols f = Some e
   <-> exists d c, first_fault cols f d c /\ check_series d c = Some e).
Proof.
  intros T. pose proof T as [N _]. unfold columns_error, named_cols, first_fault.
  induction cols as [|[d b] cols IH]; cbn [map fold_right fst snd].
  - split; [discriminate|]. intros [d [c [[pre [b [post [E _]]]] _]]]. destruct pre; discriminate.
  - destruct (match col (se_name d) f with Some c => check_series d c | None => None end) as [e'|] eqn:E; cbn [or_else].
    + destruct (col (se_name d) f) as [c|] eqn:Ec; [|discriminate]. pose proof (col_some _ _ _ Ec) as [Ic En].
      split.
      * intros H. inversion H; subst e'. exists d, c. split; [|exact E].
        exists [], b, cols. split; [reflexivity|]. split; [exact Ic|]. split; [exact En|]. split.
        -- intros R. apply check_series_none in R. congruence.
        -- intros d' b' c' [].
      * intros [d' [c' [[pre [b' [post [Eq [I' [E' [F P]]]]]]] C]]]. destruct pre as [|[d0 b0] pre].
        -- inversion Eq; subst. rewrite <- E', (col_in f c' N I') in Ec. inversion Ec; subst. congruence.
        -- inversion Eq; subst. exfalso.
           assert (R : right_type d0 c /\ right_values d0 c) by (eapply P; [left; reflexivity | exact Ic | exact En]).
           apply check_series_none in R. congruence.
    + rewrite IH. split.
      * intros [d' [c' [[pre [b' [post [Eq [I' [E' [F P]]]]]]] C]]]. exists d', c'. split; [|exact C].
        exists ((d, b) :: pre), b', post. split; [rewrite Eq; reflexivity|]. split; [exact I'|]. split; [exact E'|].
        split; [exact F|]. intros d1 b1 c1 [E1|I1] Ic1 En1; [|eapply P; eauto]. inversion E1; subst.
        rewrite <- En1, (col_in f c1 N Ic1) in E. apply check_series_none. exact E.
      * intros [d' [c' [[pre [b' [post [Eq [I' [E' [F P]]]]]]] C]]]. destruct pre as [|[d0 b0] pre].
        -- inversion Eq; subst. rewrite <- E', (col_in f c' N I') in E. congruence.
        -- inversion Eq; subst. exists d', c'. split; [|exact C]. exists pre, b', post.
           split; [reflexivity|]. split; [exact I'|]. split; [exact E'|]. split; [exact F|].
           intros d1 b1 c1 I1. apply P with (b' := b1). right. exact I1.
Qed.

Lemma unknown_none cols f :
  forallb (fun n => dhas n (named_cols cols)) (names f) = true <-> no_unknown cols f.
Proof.
  rewrite forallb_forall. unfold no_unknown. split; intros H n I; specialize (H n I); apply dhas_known; exact H.
Qed.
Lemma missing_none cols f :
  forallb (fun n => mem_str n (names f)) (required_of cols) = true <-> all_needed cols f.
Proof.
  rewrite forallb_forall. unfold all_needed. split; intros H n I.
  - apply mem_str_in. apply H. apply required_needed. exact I.
  - apply mem_str_in. apply H. apply required_needed. exact I.
Qed.

Lemma forallb_false_ex {A} (g : A -> bool) l : forallb g l = false <-> exists a, In a l /\ g a = false.
Proof.
  induction l as [|a l IH]; cbn; [split; [discriminate | intros [a [[] _]]]|].
  rewrite andb_false_iff, IH. split.
  - intros [H|[b [I H]]]; eauto.
  - intros [b [[->|I] H]]; eauto.
Qed.

Lemma unknown_some cols f :
  forallb (fun n => dhas n (named_cols cols)) (names f) = false <-> exists n, In n (names f) /\ ~ known cols n.
Proof.
  rewrite forallb_false_ex. split; intros [n [I H]]; exists n; (split; [exact I|]).
  - intros K. apply dhas_known in K. congruence.
  - destruct (dhas n (named_cols cols)) eqn:E; [|reflexivity]. apply dhas_known in E. tauto.
Qed.
Lemma missing_some cols f :
  forallb (fun n => mem_str n (names f)) (required_of cols) = false <-> exists n, needed cols n /\ ~ In n (names f).
Proof.
  rewrite forallb_false_ex. split; intros [n [I H]]; exists n.
  - split; [apply required_needed; exact I|]. intros K. apply mem_str_in in K. congruence.
  - split; [apply required_needed; exact I|]. destruct (mem_str n (names f)) eqn:E; [|reflexivity].
    apply mem_str_in in E. tauto.
Qed.

Lemma validate_eq keys cols f :
  NoDup (map (fun c => se_name (fst c)) cols) ->
  validate (make_schema keys cols) f =
  or_else (if forallb (fun n => dhas n (named_cols cols)) (names f) then None else Some EUnexpectedColumn)
  (or_else (if forallb (fun n => mem_str n (names f)) (required_of cols) then None else Some EMissingColumn)
  (or_else (columns_error cols f) (if repeated keys f then Some ERepeatedRow else None))).
Proof. intros N. rewrite (make_schema_eq keys cols N). reflexivity. Qed.

Lemma validate_accepts keys cols f :
  proper keys cols -> is_table f -> (validate (make_schema keys cols) f = None <-> fits keys cols f).
Proof.
  intros [N _] T. rewrite (validate_eq keys cols f N). rewrite !or_else_none. unfold fits.
  rewrite (columns_none cols f T), <- (unknown_none cols f), <- (missing_none cols f), <- (repeated_false keys f T).
  destruct (forallb _ (names f)), (forallb _ (required_of cols)), (repeated keys f); intuition congruence.
Qed.

Lemma repeated_true keys f :
  is_table f ->
  (repeated keys f = true
   <-> exists i j, (i < j)%nat /\ (j < fm_rows f)%nat
         /\ forall n x y, In n keys -> holds f n i x -> holds f n j y -> same_cell x y).
Proof.
  intros T. pose proof T as [N L]. unfold repeated. fold (key_cols keys f).
  rewrite negb_true_iff, Nat.eqb_neq, dd_length, FOP_nth. split.
  - intros H.
    assert (D : exists i j, (i < j)%nat /\ (j < fm_rows f)%nat
                  /\ cells_eqb (key_of (key_cols keys f) i) (key_of (key_cols keys f) j) = true).
    { assert (Dec : forall n, (exists i j, (i < j)%nat /\ (j < n)%nat
                  /\ cells_eqb (key_of (key_cols keys f) i) (key_of (key_cols keys f) j) = true)
               \/ (forall i j, (i < j)%nat -> (j < n)%nat
                  -> cells_eqb (key_of (key_cols keys f) i) (key_of (key_cols keys f) j) = false)).
      { induction n as [|n IH]; [right; intros; lia|]. destruct IH as [[i [j [A [B C]]]]|IH].
        - left. exists i, j. split; [exact A|]. split; [lia | exact C].
        - assert (Dn : forall k, (exists i, (i < k)%nat
                      /\ cells_eqb (key_of (key_cols keys f) i) (key_of (key_cols keys f) n) = true)
                   \/ (forall i, (i < k)%nat -> cells_eqb (key_of (key_cols keys f) i) (key_of (key_cols keys f) n) = false)).
          { induction k as [|k IHk]; [right; intros; lia|]. destruct IHk as [[i [A B]]|IHk].
            - left. exists i. split; [lia | exact B].
            - destruct (cells_eqb (key_of (key_cols keys f) k) (key_of (key_cols keys f) n)) eqn:E.
              + left. exists k. split; [lia | exact E].
              + right. intros i Li. destruct (Nat.eq_dec i k) as [->|]; [exact E|]. apply IHk. lia. }
          destruct (Dn n) as [[i [A B]]|Dn'].
          + left. exists i, n. split; [exact A|]. split; [lia | exact B].
          + right. intros i j A B. destruct (Nat.eq_dec j n) as [->|]; [apply Dn'; exact A|]. apply IH; lia. }
      destruct (Dec (fm_rows f)) as [D|D]; [exact D|]. exfalso. apply H. intros i j a b Lij Ha Hb.
      assert (Hn : nth_error (map (key_of (key_cols keys f)) (seq 0 (fm_rows f))) j <> None) by congruence.
      apply nth_error_Some in Hn. rewrite map_length, seq_length in Hn.
      rewrite nth_error_map in Ha, Hb.
      rewrite (nth_error_nth' _ 0%nat) in Ha by (rewrite seq_length; lia).
      rewrite (nth_error_nth' _ 0%nat) in Hb by (rewrite seq_length; lia).
      rewrite seq_nth in Ha by lia. rewrite seq_nth in Hb by lia. cbn in Ha, Hb.
      inversion Ha; inversion Hb; subst. apply D; assumption. }
    destruct D as [i [j [A [B C]]]]. exists i, j. split; [exact A|]. split; [exact B|].
    intros n x y K [c [Ic [En Hx]]] [c' [Ic' [En' Hy]]].
    assert (c' = c).
    { pose proof (col_in f c N Ic) as E1. pose proof (col_in f c' N Ic') as E2. congruence. }
    subst c'. unfold key_of in C.
    destruct (cells_eqb (map (fun c0 => nth i (cl_cells c0) CNaN) (key_cols keys f))
                        (map (fun c0 => nth j (cl_cells c0) CNaN) (key_cols keys f))) eqn:E; [|discriminate].
    destruct (cell_eqb x y) eqn:Exy; [apply cell_eqb_same; exact Exy|]. exfalso.
    assert (F : cells_eqb (map (fun c0 => nth i (cl_cells c0) CNaN) (key_cols keys f))
                        (map (fun c0 => nth j (cl_cells c0) CNaN) (key_cols keys f)) = false).
    { apply (not_Forall2_map (fun c0 => nth i (cl_cells c0) CNaN) (fun c0 => nth j (cl_cells c0) CNaN)).
      exists c. split; [apply (key_cols_in keys f c N); split; [exact Ic | congruence]|].
      rewrite (nth_error_nth _ _ CNaN Hx), (nth_error_nth _ _ CNaN Hy). intros S. apply cell_eqb_same in S. congruence. }
    congruence.
  - intros [i [j [A [B C]]]] H.
    assert (R : repeated keys f = false).
    { unfold repeated. fold (key_cols keys f). rewrite negb_false_iff, Nat.eqb_eq, dd_length, FOP_nth. exact H. }
    apply (repeated_false keys f T) in R. destruct (R i j A B) as [n [x [y [K [Hx [Hy D]]]]]].
    apply D. eapply C; eauto.
Qed.

Lemma validate_error keys cols f e :
  proper keys cols -> is_table f -> (validate (make_schema keys cols) f = Some e <-> fault keys cols f e).
Proof.
  intros [N _] T. rewrite (validate_eq keys cols f N).
  pose proof (unknown_none cols f) as U0. pose proof (unknown_some cols f) as U1.
  pose proof (missing_none cols f) as M0. pose proof (missing_some cols f) as M1.
  pose proof (columns_none cols f T) as C0. pose proof (columns_some cols f) as C1.
  pose proof (repeated_true keys f T) as R1.
  unfold fault, columns_fit.
  destruct (forallb _ (names f)); cbn [or_else].
  - assert (U : no_unknown cols f) by (apply U0; reflexivity).
    assert (U' : ~ exists n, In n (names f) /\ ~ known cols n) by (intros [n [I K]]; apply K; apply U; exact I).
    destruct (forallb _ (required_of cols)); cbn [or_else].
    + assert (M : all_needed cols f) by (apply M0; reflexivity).
      assert (M' : ~ exists n, needed cols n /\ ~ In n (names f)) by (intros [n [I K]]; apply K; apply M; exact I).
      destruct (columns_error cols f) as [e'|] eqn:E; cbn [or_else].
      * pose proof (proj1 (C1 e' T) eq_refl) as [d [c [F S]]].
        assert (NF : ~ (forall d b c, In (d, b) cols -> In c (fm_cols f) -> cl_name c = se_name d ->
                        right_type d c /\ right_values d c)).
        { intros W. apply (proj2 C0) in W. congruence. }
        split.
        -- intros H. inversion H; subst e'. destruct (check_series_class _ _ _ S) as [->| ->].
           ++ split; [exact U|]. split; [exact M|]. exists d, c. split; [exact F|]. apply check_series_type. exact S.
           ++ split; [exact U|]. split; [exact M|]. exists d, c. split; [exact F|].
              apply check_series_values in S. tauto.
        -- intros H. 
           apply (C1 e T). destruct e; try contradiction; try tauto.
           ++ destruct H as [_ [_ [d' [c' [F' S']]]]]. exists d', c'. split; [exact F'|]. apply check_series_type. exact S'.
           ++ destruct H as [_ [_ [d' [c' [F' S']]]]]. exists d', c'. split; [exact F'|]. apply check_series_values.
              split; [exact S'|]. destruct F' as [pre [b' [post [_ [_ [_ [F' _]]]]]]]. tauto.
      * assert (C : forall d b c, In (d, b) cols -> In c (fm_cols f) -> cl_name c = se_name d ->
                        right_type d c /\ right_values d c) by (apply C0; reflexivity).
        assert (C' : ~ exists d c, first_fault cols f d c).
        { intros [d [c [pre [b' [post [Eq [I' [E' [F' _]]]]]]]]]. apply F'. apply (C d b' c); [|exact I'|exact E'].
          rewrite Eq. apply in_or_app. right; left; reflexivity. }
        destruct (repeated keys f).
        -- split.
           ++ intros H. inversion H; subst e. split; [exact U|]. split; [exact M|]. split; [exact C|].
              apply R1. reflexivity.
           ++ intros H. destruct e; try contradiction; try tauto; try reflexivity; exfalso;
                destruct H as [_ [_ [d [c [F _]]]]]; apply C'; eauto.
        -- split; [discriminate|]. intros H. destruct e; try contradiction; try tauto.
           ++ destruct H as [_ [_ [d [c [F _]]]]]; exfalso; apply C'; eauto.
           ++ destruct H as [_ [_ [d [c [F _]]]]]; exfalso; apply C'; eauto.
           ++ destruct H as [_ [_ [_ H]]]. apply R1 in H. discriminate.
    + assert (M : exists n, needed cols n /\ ~ In n (names f)) by (apply M1; reflexivity).
      assert (M' : ~ all_needed cols f) by (intros A; destruct M as [n [I K]]; apply K; apply A; exact I).
      split.
      * intros H. inversion H; subst e. split; assumption.
      * intros H. destruct e; try contradiction; try tauto; try reflexivity.
  - assert (U : exists n, In n (names f) /\ ~ known cols n) by (apply U1; reflexivity).
    assert (U' : ~ no_unknown cols f) by (intros A; destruct U as [n [I K]]; apply K; apply A; exact I).
    split.
    + intros H. inversion H; subst e. exact U.
    + intros H. destruct e; try contradiction; try tauto; try reflexivity.
Qed.
