(** Lemmas about the calls on untyped tables. *)

From Coq Require Import QArith ZArith String List Bool Lia.
Import ListNotations.
From Verif Require Import PandasModel TablesModel MarketModel FrameModel SpecFrame CallModel SpecCalls
  PandasFacts InvariantFacts OffersFacts FrameFacts.
Open Scope string_scope.
Open Scope list_scope.

(** ** The schemas of nempy are proper *)

Ltac prove_nodup :=
  repeat (apply NoDup_cons; [cbn; intuition discriminate|]); apply NoDup_nil.
Lemma callable_not_key (keys : list string) (cols : list (series * bool)) :
  (forall d b, In (d, b) cols -> se_type d <> TCallable) ->
  forall n d b, In n keys -> In (d, b) cols -> se_name d = n -> se_type d <> TCallable.
Proof. intros H n d b _ I _. exact (H d b I). Qed.

Ltac by_columns :=
  cbn; intros d b H; repeat (destruct H as [H|H]; [inversion H; subst; cbn; try discriminate|]); try destruct H.
Ltac proper_plain key :=
  split; [cbn; prove_nodup|];
  split; [cbn; intros d b H; repeat (destruct H as [H|H]; [inversion H; subst; cbn; intros E; first [discriminate E | tauto]|]);
          destruct H|];
  split; [apply callable_not_key; by_columns|];
  exists key; split; [cbn; tauto | unfold needed; eexists; split; [left; reflexivity | reflexivity]].

Lemma unit_info_proper rs : proper ["unit"; "dispatch_type"] (unit_info_cols rs).
Proof. proper_plain "unit". Qed.
Lemma volume_proper req m : proper ["unit"; "service"; "dispatch_type"] (volume_cols req m).
Proof. destruct req; proper_plain "unit". Qed.
Lemma price_proper req m : proper ["unit"; "service"; "dispatch_type"] (price_cols req m).
Proof. destruct req; proper_plain "unit". Qed.
Lemma limits_proper req m : proper ["unit"; "dispatch_type"] (limits_cols req m).
Proof. destruct req; proper_plain "unit". Qed.
Lemma uigf_proper m : proper ["unit"] (uigf_cols m).
Proof. proper_plain "unit". Qed.
Lemma ramp_proper req m : proper ["unit"; "dispatch_type"] (ramp_cols req m).
Proof. destruct req; proper_plain "unit". Qed.
Lemma scada_proper m : proper ["unit"] (scada_cols m).
Proof. proper_plain "unit". Qed.
Lemma fs_ramp_proper r m : proper ["unit"] (fs_ramp_cols r m).
Proof.
  unfold fs_ramp_cols. destruct (String.eqb r "fast_start_first_run"); [|destruct (String.eqb r "fast_start_second_run")];
    proper_plain "unit".
Qed.
Lemma fs_proper m : proper ["unit"] (fs_cols m).
Proof. proper_plain "unit". Qed.
Lemma demand_proper m : proper ["region"] (demand_cols m).
Proof. proper_plain "region". Qed.
Lemma fcas_req_proper m : proper ["set"; "region"; "service"] (fcas_req_cols m).
Proof. proper_plain "region". Qed.
Lemma max_avail_proper m : proper ["unit"; "service"; "dispatch_type"] (max_avail_cols m).
Proof. proper_plain "unit". Qed.
Lemma reg_ramp_proper m : proper ["unit"] (reg_ramp_cols m).
Proof. proper_plain "unit". Qed.
Lemma trap_proper ss m : proper ["unit"; "service"; "dispatch_type"] (trap_cols ss m).
Proof. proper_plain "unit". Qed.
Lemma inter_proper m : proper ["interconnector"; "link"] (inter_cols m).
Proof. proper_plain "interconnector". Qed.
Lemma lossfn_proper : proper ["interconnector"; "link"] lossfn_cols.
Proof.
  split; [cbn; prove_nodup|].
  split; [cbn; intros d b H; repeat (destruct H as [H|H]; [inversion H; subst; cbn; intros E; first [discriminate E | tauto]|]);
          destruct H|].
  split.
  - cbn. intros n d b K H E. repeat (destruct H as [H|H]; [inversion H; subst; cbn; try discriminate|]); [|destruct H].
    cbn in K. exfalso. destruct K as [K|[K|[]]]; discriminate K.
  - exists "interconnector". split; [cbn; tauto | unfold needed; eexists; split; [left; reflexivity | reflexivity]].
Qed.
Lemma bp_proper : proper ["interconnector"; "link"; "loss_segment"] bp_cols.
Proof. proper_plain "interconnector". Qed.
Lemma generic_proper : proper ["set"] generic_cols.
Proof. proper_plain "set". Qed.
Lemma gunit_proper m : proper ["set"; "unit"; "service"] (gunit_cols m).
Proof. proper_plain "set". Qed.
Lemma gregion_proper m : proper ["set"; "region"; "service"] (gregion_cols m).
Proof. proper_plain "set". Qed.
Lemma ginter_proper : proper ["set"; "interconnector"] ginter_cols.
Proof. proper_plain "set". Qed.
Lemma vcost_proper : proper ["set"; "cost"] vcost_cols.
Proof. proper_plain "set". Qed.

(** ** The checks of a call *)

Lemma one_table keys cols f :
  proper keys cols -> is_table f ->
  (validate (make_schema keys cols) f = None <-> Forall table_fits [(keys, cols, f)]).
Proof.
  intros P T. rewrite (validate_accepts keys cols f P T). split.
  - intros H. constructor; [exact H | constructor].
  - intros H. inversion H; assumption.
Qed.

Lemma profiles_fit p r m :
  opt_table p -> (fs_ramp_check p r m = None <-> Forall table_fits (profile_table r m p)).
Proof.
  intros T. unfold fs_ramp_check, profile_table. destruct p as [f|]; [|split; [constructor | reflexivity]].
  destruct (String.eqb r "no_fast_start_units"); [split; [constructor | reflexivity]|].
  exact (one_table _ _ f (fs_ramp_proper r m) T).
Qed.

Lemma checks_fit req m c :
  args_tables c -> (checks req m c = None <-> Forall table_fits (tables req m c) /\ both_sides m c).
Proof.
  intros [_ A]. unfold checks, tables, both_sides.
  destruct c as [f|f|f v|f v|f s p r v|f v| |f v|f v|f v|f p r v|f v|f v|f|lf bps|f v|f|f|f|k v|v];
    try (rewrite <- (one_table _ _ f) by (first [apply volume_proper | apply price_proper | apply limits_proper | apply uigf_proper
         | apply fs_proper | apply demand_proper | apply fcas_req_proper | apply max_avail_proper | apply trap_proper
         | apply inter_proper | apply generic_proper | apply gunit_proper | apply gregion_proper | apply ginter_proper | exact A]);
         split; [intros H; split; [exact H | exact I] | intros [H _]; exact H]).
  - destruct A as [Af [As Ap]]. rewrite !or_else_none, Forall_cons_iff, Forall_app.
    rewrite (profiles_fit p r m Ap).
    pose proof (validate_accepts _ _ f (ramp_proper req m) Af) as V. fold (ramp_schema req m) in V. rewrite V.
    assert (S : match s with Some s0 => validate (scada_schema m) s0 | None => None end = None
                <-> Forall table_fits match s with Some s0 => [(["unit"], scada_cols m, s0)] | None => [] end).
    { destruct s as [s|]; [|split; [constructor | reflexivity]]. exact (one_table _ _ s (scada_proper m) As). }
    rewrite S. unfold table_fits at 2. tauto.
  - split; [intros _; split; [constructor | exact I] | reflexivity].
  - destruct A as [Af Ap]. rewrite or_else_none, Forall_cons_iff, (profiles_fit p r m Ap).
    pose proof (validate_accepts _ _ f (reg_ramp_proper m) Af) as V. fold (reg_ramp_schema m) in V. rewrite V.
    unfold table_fits at 2. tauto.
  - destruct A as [Af Ap]. rewrite or_else_none.
    pose proof (validate_accepts _ _ lf lossfn_proper Af) as V1. fold lossfn_schema in V1. rewrite V1.
    pose proof (validate_accepts _ _ bps bp_proper Ap) as V2. fold bp_schema in V2. rewrite V2.
    split.
    + intros [H1 H2]. split; [constructor; [exact H1 | constructor; [exact H2 | constructor]] | exact I].
    + intros [H _]. inversion H as [|? ? H1 H2]; subst. inversion H2; subst. split; assumption.
  - split; [intros _; split; [constructor | exact I] | reflexivity].
  - split; [intros _; split; [constructor | exact I] | reflexivity].
Qed.

(** ** Added columns *)

Lemma fill_names n t v f : names (fill n t v f) = if mem_str n (names f) then names f else names f ++ [n].
Proof. unfold fill. destruct (mem_str n (names f)); [reflexivity|]. unfold names. cbn. rewrite map_app. reflexivity. Qed.

Lemma fill_rows n t v f : fm_rows (fill n t v f) = fm_rows f.
Proof. unfold fill. destruct (mem_str n (names f)); reflexivity. Qed.

Lemma fill_there n t v f : In n (names f) -> fill n t v f = f.
Proof. intros H. unfold fill. apply mem_str_in in H. rewrite H. reflexivity. Qed.

Lemma fill_has n t v f : In n (names (fill n t v f)).
Proof.
  rewrite fill_names. destruct (mem_str n (names f)) eqn:E; [apply mem_str_in; exact E|].
  apply in_or_app. right; left; reflexivity.
Qed.

Lemma fill_in n t v f n' : In n' (names (fill n t v f)) <-> n' = n \/ In n' (names f).
Proof.
  rewrite fill_names. destruct (mem_str n (names f)) eqn:E.
  - apply mem_str_in in E. split; [tauto | intros [->|H]; assumption].
  - rewrite in_app_iff. cbn. split; [intros [H|[->|[]]]; auto | intros [->|H]; auto].
Qed.

Lemma fill_mem n t v f n' : n' <> n -> mem_str n' (names (fill n t v f)) = mem_str n' (names f).
Proof.
  intros N. destruct (mem_str n' (names f)) eqn:E.
  - apply mem_str_in. apply fill_in. right. apply mem_str_in. exact E.
  - destruct (mem_str n' (names (fill n t v f))) eqn:E'; [|reflexivity].
    apply mem_str_in in E'. apply fill_in in E'. destruct E' as [E'|E']; [congruence|].
    apply mem_str_in in E'. congruence.
Qed.

Lemma find_app {A} (g : A -> bool) l1 l2 :
  find g (l1 ++ l2) = match find g l1 with Some a => Some a | None => find g l2 end.
Proof. induction l1 as [|a l1 IH]; cbn; [reflexivity|]. destruct (g a); [reflexivity | exact IH]. Qed.

Lemma cell_fill_other n t v f n' i : n' <> n -> cell_at n' (fill n t v f) i = cell_at n' f i.
Proof.
  intros N. unfold cell_at, fill. destruct (mem_str n (names f)); [reflexivity|].
  unfold col. cbn [fm_cols]. rewrite find_app. destruct (find _ (fm_cols f)); [reflexivity|]. cbn.
  destruct (String.eqb n n') eqn:E; [apply String.eqb_eq in E; congruence | reflexivity].
Qed.

Lemma cell_fill_new n t v f i : ~ In n (names f) -> (i < fm_rows f)%nat -> cell_at n (fill n t v f) i = Some v.
Proof.
  intros N L. unfold cell_at, fill. destruct (mem_str n (names f)) eqn:E; [apply mem_str_in in E; tauto|].
  unfold col. cbn [fm_cols]. rewrite find_app.
  assert (F : find (fun c => String.eqb (cl_name c) n) (fm_cols f) = None).
  { destruct (find _ (fm_cols f)) as [c|] eqn:Ec; [|reflexivity]. exfalso. apply N.
    apply find_some in Ec. destruct Ec as [I Ec]. apply String.eqb_eq in Ec. rewrite <- Ec. apply in_map. exact I. }
  rewrite F. cbn. rewrite String.eqb_refl. cbn.
  rewrite (nth_error_nth' _ v) by (rewrite repeat_length; exact L). rewrite nth_repeat. reflexivity.
Qed.

Lemma table_fill n t v f : is_table f -> of_dtype t v -> is_table (fill n t v f).
Proof.
  intros [N T] O. unfold fill. destruct (mem_str n (names f)) eqn:E; [split; assumption|].
  assert (NI : ~ In n (names f)) by (intros H; apply mem_str_in in H; congruence).
  split.
  - unfold names. cbn. rewrite map_app. cbn.
    apply NoDup_app_iff. split; [exact N|]. split; [constructor; [intros [] | constructor]|].
    intros x H [<-|[]]. exact (NI H).
  - intros c H. cbn in *. apply in_app_or in H. destruct H as [H|[<-|[]]]; [exact (T c H)|]. cbn.
    split; [apply repeat_length|]. apply Forall_forall. intros x Hx. apply repeat_spec in Hx. subst. exact O.
Qed.

Lemma described_once (cols : list (series * bool)) d b d' b' :
  NoDup (map (fun c => se_name (fst c)) cols) -> In (d, b) cols -> In (d', b') cols -> se_name d = se_name d' -> d = d'.
Proof.
  intros N I I' E. induction cols as [|[d0 b0] cols IH]; [destruct I|]. cbn in N. inversion N as [|x l Nx Nl]; subst.
  assert (Out : forall e be, In (e, be) cols -> se_name e <> se_name d0).
  { intros e be Ie Ee. apply Nx. rewrite <- Ee. exact (in_map (fun c => se_name (fst c)) cols (e, be) Ie). }
  destruct I as [I|I], I' as [I'|I'].
  - congruence.
  - inversion I; subst. exfalso. exact (Out d' b' I' (eq_sym E)).
  - inversion I'; subst. exfalso. exact (Out d b I E).
  - exact (IH Nl I I').
Qed.

(** A column that is described may be added when its values are in order. *)
Lemma fits_fill keys cols f n t v d b :
  is_table f -> NoDup (map (fun c : series * bool => se_name (fst c)) cols) ->
  In (d, b) cols -> se_name d = n ->
  right_type d (Col n t (repeat v (fm_rows f))) -> right_values d (Col n t (repeat v (fm_rows f))) ->
  fits keys cols f -> fits keys cols (fill n t v f).
Proof.
  intros T N I En RT RV [U [M [C K]]]. unfold fill. destruct (mem_str n (names f)) eqn:E; [exact (conj U (conj M (conj C K)))|].
  split; [|split; [|split]].
  - intros n' H. unfold names in H. cbn in H. rewrite map_app in H. apply in_app_or in H.
    destruct H as [H|[H|[]]]; [exact (U n' H)|]. cbn in H. subst n'. exists d, b. split; assumption.
  - intros n' H. unfold names. cbn. rewrite map_app. apply in_or_app. left. exact (M n' H).
  - intros d' b' c Id Ic Ec. cbn in Ic. apply in_app_or in Ic. destruct Ic as [Ic|[<-|[]]]; [exact (C d' b' c Id Ic Ec)|].
    cbn in Ec. assert (d' = d).
    { apply (described_once cols d' b' d b N Id I). congruence. }
    subst d'. split; assumption.
  - intros i j L Lj. cbn in Lj. destruct (K i j L Lj) as [n' [x [y [Kn [Hx [Hy D]]]]]]. exists n', x, y.
    split; [exact Kn|]. split; [|split; [|exact D]].
    + destruct Hx as [c [Ic H]]. exists c. split; [cbn; apply in_or_app; left; exact Ic | exact H].
    + destruct Hy as [c [Ic H]]. exists c. split; [cbn; apply in_or_app; left; exact Ic | exact H].
Qed.

(** ** Reading a table with an added column *)

Lemma rows_same {A} (mk mk' : nat -> option A) f f' :
  fm_rows f' = fm_rows f -> (forall i, (i < fm_rows f)%nat -> mk' i = mk i) -> rows_of mk' f' = rows_of mk f.
Proof.
  intros E H. unfold rows_of. rewrite E. f_equal. apply map_ext_in. intros i I. apply in_seq in I. apply H. lia.
Qed.

Lemma str_fill n t v f n' i : n' <> n -> str_at n' (fill n t v f) i = str_at n' f i.
Proof. intros N. unfold str_at. rewrite cell_fill_other by exact N. reflexivity. Qed.
Lemma num_fill n t v f n' i : n' <> n -> num_at n' (fill n t v f) i = num_at n' f i.
Proof. intros N. unfold num_at. rewrite cell_fill_other by exact N. reflexivity. Qed.
Lemma maybe_fill n t v f n' i : n' <> n -> maybe_num n' (fill n t v f) i = maybe_num n' f i.
Proof. intros N. unfold maybe_num. rewrite fill_mem, cell_fill_other by exact N. reflexivity. Qed.
Lemma str_or_fill n t v f d n' i : n' <> n -> str_or d n' (fill n t v f) i = str_or d n' f i.
Proof. intros N. unfold str_or. rewrite fill_mem, str_fill by exact N. reflexivity. Qed.
Lemma str_or_default n d f i : (i < fm_rows f)%nat -> str_or d n (fill n DObject (CStr d) f) i = str_or d n f i.
Proof.
  intros L. unfold str_or. rewrite (proj2 (mem_str_in _ _) (fill_has _ _ _ _)).
  destruct (mem_str n (names f)) eqn:E.
  - rewrite fill_there by (apply mem_str_in; exact E). reflexivity.
  - unfold str_at. rewrite cell_fill_new; [reflexivity | | exact L].
    intros H. apply mem_str_in in H. congruence.
Qed.

Lemma fill_dt_rows f : fm_rows (fill_dt f) = fm_rows f.
Proof. apply fill_rows. Qed.
Lemma fill_sd_rows f : fm_rows (fill_service_dt f) = fm_rows f.
Proof. unfold fill_service_dt, fill_dt, fill_text. rewrite !fill_rows. reflexivity. Qed.

Ltac reading :=
  unfold fill_service_dt, fill_dt, fill_text;
  repeat first [ rewrite str_fill by discriminate | rewrite num_fill by discriminate
               | rewrite maybe_fill by discriminate | rewrite str_or_fill by discriminate
               | rewrite str_or_default by (rewrite ?fill_rows; assumption)
               | rewrite str_or_fill by discriminate ].

Lemma bands_fill f n t v : mem_str n ["unit"; "service"; "dispatch_type"] = true -> bands_of (fill n t v f) = bands_of f.
Proof.
  intros K. unfold bands_of. rewrite fill_names. destruct (mem_str n (names f)); [reflexivity|].
  rewrite filter_app. cbn [filter]. rewrite K. cbn [negb]. apply app_nil_r.
Qed.

Lemma bands_no_key f b : In b (bands_of f) -> b <> "service" /\ b <> "dispatch_type".
Proof.
  unfold bands_of. intros H. apply filter_In in H. destruct H as [_ H].
  split; intros ->; discriminate H.
Qed.

Lemma read_bids_fill f : read_bids (fill_service_dt f) = read_bids f.
Proof.
  unfold read_bids.
  assert (B : bands_of (fill_service_dt f) = bands_of f).
  { unfold fill_service_dt, fill_dt, fill_text. rewrite !bands_fill by reflexivity. reflexivity. }
  rewrite B. f_equal. apply rows_same; [apply fill_sd_rows|]. intros i L.
  assert (E : map (fun b => num_at b (fill_service_dt f) i) (bands_of f) = map (fun b => num_at b f i) (bands_of f)).
  { apply map_ext_in. intros b I. destruct (bands_no_key f b I) as [N1 N2].
    unfold fill_service_dt, fill_dt, fill_text. rewrite !num_fill by assumption. reflexivity. }
  rewrite E. reading. reflexivity.
Qed.
Lemma read_ramp_fill f : read_ramp (fill_dt f) = read_ramp f.
Proof.
  unfold read_ramp. unfold fill_dt, fill_text. rewrite !fill_mem by discriminate. f_equal.
  apply rows_same; [apply fill_rows|]. intros i L. reading. reflexivity.
Qed.
Lemma read_fcas_req_fill f : read_fcas_req (fill_text "type" "=" f) = read_fcas_req f.
Proof. unfold read_fcas_req. apply rows_same; [apply fill_rows|]. intros i L. reading. reflexivity. Qed.
Lemma read_max_avail_fill f : In "service" (names f) -> read_max_avail (fill_service_dt f) = read_max_avail f.
Proof.
  intros H. assert (E : fill_service_dt f = fill_dt f).
  { unfold fill_service_dt. unfold fill_text. rewrite (fill_there "service") by exact H. reflexivity. }
  rewrite E. unfold read_max_avail.
  apply rows_same; [apply fill_dt_rows|]. intros i L. reading. reflexivity.
Qed.
Lemma read_traps_fill f : read_traps (fill_dt f) = read_traps f.
Proof. unfold read_traps. apply rows_same; [apply fill_dt_rows|]. intros i L. reading. reflexivity. Qed.

Lemma named_units_fill f : named_units (fill_dt f) = named_units f.
Proof.
  unfold named_units. rewrite fill_dt_rows. rewrite !flat_map_concat_map. f_equal. apply map_ext. intros i. reading. reflexivity.
Qed.

(** ** A call depends on the market's set-up only *)

Lemma checks_cfg req m m2 c : m_cfg m2 = m_cfg m -> checks req m2 c = checks req m c.
Proof.
  intros E.
  assert (U : units m2 = units m) by (unfold units; rewrite E; reflexivity).
  assert (R : regions m2 = regions m) by (unfold regions; rewrite E; reflexivity).
  assert (B : m_bdu m2 = m_bdu m) by (unfold m_bdu; rewrite E; reflexivity).
  unfold checks, fs_ramp_check, volume_schema, price_schema, limits_schema, uigf_schema, ramp_schema, scada_schema,
    fs_ramp_schema, fs_schema, demand_schema, fcas_req_schema, max_avail_schema, reg_ramp_schema, trap_schema,
    inter_schema, gunit_schema, gregion_schema, volume_cols, price_cols, limits_cols, uigf_cols, ramp_cols,
    scada_cols, fs_ramp_cols, fs_cols, demand_cols, fcas_req_cols, max_avail_cols, reg_ramp_cols, trap_cols, inter_cols,
    gunit_cols, gregion_cols, check_bdu.
  rewrite U, R, B. reflexivity.
Qed.

(** ** Tables passed again *)

Lemma dt_generator n : right_type dt_col (Col "dispatch_type" DObject (repeat (CStr "generator") n))
                       /\ right_values dt_col (Col "dispatch_type" DObject (repeat (CStr "generator") n)).
Proof.
  split.
  - intros x H. apply repeat_spec in H. subst. eauto.
  - intros x H. apply repeat_spec in H. subst. split; [|split; discriminate].
    intros vs E. inversion E; subst. exists (CStr "generator"). split; [left; reflexivity|].
    split; [reflexivity | discriminate].
Qed.
Lemma text_in_const n v l k :
  In v l -> right_type (text_in n l) (Col n DObject (repeat (CStr v) k))
            /\ right_values (text_in n l) (Col n DObject (repeat (CStr v) k)).
Proof.
  intros I. split.
  - intros x H. apply repeat_spec in H. subst. eauto.
  - intros x H. apply repeat_spec in H. subst. split; [|split; discriminate].
    intros vs E. inversion E; subst. exists (CStr v). split; [apply in_map; exact I|].
    split; [reflexivity | discriminate].
Qed.

Lemma fits_fill_dt keys cols f b :
  proper keys cols -> is_table f -> In (dt_col, b) cols -> fits keys cols f -> fits keys cols (fill_dt f).
Proof.
  intros [N _] T I F. unfold fill_dt, fill_text.
  apply (fits_fill keys cols f "dispatch_type" DObject (CStr "generator") dt_col b T N I eq_refl);
    [apply dt_generator | apply dt_generator | exact F].
Qed.
Lemma fits_fill_text keys cols f n v l b :
  proper keys cols -> is_table f -> In (text_in n l, b) cols -> In v l -> fits keys cols f ->
  fits keys cols (fill_text n v f).
Proof.
  intros [N _] T I V F. unfold fill_text.
  destruct (text_in_const n v l (fm_rows f) V) as [A B].
  apply (fits_fill keys cols f n DObject (CStr v) (text_in n l) b T N I eq_refl A B F).
Qed.

Lemma table_text n v f : is_table f -> is_table (fill_text n v f).
Proof. intros T. apply table_fill; [exact T | exact I]. Qed.

Lemma fill_service_there f : In "service" (names f) -> fill_service_dt f = fill_dt f.
Proof. intros H. unfold fill_service_dt, fill_text. rewrite (fill_there "service") by exact H. reflexivity. Qed.

Lemma typed_after req m c : Forall table_fits (tables req m c) -> reusable req c -> typed (after_check c) = typed c.
Proof.
  intros F R. destruct c as [f|f|f v|f v|f s p r v|f v| |f v|f v|f v|f p r v|f v|f v|f|lf bps|f v|f|f|f|k v|v];
    cbn [after_check typed]; try reflexivity; try contradiction.
  - rewrite read_bids_fill. reflexivity.
  - rewrite read_bids_fill. reflexivity.
  - rewrite read_ramp_fill. reflexivity.
  - rewrite read_fcas_req_fill. reflexivity.
  - inversion F as [|? ? F1 _]; subst. destruct F1 as [_ [M _]]. rewrite read_max_avail_fill; [reflexivity|]. apply M.
    exists (text_in "service" allowed_fcas). split; [right; left; reflexivity | reflexivity].
  - rewrite read_traps_fill. reflexivity.
  - rewrite read_traps_fill. reflexivity.
Qed.

Ltac column := cbn; repeat (first [left; reflexivity | right]).

Lemma fits_after req m c :
  args_tables c -> reusable req c -> Forall table_fits (tables req m c) /\ both_sides m c ->
  Forall table_fits (tables req m (after_check c)) /\ both_sides m (after_check c).
Proof.
  intros [_ A] R [F B]. destruct c as [f|f|f v|f v|f s p r v|f v| |f v|f v|f v|f p r v|f v|f v|f|lf bps|f v|f|f|f|k v|v];
    cbn [after_check] in *; try (split; assumption); try contradiction; cbn [tables both_sides reusable] in *; subst.
  - split; [|exact I]. inversion F as [|? ? F1 _]; subst. constructor; [|constructor].
    unfold fill_service_dt. unfold table_fits in *.
    apply (fits_fill_dt _ _ _ false (volume_proper true m)); [apply table_text; exact A | column |].
    apply (fits_fill_text _ _ _ "service" "energy" allowed_services true (volume_proper true m)); [exact A | column | column | exact F1].
  - split; [|exact I]. inversion F as [|? ? F1 _]; subst. constructor; [|constructor].
    unfold fill_service_dt. unfold table_fits in *.
    apply (fits_fill_dt _ _ _ false (price_proper true m)); [apply table_text; exact A | column |].
    apply (fits_fill_text _ _ _ "service" "energy" allowed_services true (price_proper true m)); [exact A | column | column | exact F1].
  - destruct A as [A _]. split; [|rewrite named_units_fill; exact B]. inversion F as [|? ? F1 F2]; subst. constructor; [|exact F2].
    apply (fits_fill_dt _ _ _ false (ramp_proper true m)); [exact A | column | exact F1].
  - split; [|exact I]. inversion F as [|? ? F1 _]; subst. constructor; [|constructor].
    apply (fits_fill_text _ _ _ "type" "=" allowed_types true (fcas_req_proper m)); [exact A | column | column | exact F1].
  - split; [|exact I]. inversion F as [|? ? F1 _]; subst. constructor; [|constructor].
    rewrite fill_service_there.
    + apply (fits_fill_dt _ _ _ true (max_avail_proper m)); [exact A | column | exact F1].
    + destruct F1 as [_ [M _]]. apply M.
      exists (text_in "service" allowed_fcas). split; [right; left; reflexivity | reflexivity].
  - split; [|exact I]. inversion F as [|? ? F1 _]; subst. constructor; [|constructor].
    apply (fits_fill_dt _ _ _ true (trap_proper _ m)); [exact A | column | exact F1].
  - split; [|exact I]. inversion F as [|? ? F1 _]; subst. constructor; [|constructor].
    apply (fits_fill_dt _ _ _ true (trap_proper _ m)); [exact A | column | exact F1].
Qed.

Lemma args_after c : args_tables c -> args_tables (after_check c).
Proof.
  intros [C A]. destruct c; cbn [after_check]; try (split; assumption); split;
    cbn [cost_of_call] in *; try exact C; unfold fill_service_dt, fill_dt; try (apply table_text; try apply table_text; exact A).
  destruct A as [A A']. split; [apply table_text; exact A | exact A'].
Qed.

(** The columns added before the checks are added once. *)
Lemma fill_link_table f f' : is_table f -> fill_link f = Some f' -> is_table f'.
Proof.
  intros T. unfold fill_link. destruct (mem_str "link" (names f)) eqn:E; [intros H; inversion H; subst; exact T|].
  destruct (col "interconnector" f) as [c|] eqn:Ec; [|discriminate]. intros H; inversion H; subst; clear H.
  apply col_some in Ec. destruct Ec as [Ic _]. destruct T as [N T]. destruct (T c Ic) as [Len Ty].
  split.
  - unfold names. cbn. rewrite map_app. cbn. apply NoDup_app_iff. split; [exact N|].
    split; [constructor; [intros [] | constructor]|]. intros x H [<-|[]].
    apply mem_str_in in H. unfold names in E. congruence.
  - intros c' H. cbn in *. apply in_app_or in H. destruct H as [H|[<-|[]]]; [exact (T c' H)|]. cbn. split; assumption.
Qed.
Lemma fill_link_has f f' : fill_link f = Some f' -> In "link" (names f').
Proof.
  unfold fill_link. destruct (mem_str "link" (names f)) eqn:E.
  - intros H; inversion H; subst. apply mem_str_in. exact E.
  - destruct (col "interconnector" f) as [c|]; [|discriminate]. intros H; inversion H; subst.
    unfold names. cbn. rewrite map_app. apply in_or_app. right; left; reflexivity.
Qed.
Lemma fill_link_there f : In "link" (names f) -> fill_link f = Some f.
Proof. intros H. unfold fill_link. apply mem_str_in in H. rewrite H. reflexivity. Qed.

Lemma before_table c c1 : args_tables c -> before_check c = Some c1 -> args_tables c1.
Proof.
  intros [C A] H. destruct c; cbn [before_check] in H; try (inversion H; subst; split; assumption).
  - unfold given in H. destruct (fill_link f) as [f'|] eqn:E; [|discriminate]. inversion H; subst. split; [exact I|].
    repeat (apply table_fill; [|exact I]). exact (fill_link_table _ _ A E).
  - unfold given in H. destruct (fill_link lf) as [f'|] eqn:E; [|discriminate].
    destruct (fill_link bps) as [g'|] eqn:E'; [|discriminate]. inversion H; subst. split; [exact I|].
    destruct A as [A1 A2]. split; [exact (fill_link_table _ _ A1 E) | exact (fill_link_table _ _ A2 E')].
Qed.
Lemma before_again c c1 : before_check c = Some c1 -> before_check (after_check c1) = Some (after_check c1).
Proof.
  intros H. destruct c; cbn [before_check] in H; try (inversion H; subst; reflexivity).
  - unfold given in H. destruct (fill_link f) as [f'|] eqn:E; [|discriminate]. inversion H; subst; clear H.
    cbn [after_check before_check]. rewrite fill_link_there.
    + cbn [given].
      set (g := fill "generic_constraint_factor" DInt (CInt 1)
                  (fill "to_region_loss_factor" DFloat (CNum 1)
                     (fill "from_region_loss_factor" DFloat (CNum 1) f'))).
      assert (G1 : fill "from_region_loss_factor" DFloat (CNum 1) g = g)
        by (apply fill_there; unfold g; rewrite !fill_in; tauto).
      assert (G2 : fill "to_region_loss_factor" DFloat (CNum 1) g = g)
        by (apply fill_there; unfold g; rewrite !fill_in; tauto).
      assert (G3 : fill "generic_constraint_factor" DInt (CInt 1) g = g)
        by (apply fill_there; unfold g; rewrite !fill_in; tauto).
      rewrite G1, G2, G3. reflexivity.
    + rewrite !fill_in. right; right; right. exact (fill_link_has _ _ E).
  - unfold given in H. destruct (fill_link lf) as [f'|] eqn:E; [|discriminate].
    destruct (fill_link bps) as [g'|] eqn:E'; [|discriminate]. inversion H; subst; clear H.
    cbn [after_check before_check].
    rewrite (fill_link_there f' (fill_link_has _ _ E)). cbn [given].
    rewrite (fill_link_there g' (fill_link_has _ _ E')). reflexivity.
Qed.
Lemma before_reusable req c c1 : before_check c = Some c1 -> reusable req c -> reusable req c1.
Proof.
  intros H R. destruct c; cbn [before_check] in H; try (inversion H; subst; exact R).
  - unfold given in H. destruct (fill_link f) as [f'|]; [|discriminate]. inversion H; subst. exact I.
  - unfold given in H. destruct (fill_link lf) as [f'|]; [|discriminate].
    destruct (fill_link bps) as [g'|]; [|discriminate]. inversion H; subst. exact I.
Qed.
Lemma first_before c c1 m : before_check c = Some c1 -> first_check (after_check c1) m = first_check c m.
Proof.
  intros H. destruct c; cbn [before_check] in H; try (inversion H; subst; reflexivity).
  - unfold given in H. destruct (fill_link f) as [f'|]; [|discriminate]. inversion H; subst. reflexivity.
  - unfold given in H. destruct (fill_link lf) as [f'|]; [|discriminate].
    destruct (fill_link bps) as [g'|]; [|discriminate]. inversion H; subst. reflexivity.
Qed.
Lemma cost_after c : cost_of_call (after_check c) = cost_of_call c.
Proof. destruct c; reflexivity. Qed.

(** What an accepted call went through. *)
Lemma call_accepted req c m m' c' :
  call req c m = Some (m', None, Some c') ->
  exists c1 o, first_check c m = None /\ before_check c = Some c1 /\ checks req m c1 = None /\ typed c1 = Some o
               /\ step o m = (m', None) /\ c' = after_check c1.
Proof.
  unfold call. destruct (first_check c m) eqn:E1; [discriminate|]. destruct (before_check c) as [c1|] eqn:E2; [|discriminate].
  destruct (checks req m c1) eqn:E3; [discriminate|]. unfold given. destruct (typed c1) as [o|] eqn:E4; [|discriminate].
  destruct (step o m) as [m1 [e|]] eqn:E5; [discriminate|]. intros H. inversion H; subst. exists c1, o. tauto.
Qed.

Lemma passed_again req c m m' c' m2 :
  args_tables c -> reusable req c -> call req c m = Some (m', None, Some c') -> m_cfg m2 = m_cfg m ->
  args_tables c' /\ reusable req c' /\ does (call req c' m2) = does (call req c m2).
Proof.
  intros A R H E. apply call_accepted in H. destruct H as [c1 [o [H1 [H2 [H3 [H4 [H5 ->]]]]]]].
  pose proof (before_table _ _ A H2) as A1. pose proof (before_reusable _ _ _ H2 R) as R1.
  pose proof (proj1 (checks_fit req m c1 A1) H3) as F1.
  pose proof (fits_after req m c1 A1 R1 F1) as F2.
  pose proof (proj2 (checks_fit req m (after_check c1) (args_after _ A1)) F2) as H3'.
  split; [apply args_after; exact A1|]. split; [destruct c1; exact R1|].
  unfold call. rewrite (first_before _ _ m2 H2), (before_again _ _ H2), H2.
  rewrite (checks_cfg req m m2 _ E), H3', (checks_cfg req m m2 _ E), H3.
  rewrite (typed_after req m c1 (proj1 F1) R1), cost_after.
  destruct (first_check c m2); [reflexivity|]. destruct (typed c1); [|reflexivity]. cbn [given].
  destruct (step o0 m2) as [m3 [e|]]; reflexivity.
Qed.

(** Limits and forecasts never, bids and ramp rates only with dispatch types. *)
Lemma unknown_refused keys cols f n :
  proper keys cols -> is_table f -> In n (names f) -> ~ known cols n ->
  validate (make_schema keys cols) f = Some EUnexpectedColumn.
Proof. intros P T I K. apply (validate_error keys cols f _ P T). exists n. tauto. Qed.

Ltac not_known :=
  let d := fresh in let b := fresh in let H := fresh in let E := fresh in
  intros [d [b [H E]]]; cbn in H; repeat (destruct H as [H|H]; [inversion H; subst; discriminate E|]); exact H.

Lemma refused_again req c m m' c' m2 :
  args_tables c -> ~ reusable req c -> call req c m = Some (m', None, Some c') -> m_cfg m2 = m_cfg m ->
  (match c with FPriceBids _ | FCapacity _ _ | FUigf _ _ => m_bids m2 <> None | _ => True end) ->
  does (call req c' m2) = Some (m2, Some EUnexpectedColumn).
Proof.
  intros A R H E P. apply call_accepted in H. destruct H as [c1 [o [H1 [H2 [H3 [H4 [H5 ->]]]]]]].
  destruct A as [_ A].
  destruct c as [f|f|f v|f v|f s p r v|f v| |f v|f v|f v|f p r v|f v|f v|f|lf bps|f v|f|f|f|k v|v];
    cbn [reusable] in R; try (exfalso; exact (R I));
    inversion H2; subst c1; unfold call; cbn [after_check before_check first_check checks given].
  - destruct req; [congruence|].
    assert (V : validate (volume_schema false m2) (fill_service_dt f) = Some EUnexpectedColumn).
    { apply (unknown_refused _ _ _ "dispatch_type" (volume_proper false m2)); [|apply fill_has | not_known].
      apply table_text. apply table_text. exact A. }
    rewrite V. reflexivity.
  - destruct req; [congruence|]. destruct (m_bids m2); [|congruence].
    assert (V : validate (price_schema false m2) (fill_service_dt f) = Some EUnexpectedColumn).
    { apply (unknown_refused _ _ _ "dispatch_type" (price_proper false m2)); [|apply fill_has | not_known].
      apply table_text. apply table_text. exact A. }
    rewrite V. reflexivity.
  - destruct (m_bids m2); [|congruence].
    assert (V : validate (limits_schema req m2) (fill_service_dt f) = Some EUnexpectedColumn).
    { apply (unknown_refused _ _ _ "service" (limits_proper req m2)).
      - apply table_text. apply table_text. exact A.
      - apply fill_in. right. apply fill_has.
      - destruct req; not_known. }
    rewrite V. reflexivity.
  - destruct (m_bids m2); [|congruence].
    assert (V : validate (uigf_schema m2) (fill_service_dt f) = Some EUnexpectedColumn).
    { apply (unknown_refused _ _ _ "service" (uigf_proper m2)).
      - apply table_text. apply table_text. exact A.
      - apply fill_in. right. apply fill_has.
      - not_known. }
    rewrite V. reflexivity.
  - destruct req; [congruence|].
    assert (V : validate (ramp_schema false m2) (fill_dt f) = Some EUnexpectedColumn).
    { apply (unknown_refused _ _ _ "dispatch_type" (ramp_proper false m2)); [|apply fill_has | not_known].
      apply table_text. apply A. }
    rewrite V. reflexivity.
Qed.
