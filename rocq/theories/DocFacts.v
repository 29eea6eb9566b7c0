(** The documented columns are those that the schemas ask for. *)

From Coq Require Import QArith ZArith String List Bool Lia.
Import ListNotations.
From Verif Require Import PandasModel TablesModel InterModel MarketModel FrameModel SpecFrame CallModel SpecCalls SpecDocs
  PandasFacts OffersFacts FrameFacts CallFacts RowFacts RejectFacts ReadFacts TotalFacts.
Open Scope string_scope.
Open Scope list_scope.

Definition type_of (k : kind) : data_type := match k with KText => TStr | KFloat => TFloat | KInt => TInt | KFunction => TCallable end.

(** Documentation and schema agree. *)
Definition agrees (d : doc) (cols : list (series * bool)) : Prop :=
  (forall n k, In (n, k) (d_must d ++ d_may d) -> exists s b, In (s, b) cols /\ se_name s = n /\ se_type s = type_of k)
  /\ (forall s, In (s, false) cols -> In (se_name s) (doc_names (d_must d))).

Definition type_eqb (a b : data_type) : bool :=
  match a, b with TStr, TStr | TFloat, TFloat | TInt, TInt | TCallable, TCallable => true | _, _ => false end.
Definition agreesb (d : doc) (cols : list (series * bool)) : bool :=
  forallb (fun nk : string * kind =>
             existsb (fun c : series * bool => String.eqb (se_name (fst c)) (fst nk) && type_eqb (se_type (fst c)) (type_of (snd nk))) cols)
          (d_must d ++ d_may d)
  && forallb (fun c : series * bool => snd c || mem_str (se_name (fst c)) (doc_names (d_must d))) cols.
Lemma type_eqb_eq a b : type_eqb a b = true -> a = b.
Proof. destruct a, b; cbn; congruence. Qed.
Lemma agreesb_ok d cols : agreesb d cols = true -> agrees d cols.
Proof.
  intros H. apply andb_true_iff in H. destruct H as [A B]. rewrite forallb_forall in A, B. split.
  - intros n k I. specialize (A (n, k) I). apply existsb_exists in A. destruct A as [[s b] [I' E]]. cbn in E.
    apply andb_true_iff in E. destruct E as [E1 E2]. apply String.eqb_eq in E1. apply type_eqb_eq in E2. eauto 6.
  - intros s I. specialize (B (s, false) I). cbn in B. apply PandasFacts.mem_str_in in B. exact B.
Qed.

Lemma documented_no_column_error keys cols d f e :
  proper keys cols -> agrees d cols -> is_table f -> as_documented d f ->
  validate (make_schema keys cols) f = Some e -> ~ column_error e.
Proof.
  intros P [G1 G2] T [D1 D2] V. apply (validate_error keys cols f e P T) in V.
  intros [-> |[-> | -> ]]; cbn in V.
  - destruct V as [n [I N]]. unfold names in I. apply in_map_iff in I. destruct I as [c [E I]].
    destruct (D2 c I) as [k [K _]]. destruct (G1 _ _ K) as [s [b [S [En _]]]]. apply N. exists s, b. split; [exact S | congruence].
  - destruct V as [_ [n [[s [S E]] N]]]. apply N. apply D1. rewrite <- E. apply G2. exact S.
  - destruct V as [_ [_ [s [c [[pre [b [post [E [I [En _]]]]]] N]]]]]. apply N. clear N.
    destruct (D2 c I) as [k [K O]]. destruct (G1 _ _ K) as [s' [b' [S [En' Y]]]].
    assert (In (s, b) cols) as S' by (rewrite E; apply in_app_iff; right; left; reflexivity).
    assert (s' = s) as -> by (apply (described_once cols s' b' s b); [exact (proj1 P) | exact S | exact S' | congruence]).
    unfold right_type. rewrite Y. destruct k; exact O.
Qed.

(** A table that fits is as documented. *)
Definition agrees_back (d : doc) (cols : list (series * bool)) : Prop :=
  (forall s b, In (s, b) cols -> exists k, In (se_name s, k) (d_must d ++ d_may d) /\ se_type s = type_of k)
  /\ (forall n, In n (doc_names (d_must d)) -> exists s, In (s, false) cols /\ se_name s = n).
Definition agrees_backb (d : doc) (cols : list (series * bool)) : bool :=
  forallb (fun c : series * bool =>
             existsb (fun nk : string * kind => String.eqb (se_name (fst c)) (fst nk) && type_eqb (se_type (fst c)) (type_of (snd nk)))
               (d_must d ++ d_may d)) cols
  && forallb (fun n => existsb (fun c : series * bool => negb (snd c) && String.eqb (se_name (fst c)) n) cols) (doc_names (d_must d)).
Lemma agrees_backb_ok d cols : agrees_backb d cols = true -> agrees_back d cols.
Proof.
  intros H. apply andb_true_iff in H. destruct H as [A B]. rewrite forallb_forall in A, B. split.
  - intros s b I. specialize (A (s, b) I). apply existsb_exists in A. destruct A as [[n k] [I' E]]. cbn in E.
    apply andb_true_iff in E. destruct E as [E1 E2]. apply String.eqb_eq in E1. apply type_eqb_eq in E2. subst n. eauto.
  - intros n I. specialize (B n I). apply existsb_exists in B. destruct B as [[s b] [I' E]]. cbn in E.
    apply andb_true_iff in E. destruct E as [E1 E2]. apply negb_true_iff in E1. subst b. apply String.eqb_eq in E2. eauto.
Qed.
Lemma fits_documented keys cols d f : agrees_back d cols -> fits keys cols f -> as_documented d f.
Proof.
  intros [G1 G2] [K [N [C _]]]. split.
  - intros n I. destruct (G2 n I) as [s [S E]]. apply N. exists s. tauto.
  - intros c I. assert (In (cl_name c) (names f)) as In' by (unfold names; apply in_map; exact I).
    destruct (K _ In') as [s [b [S E]]]. destruct (G1 s b S) as [k [I' Y]]. exists k. rewrite E in I'. split; [exact I'|].
    destruct (C s b c S I (eq_sym E)) as [W _]. unfold right_type in W. rewrite Y in W. destruct k; exact W.
Qed.

(** ** Columns added before the check *)

Lemma documented_fill d f n t v k :
  as_documented d f -> In (n, k) (d_may d) -> of_kind k (Col n t (repeat v (fm_rows f))) ->
  as_documented (Doc ((n, k) :: d_must d) (d_may d)) (fill n t v f).
Proof.
  intros [D1 D2] I O. split; cbn [d_must d_may].
  - intros n' [<-|J]; [apply fill_has|]. apply fill_in. right. apply D1. exact J.
  - intros c Ic. unfold fill in Ic. destruct (mem_str n (names f)).
    + destruct (D2 c Ic) as [k' [K1 K2]]. exists k'. split; [right; exact K1 | exact K2].
    + cbn in Ic. apply in_app_iff in Ic. destruct Ic as [Ic|[Ic|[]]].
      * destruct (D2 c Ic) as [k' [K1 K2]]. exists k'. split; [right; exact K1 | exact K2].
      * subst c. exists k. split; [left; reflexivity | exact O].
Qed.
Lemma documented_link d f f' :
  as_documented d f -> (forall k, In ("interconnector", k) (d_must d ++ d_may d) -> k = KText) -> fill_link f = Some f' ->
  In ("link", KText) (d_may d) -> as_documented (Doc (("link", KText) :: d_must d) (d_may d)) f'.
Proof.
  intros [D1 D2] U H I. pose proof (fill_link_has _ _ H) as L. unfold fill_link in H.
  assert (X : forall c, In c (fm_cols f) -> exists k, In (cl_name c, k) ((("link", KText) :: d_must d) ++ d_may d) /\ of_kind k c).
  { intros c Ic. destruct (D2 c Ic) as [k' [K1 K2]]. exists k'. split; [right; exact K1 | exact K2]. }
  split; cbn [d_must d_may].
  - intros n [<-|J]; [exact L|]. apply D1 in J. destruct (mem_str "link" (names f)); [inversion H; subst; exact J|].
    destruct (col "interconnector" f); [|discriminate]. inversion H; subst. unfold names in *. cbn [fm_cols].
    rewrite map_app. apply in_app_iff. tauto.
  - destruct (mem_str "link" (names f)); [inversion H; subst; exact X|].
    destruct (col "interconnector" f) as [c|] eqn:C; [|discriminate]. inversion H; subst. cbn [fm_cols].
    intros k Ik. apply in_app_iff in Ik. destruct Ik as [Ik|[Ik|[]]]; [exact (X k Ik)|]. subst k.
    apply col_some in C. destruct C as [Ic Ec]. destruct (D2 c Ic) as [k' [K1 K2]]. rewrite Ec in K1. apply U in K1. subst k'.
    exists KText. split; [left; reflexivity | exact K2].
Qed.
Lemma documented_more c d f : as_documented d f -> as_documented (or_undocumented c d) f.
Proof.
  intros [D1 D2]. split; [exact D1|]. intros k I. destruct (D2 k I) as [q [K O]]. exists q. split; [|exact O].
  cbn [d_must d_may or_undocumented]. rewrite app_assoc. apply in_app_iff. left. exact K.
Qed.

(** ** The calls *)

Section Errors.
  Variable m : market.
  Variable req : bool.

  Lemma profile_no_error r p e :
    opt_table p -> Forall (fun t : doc_table => as_documented (fst t) (snd t)) (profile_docs true r p) ->
    fs_ramp_check p r m = Some e -> ~ column_error e.
  Proof.
    intros T D H. unfold fs_ramp_check, profile_docs in *. destruct p as [f|]; [|discriminate].
    destruct (String.eqb r "no_fast_start_units"); [discriminate|]. inversion D as [|? ? D1 _]; subst. cbn in D1.
    refine (documented_no_column_error _ _ _ f e (fs_ramp_proper r m) _ T D1 H). apply agreesb_ok.
    unfold doc_profiles, fs_ramp_cols. destruct (String.eqb r "fast_start_first_run"); [reflexivity|].
    destruct (String.eqb r "fast_start_second_run"); reflexivity.
  Qed.

  Ltac one A D H P :=
    inversion D as [|? ? D1 _]; subst; cbn in D1;
    refine (documented_no_column_error _ _ _ _ _ P _ A D1 H); apply agreesb_ok.

  Lemma checks_no_error c c1 e :
    args_tables c -> all_documented true req c -> before_check c = Some c1 -> checks req m c1 = Some e -> ~ column_error e.
  Proof.
    intros A0 D B H. pose proof (before_table _ _ A0 B) as [_ A1]. destruct A0 as [_ A]. unfold all_documented in D.
    destruct c as [f|f|f v|f v|f s p r v|f v| |f v|f v|f v|f p r v|f v|f v|f|lf bps|f v|f|f|f|k v|v]; cbn [before_check] in B;
      try (inversion B; subst c1; cbn [checks docs] in * ).
    - one A D H (volume_proper req m). destruct req; reflexivity.
    - one A D H (price_proper req m). destruct req; reflexivity.
    - one A D H (limits_proper req m). destruct req; reflexivity.
    - one A D H (uigf_proper m). reflexivity.
    - destruct A as [Af [As Ap]]. inversion D as [|? ? D1 D2]; subst. cbn in D1. apply Forall_app in D2. destruct D2 as [D2 D3].
      destruct (validate (ramp_schema req m) f) as [e1|] eqn:E1; cbn [or_else] in H.
      { inversion H; subst. refine (documented_no_column_error _ _ _ f e (ramp_proper req m) _ Af D1 E1).
        apply agreesb_ok. destruct req; reflexivity. }
      destruct (check_bdu m (named_units f)) as [e1|] eqn:E2; cbn [or_else] in H.
      { inversion H; subst. unfold check_bdu in E2. cbv zeta in E2. unfold first_err in E2.
        destruct (Nat.eqb _ _); [discriminate|]. inversion E2; subst. intros [X|[X|X]]; discriminate X. }
      destruct (fs_ramp_check p r m) as [e1|] eqn:E3; cbn [or_else] in H.
      { inversion H; subst. exact (profile_no_error r p e Ap D2 E3). }
      destruct s as [s|]; [|discriminate]. inversion D3 as [|? ? D4 _]; subst. cbn in D4.
      refine (documented_no_column_error _ _ _ s e (scada_proper m) _ As D4 H). apply agreesb_ok. reflexivity.
    - one A D H (fs_proper m). reflexivity.
    - discriminate.
    - one A D H (demand_proper m). reflexivity.
    - one A D H (fcas_req_proper m). reflexivity.
    - one A D H (max_avail_proper m). reflexivity.
    - destruct A as [Af Ap]. inversion D as [|? ? D1 D2]; subst. cbn in D1.
      destruct (validate (reg_ramp_schema m) f) as [e1|] eqn:E1; cbn [or_else] in H.
      { inversion H; subst. refine (documented_no_column_error _ _ _ f e (reg_ramp_proper m) _ Af D1 E1).
        apply agreesb_ok. reflexivity. }
      exact (profile_no_error r p e Ap D2 H).
    - one A D H (trap_proper allowed_contingency m). reflexivity.
    - one A D H (trap_proper allowed_regulation m). reflexivity.
    - apply given_some in B. destruct B as [f1 [B1 B]]. inversion B; subst c1. cbn [checks docs] in *.
      inversion D as [|? ? D1 _]; subst. cbn [fst snd] in D1. apply (documented_more (FInterconnectors f)) in D1.
      apply (documented_link _ f f1) in D1; [|intros k I; cbn in I; intuition congruence|exact B1|cbn; tauto].
      apply (documented_fill _ f1 "from_region_loss_factor" DFloat (CNum 1) KFloat) in D1; [|cbn; tauto|reflexivity].
      apply (documented_fill _ _ "to_region_loss_factor" DFloat (CNum 1) KFloat) in D1; [|cbn; tauto|reflexivity].
      apply (documented_fill _ _ "generic_constraint_factor" DInt (CInt 1) KInt) in D1; [|cbn; tauto|reflexivity].
      refine (documented_no_column_error _ _ _ _ _ (inter_proper m) _ A1 D1 H). apply agreesb_ok. reflexivity.
    - apply given_some in B. destruct B as [f1 [B1 B]]. apply given_some in B. destruct B as [f2 [B2 B]]. inversion B; subst c1.
      cbn [checks docs] in *. destruct A1 as [Al Ab]. inversion D as [|? ? D1 D2]; subst. inversion D2 as [|? ? D3 _]; subst.
      cbn [fst snd] in D1, D3.
      apply (documented_more (FLosses lf bps)) in D1, D3.
      apply (documented_link _ lf f1) in D1; [|intros k I; cbn in I; intuition congruence|exact B1|cbn; tauto].
      apply (documented_link _ bps f2) in D3; [|intros k I; cbn in I; intuition congruence|exact B2|cbn; tauto].
      destruct (validate lossfn_schema f1) as [e1|] eqn:E1; cbn [or_else] in H.
      { inversion H; subst. refine (documented_no_column_error _ _ _ _ _ lossfn_proper _ Al D1 E1). apply agreesb_ok. reflexivity. }
      refine (documented_no_column_error _ _ _ _ _ bp_proper _ Ab D3 H). apply agreesb_ok. reflexivity.
    - one A D H generic_proper. reflexivity.
    - one A D H (gunit_proper m). reflexivity.
    - one A D H (gregion_proper m). reflexivity.
    - one A D H ginter_proper. reflexivity.
    - discriminate.
    - discriminate.
  Qed.
End Errors.

Lemma documented_call req c m m' e back :
  args_tables c -> cost_fits (cost_of_call c) -> all_documented true req c -> call req c m = Some (m', Some e, back) ->
  ~ column_error e.
Proof.
  intros A F D H. destruct (first_check c m) as [e1|] eqn:E1.
  { unfold call in H. rewrite E1 in H. inversion H; subst. unfold first_check in E1.
    destruct c; try discriminate E1; destruct (m_bids m'); try discriminate E1; inversion E1; subst;
      intros [X|[X|X]]; discriminate X. }
  destruct (before_check c) as [c1|] eqn:E2.
  2: { unfold call in H. rewrite E1, E2 in H. inversion H; subst. intros [X|[X|X]]; discriminate X. }
  destruct (checks req m c1) as [e1|] eqn:E3.
  { unfold call in H. rewrite E1, E2, E3 in H. inversion H; subst. exact (checks_no_error _ _ _ _ _ A D E2 E3). }
  intros Y. pose proof (before_table _ _ A E2) as A1. destruct (proj1 (checks_fit req m c1 A1) E3) as [G S].
  apply (call_rejected req c c1 m m' (Some e) back A F E1 E2 S H); [|exact G].
  exists e. split; [reflexivity|]. unfold validation_error. destruct Y as [-> |[-> | -> ]]; tauto.
Qed.
Lemma well_documented_docs req c : well_documented c -> docs false req c = docs true req c.
Proof.
  destruct c as [f|f|f v|f v|f s p r v|f v| |f v|f v|f v|f p r v|f v|f v|f|lf bps|f v|f|f|f|k v|v]; cbn; try contradiction; try reflexivity.
  intros W. destruct p as [p|]; cbn [profile_docs]; [|reflexivity]. unfold doc_profiles.
  destruct (String.eqb_spec r "fast_start_second_run") as [->|N]; [contradiction W; reflexivity|].
  reflexivity.
Qed.
Lemma documented_call_literal req c m m' e back :
  args_tables c -> cost_fits (cost_of_call c) -> well_documented c -> all_documented false req c ->
  call req c m = Some (m', Some e, back) -> ~ column_error e.
Proof.
  intros A F W D H. apply (documented_call req c m m' e back A F); [|exact H].
  unfold all_documented in *. rewrite (well_documented_docs req c W) in D. exact D.
Qed.

(** ** Accepted tables are as documented *)

Lemma documented_unfill d f n t v :
  ~ In n (doc_names (d_must d)) -> as_documented d (fill n t v f) -> as_documented d f.
Proof.
  intros N [D1 D2]. split.
  - intros n' I. pose proof (D1 n' I) as J. apply fill_in in J. destruct J as [->|J]; [contradiction | exact J].
  - intros c I. apply D2. unfold fill. destruct (mem_str n (names f)); [exact I|]. cbn. apply in_app_iff. tauto.
Qed.
Lemma documented_unlink d f f' :
  ~ In "link" (doc_names (d_must d)) -> fill_link f = Some f' -> as_documented d f' -> as_documented d f.
Proof.
  intros N H [D1 D2]. split.
  - intros n I. apply (link_names f f' n H); [intros ->; contradiction | exact (D1 n I)].
  - intros c I. apply D2. unfold fill_link in H. destruct (mem_str "link" (names f)); [inversion H; subst; exact I|].
    destruct (col "interconnector" f); [|discriminate]. inversion H; subst. cbn. apply in_app_iff. tauto.
Qed.

Section Accepted.
  Variable m : market.
  Variable req : bool.

  Lemma profiles_documented c r p :
    Forall table_fits (profile_table r m p) ->
    Forall (fun t : doc_table => as_documented (or_undocumented c (fst t)) (snd t)) (profile_docs true r p).
  Proof.
    intros F. unfold profile_table, profile_docs in *. destruct p as [f|]; [|constructor].
    destruct (String.eqb r "no_fast_start_units"); [constructor|]. inversion F as [|? ? F1 _]; subst. cbn in F1.
    constructor; [|constructor]. cbn [fst snd]. apply documented_more.
    refine (fits_documented _ _ _ _ _ F1). apply agrees_backb_ok.
    unfold doc_profiles, fs_ramp_cols. destruct (String.eqb r "fast_start_first_run"); [reflexivity|].
    destruct (String.eqb r "fast_start_second_run"); reflexivity.
  Qed.

  Ltac back_one F :=
    inversion F as [|? ? F1 _]; subst; cbn [table_fits] in F1; constructor; [|constructor]; cbn [fst snd];
    refine (fits_documented _ _ _ _ _ F1); apply agrees_backb_ok.

  Lemma fits_docs c c1 :
    before_check c = Some c1 -> Forall table_fits (tables req m c1) ->
    Forall (fun t : doc_table => as_documented (or_undocumented c (fst t)) (snd t)) (docs true req c).
  Proof.
    intros B F.
    destruct c as [f|f|f v|f v|f s p r v|f v| |f v|f v|f v|f p r v|f v|f v|f|lf bps|f v|f|f|f|k v|v]; cbn [before_check] in B;
      try (inversion B; subst c1; cbn [tables docs] in * ).
    - back_one F. destruct req; reflexivity.
    - back_one F. destruct req; reflexivity.
    - back_one F. destruct req; reflexivity.
    - back_one F. reflexivity.
    - inversion F as [|? ? F1 F2]; subst. apply Forall_app in F2. destruct F2 as [F2 F3]. constructor.
      + cbn [fst snd]. cbn [table_fits] in F1. refine (fits_documented _ _ _ _ _ F1). apply agrees_backb_ok. destruct req; reflexivity.
      + apply Forall_app. split; [apply profiles_documented; exact F2|]. destruct s as [s|]; [|constructor].
        inversion F3 as [|? ? F4 _]; subst. constructor; [|constructor]. cbn [fst snd]. cbn [table_fits] in F4.
        apply documented_more. refine (fits_documented _ _ _ _ _ F4). apply agrees_backb_ok. reflexivity.
    - back_one F. reflexivity.
    - constructor.
    - back_one F. reflexivity.
    - back_one F. reflexivity.
    - back_one F. reflexivity.
    - inversion F as [|? ? F1 F2]; subst. constructor; [|apply profiles_documented; exact F2].
      cbn [fst snd]. cbn [table_fits] in F1. refine (fits_documented _ _ _ _ _ F1). apply agrees_backb_ok. reflexivity.
    - back_one F. reflexivity.
    - back_one F. reflexivity.
    - apply given_some in B. destruct B as [f1 [B1 B]]. inversion B; subst c1. cbn [tables docs] in *.
      inversion F as [|? ? F1 _]; subst. cbn [table_fits] in F1. constructor; [|constructor]. cbn [fst snd].
      assert (D : as_documented (or_undocumented (FInterconnectors f) doc_interconnectors)
                    (fill "generic_constraint_factor" DInt (CInt 1) (fill "to_region_loss_factor" DFloat (CNum 1)
                       (fill "from_region_loss_factor" DFloat (CNum 1) f1)))).
      { refine (fits_documented _ _ _ _ _ F1). apply agrees_backb_ok. reflexivity. }
      apply documented_unfill in D; [|cbn; intuition discriminate].
      apply documented_unfill in D; [|cbn; intuition discriminate].
      apply documented_unfill in D; [|cbn; intuition discriminate].
      refine (documented_unlink _ f f1 _ B1 D); cbn; intuition discriminate.
    - apply given_some in B. destruct B as [f1 [B1 B]]. apply given_some in B. destruct B as [f2 [B2 B]]. inversion B; subst c1.
      cbn [tables docs] in *. inversion F as [|? ? F1 F2]; subst. inversion F2 as [|? ? F3 _]; subst. cbn [table_fits] in F1, F3.
      constructor; [|constructor; [|constructor]]; cbn [fst snd].
      + refine (documented_unlink _ lf f1 _ B1 _); [cbn; intuition discriminate|].
        refine (fits_documented _ _ _ _ _ F1). apply agrees_backb_ok. reflexivity.
      + refine (documented_unlink _ bps f2 _ B2 _); [cbn; intuition discriminate|].
        refine (fits_documented _ _ _ _ _ F3). apply agrees_backb_ok. reflexivity.
    - back_one F. reflexivity.
    - back_one F. reflexivity.
    - back_one F. reflexivity.
    - back_one F. reflexivity.
    - constructor.
    - constructor.
  Qed.
End Accepted.

Lemma accepted_documented req c m m' c' :
  args_tables c -> call req c m = Some (m', None, Some c') ->
  Forall (fun t : doc_table => as_documented (or_undocumented c (fst t)) (snd t)) (docs true req c).
Proof.
  intros A H. apply call_accepted in H. destruct H as [c1 [o [_ [B [K _]]]]].
  apply (checks_fit req m c1 (before_table _ _ A B)) in K. exact (fits_docs m req c c1 B (proj1 K)).
Qed.

(** ** The constructor *)

Lemma fill_documented_units rs f e :
  is_table f -> as_documented (doc_units true) f ->
  validate (unit_info_schema rs) (fill_dt (fill "loss_factor" DFloat (CNum 1) f)) = Some e -> ~ column_error e.
Proof.
  intros T D H.
  apply (documented_fill _ f "loss_factor" DFloat (CNum 1) KFloat) in D; [|cbn; tauto|reflexivity].
  apply (documented_fill _ _ "dispatch_type" DObject (CStr "generator") KText) in D;
    [|cbn; tauto|intros x I; apply repeat_spec in I; eauto].
  assert (T' : is_table (fill_dt (fill "loss_factor" DFloat (CNum 1) f))).
  { apply table_text. apply table_fill; [exact T | exact I]. }
  refine (documented_no_column_error _ _ _ _ _ (unit_info_proper rs) _ T' D H). apply agreesb_ok. reflexivity.
Qed.
Lemma documented_construct rs interval f e :
  is_table f -> as_documented (doc_units true) f -> construct rs interval f = Some (Err e) -> ~ column_error e.
Proof.
  intros T D H Y.
  assert (V : fault ["unit"; "dispatch_type"] (unit_info_cols rs)
           (fill "dispatch_type" DObject (CStr "generator") (fill "loss_factor" DFloat (CNum 1) f)) e).
  { apply (proj2 (constructor_exact rs interval f T) e). exact H. }
  assert (T' : is_table (fill_dt (fill "loss_factor" DFloat (CNum 1) f))).
  { apply table_text. apply table_fill; [exact T | exact I]. }
  apply (validate_error _ _ _ e (unit_info_proper rs) T') in V.
  exact (fill_documented_units rs f e T D V Y).
Qed.
Lemma accepted_units rs interval f req m f' :
  is_table f -> construct rs interval f = Some (Ok (req, m, f')) -> as_documented (doc_units true) f.
Proof.
  intros T H.
  assert (F : fits ["unit"; "dispatch_type"] (unit_info_cols rs)
           (fill "dispatch_type" DObject (CStr "generator") (fill "loss_factor" DFloat (CNum 1) f))).
  { apply (proj1 (constructor_exact rs interval f T)). eauto. }
  assert (D : as_documented (doc_units true) (fill "dispatch_type" DObject (CStr "generator") (fill "loss_factor" DFloat (CNum 1) f))).
  { refine (fits_documented _ _ _ _ _ F). apply agrees_backb_ok. reflexivity. }
  apply documented_unfill in D; [|cbn; intuition discriminate].
  apply documented_unfill in D; [|cbn; intuition discriminate]. exact D.
Qed.
