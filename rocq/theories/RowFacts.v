(** Tables that fit give rows the typed model accepts. *)

From Coq Require Import QArith ZArith String List Bool Lia.
Import ListNotations.
From Verif Require Import PandasModel TablesModel InterModel MarketModel FrameModel SpecFrame CallModel SpecCalls
  PandasFacts OffersFacts FrameFacts CallFacts.
Open Scope string_scope.
Open Scope list_scope.

(** ** Rows and cells *)

Lemma all_some_nth {A} (l : list (option A)) l' :
  all_some l = Some l' -> length l' = length l /\ forall i a, nth_error l' i = Some a -> nth_error l i = Some (Some a).
Proof.
  revert l'. induction l as [|[a|] l IH]; cbn; intros l' H.
  - inversion H; subst. split; [reflexivity|]. intros i a E. destruct i; discriminate.
  - destruct (all_some l) as [t|]; [|discriminate]. inversion H; subst. destruct (IH t eq_refl) as [L N].
    split; [cbn; rewrite L; reflexivity|]. intros [|i] b E; cbn in *; [congruence | apply N; exact E].
  - discriminate.
Qed.

Lemma rows_of_nth {A} (mk : nat -> option A) f rows :
  rows_of mk f = Some rows ->
  length rows = fm_rows f /\ forall i r, nth_error rows i = Some r -> mk i = Some r /\ (i < fm_rows f)%nat.
Proof.
  unfold rows_of. intros H. destruct (all_some_nth _ _ H) as [L N]. rewrite map_length, seq_length in L.
  split; [exact L|]. intros i r E.
  assert (Li : (i < fm_rows f)%nat) by (rewrite <- L; apply nth_error_Some; congruence).
  apply N in E. rewrite nth_error_map in E. rewrite (nth_error_nth' _ 0%nat) in E by (rewrite seq_length; exact Li).
  rewrite seq_nth in E by exact Li. cbn in E. split; [congruence | exact Li].
Qed.

Lemma cell_holds n f i x : cell_at n f i = Some x -> holds f n i x.
Proof.
  unfold cell_at, holds. destruct (col n f) as [c|] eqn:E; [|discriminate]. intros H.
  apply col_some in E. destruct E as [I E]. eauto.
Qed.
Lemma holds_cell n f i x : is_table f -> holds f n i x -> cell_at n f i = Some x.
Proof.
  intros [N _] [c [I [<- H]]]. unfold cell_at. rewrite (col_in f c N I). exact H.
Qed.
Lemma str_cell n f i s : str_at n f i = Some s -> cell_at n f i = Some (CStr s).
Proof. unfold str_at. destruct (cell_at n f i) as [[]|]; congruence. Qed.
Lemma num_cell n f i q : num_at n f i = Some q -> cell_at n f i = Some (CNum q).
Proof. unfold num_at. destruct (cell_at n f i) as [[]|]; congruence. Qed.
Lemma int_cell n f i z : int_at n f i = Some z -> cell_at n f i = Some (CInt z).
Proof. unfold int_at. destruct (cell_at n f i) as [[]|]; congruence. Qed.
Lemma maybe_cell n f i q : maybe_num n f i = Some (Some q) -> cell_at n f i = Some (CNum q).
Proof. unfold maybe_num. destruct (mem_str n (names f)); [|discriminate]. destruct (cell_at n f i) as [[]|]; congruence. Qed.

(** ** What a fitting table says about a cell *)

Lemma fits_cell keys cols f d b n i x :
  fits keys cols f -> In (d, b) cols -> se_name d = n -> cell_at n f i = Some x ->
  (forall vs, se_allowed d = Some vs -> exists v, In v vs /\ same_cell x v)
  /\ (se_not_negative d = true -> forall q, value x = Some q -> 0 <= q).
Proof.
  intros [_ [_ [C _]]] I <- H. apply cell_holds in H. destruct H as [c [Ic [En H]]].
  destruct (C d b c I Ic En) as [_ V]. apply nth_error_In in H. destruct (V x H) as [V1 [_ V3]].
  split; [exact V1|]. intros E. apply V3. exact E.
Qed.

Lemma fits_text keys cols f n l b i s :
  fits keys cols f -> In (text_in n l, b) cols -> str_at n f i = Some s -> mem_str s l = true.
Proof.
  intros F I H. apply str_cell in H. destruct (fits_cell _ _ _ _ _ _ _ _ F I eq_refl H) as [V _].
  destruct (V _ eq_refl) as [v [Iv S]]. apply in_map_iff in Iv. destruct Iv as [s' [<- Is]].
  apply mem_str_in. destruct S as [S _]. congruence.
Qed.
Lemma fits_text_or keys cols f d n l i s :
  fits keys cols f -> (known cols n -> exists b, In (text_in n l, b) cols) -> In d l ->
  str_or d n f i = Some s -> mem_str s l = true.
Proof.
  intros F K D H. unfold str_or in H. destruct (mem_str n (names f)) eqn:E.
  - destruct K as [b I]; [apply F; apply mem_str_in; exact E|]. exact (fits_text _ _ _ _ _ _ _ _ F I H).
  - inversion H; subst. apply mem_str_in. exact D.
Qed.
Lemma fits_num keys cols f d n b i q :
  fits keys cols f -> In (d, b) cols -> se_name d = n -> se_not_negative d = true -> num_at n f i = Some q ->
  non_neg q = true.
Proof.
  intros F I E P H. apply num_cell in H. destruct (fits_cell _ _ _ _ _ _ _ _ F I E H) as [_ V].
  apply Qle_bool_iff. apply V; [exact P | reflexivity].
Qed.
Lemma fits_maybe keys cols f d n b i q :
  fits keys cols f -> In (d, b) cols -> se_name d = n -> se_not_negative d = true -> maybe_num n f i = Some (Some q) ->
  non_neg q = true.
Proof.
  intros F I E P H. apply maybe_cell in H. destruct (fits_cell _ _ _ _ _ _ _ _ F I E H) as [_ V].
  apply Qle_bool_iff. apply V; [exact P | reflexivity].
Qed.
Lemma fits_int keys cols f d n b i z :
  fits keys cols f -> In (d, b) cols -> se_name d = n -> se_not_negative d = true -> int_at n f i = Some z ->
  Z.leb 0 z = true.
Proof.
  intros F I E P H. apply int_cell in H. destruct (fits_cell _ _ _ _ _ _ _ _ F I E H) as [_ V].
  specialize (V P _ eq_refl). unfold Qle in V; cbn in V. apply Z.leb_le. lia.
Qed.

(** ** Checks of rows *)

Lemma forallb_nth {A} (g : A -> bool) l :
  (forall i r, nth_error l i = Some r -> g r = true) -> forallb g l = true.
Proof.
  intros H. apply forallb_forall. intros r I. apply In_nth_error in I. destruct I as [i E]. exact (H i r E).
Qed.
Lemma distinct_rows {A} (same : A -> A -> bool) l :
  (forall i j a b, (i < j)%nat -> nth_error l i = Some a -> nth_error l j = Some b -> same a b = false) ->
  Nat.eqb (length l) (length (drop_duplicates same l)) = true.
Proof. intros H. apply Nat.eqb_eq. apply dd_length. apply FOP_nth. exact H. Qed.

Local Arguments mem_str : simpl never.
Local Arguments non_neg : simpl never.
Local Arguments Z.leb : simpl never.

(** Two rows differ in a key column. *)
Definition key_str (f : frame) (n : string) (i : nat) (s : string) : Prop :=
  In n (names f) -> cell_at n f i = Some (CStr s).
Lemma str_key n f i s : str_at n f i = Some s -> key_str f n i s.
Proof. intros H _. apply str_cell. exact H. Qed.
Lemma str_or_key d n f i s : str_or d n f i = Some s -> key_str f n i s.
Proof.
  intros H I. unfold str_or in H. apply mem_str_in in I. rewrite I in H. apply str_cell. exact H.
Qed.
Lemma holds_name f n i x : holds f n i x -> In n (names f).
Proof. intros [c [I [<- _]]]. apply in_map. exact I. Qed.

Lemma key_differs f n i j x y s t :
  is_table f -> holds f n i x -> holds f n j y -> ~ same_cell x y -> key_str f n i s -> key_str f n j t ->
  String.eqb s t = false.
Proof.
  intros T Hx Hy D Ks Kt. pose proof (holds_name _ _ _ _ Hx) as I. specialize (Ks I). specialize (Kt I).
  apply (holds_cell _ _ _ _ T) in Hx. apply (holds_cell _ _ _ _ T) in Hy.
  apply String.eqb_neq. intros E. subst t. apply D. rewrite Hx in Ks. rewrite Hy in Kt. inversion Ks; inversion Kt; subst.
  split; [reflexivity | discriminate].
Qed.

Ltac some_fields H :=
  unfold given in H;
  repeat match type of H with
         | match ?o with Some _ => _ | None => None end = Some _ => let E := fresh "Q" in destruct o eqn:E; [|discriminate H]
         end;
  inversion H; subst; clear H.

(** A row of [rows_of], taken apart. *)
Ltac row_at N i :=
  let r := fresh "r" in let E := fresh "E" in let H := fresh "H" in let L := fresh "L" in
  intros i r E; destruct (N i r E) as [H L]; clear E; some_fields H; cbn.

Lemma key_differs_int f n i j x y s t :
  is_table f -> holds f n i x -> holds f n j y -> ~ same_cell x y -> int_at n f i = Some s -> int_at n f j = Some t ->
  Z.eqb s t = false.
Proof.
  intros T Hx Hy D Ks Kt. apply int_cell in Ks. apply int_cell in Kt.
  apply (holds_cell _ _ _ _ T) in Hx. apply (holds_cell _ _ _ _ T) in Hy.
  apply Z.eqb_neq. intros E. subst t. apply D. rewrite Hx in Ks. rewrite Hy in Kt. inversion Ks; inversion Kt; subst.
  unfold same_cell; cbn. reflexivity.
Qed.
Lemma key_differs_num f n i j x y s t :
  is_table f -> holds f n i x -> holds f n j y -> ~ same_cell x y -> num_at n f i = Some s -> num_at n f j = Some t ->
  Qeq_bool s t = false.
Proof.
  intros T Hx Hy D Ks Kt. apply num_cell in Ks. apply num_cell in Kt.
  apply (holds_cell _ _ _ _ T) in Hx. apply (holds_cell _ _ _ _ T) in Hy.
  destruct (Qeq_bool s t) eqn:E; [|reflexivity]. exfalso. apply D. rewrite Hx in Ks. rewrite Hy in Kt.
  inversion Ks; inversion Kt; subst. unfold same_cell; cbn. apply Qeq_bool_iff. exact E.
Qed.

Ltac key_case T Hx Hy D :=
  match type of Hx with holds ?f ?n ?i _ => match type of Hy with holds _ _ ?j _ =>
    first
      [ match goal with A : str_at n f i = Some ?s, B : str_at n f j = Some ?t |- _ =>
          rewrite (key_differs f n i j _ _ s t T Hx Hy D (str_key n f i s A) (str_key n f j t B)) end
      | match goal with A : str_or ?d n f i = Some ?s, B : str_or ?d n f j = Some ?t |- _ =>
          rewrite (key_differs f n i j _ _ s t T Hx Hy D (str_or_key d n f i s A) (str_or_key d n f j t B)) end
      | match goal with A : int_at n f i = Some ?s, B : int_at n f j = Some ?t |- _ =>
          rewrite (key_differs_int f n i j _ _ s t T Hx Hy D A B) end
      | match goal with A : num_at n f i = Some ?s, B : num_at n f j = Some ?t |- _ =>
          rewrite (key_differs_num f n i j _ _ s t T Hx Hy D A B) end ]
  end end.

Ltac no_two T K N :=
  apply distinct_rows;
  let i := fresh "i" in let j := fresh "j" in let a := fresh "a" in let b := fresh "b" in
  let Ha := fresh in let Hb := fresh in let Lij := fresh in let Ma := fresh in let Mb := fresh in
  let Kn := fresh in let Hx := fresh in let Hy := fresh in let D := fresh in let Lj := fresh in
  intros i j a b Lij Ha Hb;
  destruct (N i a Ha) as [Ma _]; destruct (N j b Hb) as [Mb Lj];
  destruct (K i j Lij Lj) as [? [? [? [Kn [Hx [Hy D]]]]]];
  some_fields Ma; some_fields Mb; cbn;
  cbn in Kn; repeat (destruct Kn as [Kn|Kn]; [subst; key_case T Hx Hy D; rewrite ?andb_false_r; reflexivity|]);
  destruct Kn.

Ltac known_dt := let H := fresh in let d := fresh in let b := fresh in let E := fresh in
  intros H; first [ exists false; cbn; repeat (first [left; reflexivity | right]); fail
                  | exists true; cbn; repeat (first [left; reflexivity | right]); fail
                  | exfalso; revert H; not_known ].

Ltac in_column F :=
  first
    [ match goal with A : str_at ?n _ _ = Some ?s |- mem_str ?s _ = true =>
        first [ refine (fits_text _ _ _ n _ false _ _ F _ A); solve [column]
              | refine (fits_text _ _ _ n _ true _ _ F _ A); solve [column] ] end
    | match goal with A : str_or ?d ?n _ _ = Some ?s |- mem_str ?s _ = true =>
        refine (fits_text_or _ _ _ d n _ _ _ F _ _ A); [ | solve [column]];
        first [ intros _; exists false; solve [column] | intros _; exists true; solve [column]
              | let H := fresh in intros H; exfalso; revert H; not_known ] end
    | match goal with A : num_at ?n _ _ = Some ?q |- non_neg ?q = true =>
        refine (fits_num _ _ _ (real_pos n) n false _ _ F _ _ _ A); [solve [column] | reflexivity | reflexivity] end
    | match goal with A : int_at ?n _ _ = Some ?q |- Z.leb 0 ?q = true =>
        refine (fits_int _ _ _ (Series n TInt None true true) n false _ _ F _ _ _ A); [solve [column] | reflexivity | reflexivity] end ].

Ltac each_row F N :=
  apply forallb_nth; let i := fresh "i" in row_at N i; unfold is_unit, is_region; in_column F.

Lemma first_err_cons b e t : b = true -> first_err t = None -> first_err ((b, e) :: t) = None.
Proof. intros -> H. exact H. Qed.

(** One check after the other. *)
Ltac rows_pass T F K N :=
  unfold all_rows, no_repeats;
  repeat (apply first_err_cons;
          [match goal with
           | |- forallb _ _ = true => each_row F N
           | |- Nat.eqb _ _ = true => no_two T K N
           end|]);
  reflexivity.
Ltac table_rows :=
  let T := fresh "T" in let F := fresh "F" in let H := fresh "H" in let N := fresh "N" in let K := fresh "K" in
  intros T F H; destruct (rows_of_nth _ _ _ H) as [_ N]; pose proof F as [_ [_ [_ K]]]; rows_pass T F K N.

(** ** The tables *)

Section Tables.
  Variable m : market.

  Lemma demand_rows f l :
    is_table f -> fits ["region"] (demand_cols m) f -> read_demand f = Some l -> check_demand m l = None.
  Proof. unfold check_demand. table_rows. Qed.
  Lemma limits_rows req f l :
    is_table f -> fits ["unit"; "dispatch_type"] (limits_cols req m) f -> read_limits f = Some l -> check_limits m l = None.
  Proof. unfold check_limits. destruct req; table_rows. Qed.
  Lemma uigf_rows f l :
    is_table f -> fits ["unit"] (uigf_cols m) f -> read_uigf f = Some l -> check_uigf m l = None.
  Proof. unfold check_uigf. table_rows. Qed.
  Lemma fs_rows f l : is_table f -> fits ["unit"] (fs_cols m) f -> read_fs f = Some l -> check_fs m l = None.
  Proof. unfold check_fs. table_rows. Qed.
  Lemma fcas_req_rows f l :
    is_table f -> fits ["set"; "region"; "service"] (fcas_req_cols m) f -> read_fcas_req f = Some l ->
    check_fcas_req m l = None.
  Proof. unfold check_fcas_req. table_rows. Qed.
  Lemma max_avail_rows f l :
    is_table f -> fits ["unit"; "service"; "dispatch_type"] (max_avail_cols m) f -> read_max_avail f = Some l ->
    check_max_avail m l = None.
  Proof. unfold check_max_avail. table_rows. Qed.
  Lemma reg_ramp_rows f l :
    is_table f -> fits ["unit"] (reg_ramp_cols m) f -> read_reg_ramp f = Some l -> check_reg_ramp m l = None.
  Proof. unfold check_reg_ramp. table_rows. Qed.
  Lemma trap_rows ss f l :
    is_table f -> fits ["unit"; "service"; "dispatch_type"] (trap_cols ss m) f -> read_traps f = Some l ->
    check_traps ss m l = None.
  Proof. unfold check_traps. table_rows. Qed.
  Lemma generic_rows f l :
    is_table f -> fits ["set"] generic_cols f -> read_generic f = Some l -> check_generic l = None.
  Proof. unfold check_generic. table_rows. Qed.
  Lemma gunit_rows f l :
    is_table f -> fits ["set"; "unit"; "service"] (gunit_cols m) f -> read_gunit f = Some l -> check_gunit m l = None.
  Proof. unfold check_gunit. table_rows. Qed.
  Lemma gregion_rows f l :
    is_table f -> fits ["set"; "region"; "service"] (gregion_cols m) f -> read_gregion f = Some l -> check_gregion m l = None.
  Proof. unfold check_gregion. table_rows. Qed.
  Lemma ginter_rows f l :
    is_table f -> fits ["set"; "interconnector"] ginter_cols f -> read_ginter f = Some l -> check_ginter l = None.
  Proof. unfold check_ginter. table_rows. Qed.
  Lemma vcost_rows f l :
    is_table f -> fits ["set"; "cost"] vcost_cols f -> read_vcost f = Some l -> check_vcost l = None.
  Proof. unfold check_vcost. table_rows. Qed.

  Lemma ramp_rows req f t :
    is_table f -> fits ["unit"; "dispatch_type"] (ramp_cols req m) f -> read_ramp f = Some t -> check_ramp m t = None.
  Proof.
    intros T F H. unfold read_ramp in H. unfold given at 1 in H.
    destruct (rows_of _ f) as [rows|] eqn:R; [|discriminate]. inversion H; subst; clear H.
    destruct (rows_of_nth _ _ _ R) as [_ N]. pose proof F as [_ [_ [_ K]]].
    assert (N' : forall i r, nth_error (map ri_row rows) i = Some r ->
                 (field u <- str_at "unit" f i; field d <- str_or "generator" "dispatch_type" f i;
                  field p <- num_at "initial_output" f i; field up <- num_at "ramp_up_rate" f i;
                  field dn <- num_at "ramp_down_rate" f i; Some (Ramp u d p up dn)) = Some r /\ (i < fm_rows f)%nat).
    { intros i r E. rewrite nth_error_map in E. destruct (nth_error rows i) eqn:E1; [|discriminate].
      inversion E; subst. destruct (N i _ E1) as [H1 L]. split; [|exact L]. some_fields H1.
      unfold given. reflexivity. }
    unfold check_ramp. cbn [rt_rows]. clear N. destruct req; rows_pass T F K N'.
  Qed.

  Lemma scada_rows f t :
    is_table f -> fits ["unit"] (scada_cols m) f -> read_scada f = Some t -> check_scada m t = None.
  Proof.
    intros T F H. unfold read_scada in H. unfold given at 1 in H.
    destruct (rows_of _ f) as [rows|] eqn:R; [|discriminate]. inversion H; subst; clear H.
    destruct (rows_of_nth _ _ _ R) as [_ N]. pose proof F as [_ [_ [_ K]]].
    unfold check_scada. cbn [st_rows]. rows_pass T F K N.
  Qed.

  Lemma fs_ramp_rows run f l :
    is_table f -> fits ["unit"] (fs_ramp_cols run m) f -> read_fs_ramp run f = Some l -> check_fs_ramp m run l = None.
  Proof.
    unfold check_fs_ramp, read_fs_ramp, fs_ramp_cols.
    destruct (String.eqb run "fast_start_first_run"); [table_rows|].
    destruct (String.eqb run "fast_start_second_run").
    - intros T F H. destruct (rows_of_nth _ _ _ H) as [_ N]. pose proof F as [_ [_ [_ K]]].
      unfold all_rows, no_repeats. apply first_err_cons; [each_row F N|]. apply first_err_cons; [|rows_pass T F K N].
      apply forallb_nth. row_at N i. apply andb_true_iff. split; [apply andb_true_iff; split|].
      + in_column F.
      + in_column F.
      + match goal with A : maybe_num _ _ _ = Some ?o |- _ => destruct o; [|reflexivity];
          refine (fits_maybe _ _ _ (Series "time_since_end_of_mode_two" TFloat None false true) _ false _ _ F _ _ _ A);
          [solve [column] | reflexivity | reflexivity] end.
    - intros T F H. destruct (rows_of_nth _ _ _ H) as [_ N]. pose proof F as [_ [_ [_ K]]].
      unfold all_rows, no_repeats. apply first_err_cons; [each_row F N|]. apply first_err_cons; [reflexivity|].
      rows_pass T F K N.
  Qed.

  Lemma inter_rows f l :
    is_table f -> fits ["interconnector"; "link"] (inter_cols m) f -> read_inter f = Some l -> check_inter m l = None.
  Proof.
    intros T F H. destruct (rows_of_nth _ _ _ H) as [_ N]. pose proof F as [_ [_ [_ K]]].
    unfold check_inter, all_rows, no_repeats.
    apply first_err_cons; [each_row F N|]. apply first_err_cons; [each_row F N|].
    apply first_err_cons; [|unfold same_link; rows_pass T F K N].
    apply forallb_nth. row_at N i.
    assert (Hc : In (Series "generic_constraint_factor" TInt (Some [CInt 1; CInt (-1)]) false false, false) (inter_cols m))
      by column.
    match goal with A : int_at "generic_constraint_factor" _ _ = Some _ |- _ => apply int_cell in A;
      destruct (fits_cell _ _ _ _ _ _ _ _ F Hc eq_refl A) as [V _] end.
    clear - V; revert V.
    intros V. destruct (V _ eq_refl) as [v [[<-|[<-|[]]] S]]; unfold same_cell in S; cbn in S;
      unfold Qeq in S; cbn in S; apply orb_true_iff; rewrite !Z.eqb_eq; lia.
  Qed.

  Lemma losses_rows f g l b :
    is_table f -> is_table g -> fits ["interconnector"; "link"] lossfn_cols f ->
    fits ["interconnector"; "link"; "loss_segment"] bp_cols g -> read_lossfn f = Some l -> read_bps g = Some b ->
    check_losses l b = None.
  Proof.
    intros T T' F F' H H'. destruct (rows_of_nth _ _ _ H) as [_ N]. pose proof F as [_ [_ [_ K]]].
    destruct (rows_of_nth _ _ _ H') as [_ N']. pose proof F' as [_ [_ [_ K']]].
    unfold check_losses, all_rows, no_repeats, same_link.
    apply first_err_cons; [each_row F N|]. apply first_err_cons; [no_two T K N|]. rows_pass T' F' K' N'.
  Qed.

  Lemma band_value_in (g : string -> option Q) bands qs b :
    all_some (map g bands) = Some qs -> In b bands -> g b = Some (band_value (combine bands qs) b).
  Proof.
    revert qs. induction bands as [|a l IH]; intros qs H I; [destruct I|]. cbn in H.
    destruct (g a) as [q|] eqn:E; [|discriminate]. destruct (all_some (map g l)) as [qs'|]; [|discriminate].
    inversion H; subst. cbn. destruct (String.eqb_spec b a) as [->|D]; [exact E|].
    destruct I as [->|I]; [contradiction|]. apply IH; [reflexivity | exact I].
  Qed.

  Lemma bands_in f b : In b (bands_of f) -> In b (names f) /\ mem_str b ["unit"; "service"; "dispatch_type"] = false.
  Proof. unfold bands_of. rewrite filter_In, negb_true_iff. tauto. Qed.

  Lemma keys_length l : NoDup l -> Nat.eqb (length l) (length (keys_of String.eqb l)) = true.
  Proof.
    intros N. apply Nat.eqb_eq. unfold keys_of. apply dd_length.
    induction N as [|a l Na N IH]; constructor; [|exact IH].
    apply Forall_forall. intros x I. apply String.eqb_neq. intros <-. contradiction.
  Qed.

  (** The columns of a bids table, for both kinds of bids. *)
  Definition bid_columns (req positive : bool) : list (series * bool) :=
    if positive then volume_cols req m else price_cols req m.

  Lemma bands_known req positive f b :
    no_unknown (bid_columns req positive) f -> In b (bands_of f) ->
    mem_str b allowed_bands = true /\ (positive = true -> exists o, In (real_pos b, o) (bid_columns req positive)).
  Proof.
    intros U I. apply bands_in in I. destruct I as [I M]. destruct (U b I) as [d [o [H E]]].
    unfold bid_columns in *. destruct req, positive; cbn in H;
      repeat (destruct H as [H|H];
              [inversion H; subst; first [discriminate M
                 | split; [reflexivity | intros P; first [discriminate P | exists false; solve [column] | exists true; solve [column]]]]|]);
      destruct H.
  Qed.

  Lemma bids_rows req positive f t :
    is_table f -> fits ["unit"; "service"; "dispatch_type"] (bid_columns req positive) f -> read_bids f = Some t ->
    check_bids positive m t = None.
  Proof.
    intros T F H. unfold read_bids in H. unfold given at 1 in H.
    destruct (rows_of _ f) as [rows|] eqn:R; [|discriminate]. inversion H; subst; clear H.
    destruct (rows_of_nth _ _ _ R) as [_ N]. pose proof F as [U [M [_ K]]].
    unfold check_bids. cbn [bt_bands bt_rows]. unfold all_rows, no_repeats.
    apply first_err_cons.
    { apply forallb_forall. intros b I. apply (bands_known req positive f b U I). }
    apply first_err_cons.
    { apply mem_str_in. unfold bands_of. apply filter_In. split; [|reflexivity]. apply M.
      unfold bid_columns. destruct positive; [exists (real_pos "1") | exists (real "1")]; split; try reflexivity;
        destruct req; column. }
    apply first_err_cons.
    { apply keys_length. apply NoDup_filter. apply T. }
    apply first_err_cons.
    { unfold bid_columns in F. destruct req, positive; each_row F N. }
    apply first_err_cons.
    { unfold bid_columns in F. destruct req, positive; each_row F N. }
    apply first_err_cons.
    { unfold bid_columns in F. destruct req, positive; each_row F N. }
    assert (P : (if positive return check
                 then (forallb (fun r => forallb (fun b => non_neg (br_val r b)) (bands_of f)) rows, EColumnValues)
                 else (true, EColumnValues) : check) = (true, EColumnValues)).
    { destruct positive; [|reflexivity]. f_equal. apply forallb_nth. row_at N i.
      apply forallb_forall. intros b I.
      match goal with A : all_some _ = Some ?qs |- _ => pose proof (band_value_in _ _ _ b A I) as V end.
      cbn beta in V. destruct (bands_known req true f b U I) as [_ B]. destruct (B eq_refl) as [o Ho].
      exact (fits_num _ _ _ (real_pos b) b o _ _ F Ho eq_refl eq_refl V). }
    rewrite P. apply first_err_cons; [reflexivity|].
    apply first_err_cons; [|reflexivity].
    unfold same_bid. no_two T K N.
  Qed.
End Tables.

Lemma unit_info_rows rs interval f l :
  is_table f -> fits ["unit"; "dispatch_type"] (unit_info_cols rs) f -> read_unit_info f = Some l ->
  check_unit_info (Config rs l interval) = None.
Proof. unfold check_unit_info. cbn [c_ui c_regions]. table_rows. Qed.
