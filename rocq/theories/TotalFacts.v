(** Tables that fit and hold real numbers can be read. *)

From Coq Require Import QArith ZArith String List Bool Lia.
Import ListNotations.
From Verif Require Import PandasModel TablesModel InterModel MarketModel FrameModel SpecFrame CallModel SpecCalls SpecTables
  PandasFacts OffersFacts FrameFacts CallFacts RowFacts RejectFacts ReadFacts.
Open Scope string_scope.
Open Scope list_scope.

Lemma all_some_total {A} (l : list (option A)) : (forall o, In o l -> exists a, o = Some a) -> exists l', all_some l = Some l'.
Proof.
  induction l as [|o l IH]; intros H; [eexists; reflexivity|]. destruct (H o (or_introl eq_refl)) as [a ->].
  destruct IH as [l' E]; [intros o I; apply H; right; exact I|]. cbn. rewrite E. eauto.
Qed.
Lemma rows_total {A} (mk : nat -> option A) f :
  (forall i, (i < fm_rows f)%nat -> exists a, mk i = Some a) -> exists l, rows_of mk f = Some l.
Proof.
  intros H. apply all_some_total. intros o I. apply in_map_iff in I. destruct I as [i [<- I]]. apply in_seq in I. apply H. lia.
Qed.

Lemma cell_there f n i : is_table f -> In n (names f) -> (i < fm_rows f)%nat ->
  exists c x, In c (fm_cols f) /\ cl_name c = n /\ cell_at n f i = Some x /\ In x (cl_cells c).
Proof.
  intros [N T] I L. unfold names in I. apply in_map_iff in I. destruct I as [c [E I]].
  destruct (T c I) as [Lc _]. destruct (nth_error (cl_cells c) i) as [x|] eqn:X.
  - exists c, x. split; [exact I|]. split; [exact E|]. unfold cell_at. subst n. rewrite (col_in f c N I), X.
    split; [reflexivity | apply nth_error_In in X; exact X].
  - apply nth_error_None in X. lia.
Qed.

Section Total.
  Context (keys : list string) (cols : list (series * bool)) (f : frame).
  Hypothesis T : is_table f.
  Hypothesis F : fits keys cols f.
  Hypothesis R : finite f.

  Lemma str_total n d b i : In n (names f) -> In (d, b) cols -> se_name d = n -> se_type d = TStr -> (i < fm_rows f)%nat ->
    exists s, str_at n f i = Some s.
  Proof.
    intros I D E Y L. destruct (cell_there f n i T I L) as [c [x [Ic [En [Ex Ix]]]]].
    destruct F as [_ [_ [C _]]]. destruct (C d b c D Ic (eq_trans En (eq_sym E))) as [W _]. unfold right_type in W. rewrite Y in W.
    destruct (W x Ix) as [s ->]. exists s. unfold str_at. rewrite Ex. reflexivity.
  Qed.
  Lemma int_total n d b i : In n (names f) -> In (d, b) cols -> se_name d = n -> se_type d = TInt -> (i < fm_rows f)%nat ->
    exists z, int_at n f i = Some z.
  Proof.
    intros I D E Y L. destruct (cell_there f n i T I L) as [c [x [Ic [En [Ex Ix]]]]].
    destruct F as [_ [_ [C _]]]. destruct (C d b c D Ic (eq_trans En (eq_sym E))) as [W _]. unfold right_type in W. rewrite Y in W.
    destruct T as [_ T']. destruct (T' c Ic) as [_ G]. rewrite Forall_forall in G. specialize (G x Ix). rewrite W in G. cbn in G.
    destruct x; try contradiction. eexists. unfold int_at. rewrite Ex. reflexivity.
  Qed.
  Lemma fun_total n d b i : In n (names f) -> In (d, b) cols -> se_name d = n -> se_type d = TCallable -> (i < fm_rows f)%nat ->
    exists g, fun_at n f i = Some g.
  Proof.
    intros I D E Y L. destruct (cell_there f n i T I L) as [c [x [Ic [En [Ex Ix]]]]].
    destruct F as [_ [_ [C _]]]. destruct (C d b c D Ic (eq_trans En (eq_sym E))) as [W _]. unfold right_type in W. rewrite Y in W.
    destruct (W x Ix) as [g ->]. exists g. unfold fun_at. rewrite Ex. reflexivity.
  Qed.
  Lemma float_cell n d b i : In n (names f) -> In (d, b) cols -> se_name d = n -> se_type d = TFloat -> (i < fm_rows f)%nat ->
    (exists q, cell_at n f i = Some (CNum q)) \/ cell_at n f i = Some CNaN /\ In n may_be_null
      /\ exists c, In c (fm_cols f) /\ In CNaN (cl_cells c).
  Proof.
    intros I D E Y L. destruct (cell_there f n i T I L) as [c [x [Ic [En [Ex Ix]]]]].
    destruct F as [_ [_ [C _]]]. destruct (C d b c D Ic (eq_trans En (eq_sym E))) as [W _]. unfold right_type in W. rewrite Y in W.
    destruct T as [_ T']. destruct (T' c Ic) as [_ G]. rewrite Forall_forall in G. specialize (G x Ix). rewrite W in G. cbn in G.
    destruct (R c x Ic Ix) as [R1 [R2 R3]]. destruct x; try contradiction; try congruence.
    - left. eauto.
    - right. split; [exact Ex|]. split; [rewrite <- En; apply R3; reflexivity | eauto].
  Qed.
  Lemma num_total n d b i : In n (names f) -> In (d, b) cols -> se_name d = n -> se_type d = TFloat ->
    ~ In n may_be_null \/ no_null f -> (i < fm_rows f)%nat -> exists q, num_at n f i = Some q.
  Proof.
    intros I D E Y N L. destruct (float_cell n d b i I D E Y L) as [[q Q]|[_ [Q [c [Ic Ix]]]]].
    - exists q. unfold num_at. rewrite Q. reflexivity.
    - exfalso. destruct N as [N|N]; [contradiction | exact (N c Ic Ix)].
  Qed.
  Lemma maybe_total n d b i : In (d, b) cols -> se_name d = n -> se_type d = TFloat -> (i < fm_rows f)%nat ->
    exists q, maybe_num n f i = Some q.
  Proof.
    intros D E Y L. unfold maybe_num. destruct (mem_str n (names f)) eqn:M; [|eauto]. apply PandasFacts.mem_str_in in M.
    destruct (float_cell n d b i M D E Y L) as [[q Q]|[Q _]]; rewrite Q; eauto.
  Qed.
  Lemma str_or_total v n d b i : (In n (names f) -> In (d, b) cols /\ se_name d = n /\ se_type d = TStr) -> (i < fm_rows f)%nat ->
    exists s, str_or v n f i = Some s.
  Proof.
    intros D L. unfold str_or. destruct (mem_str n (names f)) eqn:M; [|eauto]. apply PandasFacts.mem_str_in in M.
    destruct (D M) as [D1 [D2 D3]]. exact (str_total n d b i M D1 D2 D3 L).
  Qed.
  Lemma needed_there n d : In (d, false) cols -> se_name d = n -> In n (names f).
  Proof. intros D E. destruct F as [_ [A _]]. apply A. exists d. tauto. Qed.
End Total.

(** Optional text columns with an enumerated description. *)
Lemma fits_known keys cols f n : fits keys cols f -> In n (names f) -> exists d b, In (d, b) cols /\ se_name d = n.
Proof. intros [K _] I. exact (K n I). Qed.

(** The description of a column. *)
Definition look (n : string) (cols : list (series * bool)) : option (series * bool) :=
  find (fun c => String.eqb (se_name (fst c)) n) cols.
Lemma look_in n cols d b : look n cols = Some (d, b) -> In (d, b) cols /\ se_name d = n.
Proof. intros H. apply find_some in H. destruct H as [I E]. apply String.eqb_eq in E. split; assumption. Qed.

Section Look.
  Context (keys : list string) (cols : list (series * bool)) (f : frame).
  Hypothesis T : is_table f.
  Hypothesis F : fits keys cols f.
  Lemma str_ok n d i : look n cols = Some (d, false) -> se_type d = TStr -> (i < fm_rows f)%nat -> exists s, str_at n f i = Some s.
  Proof.
    intros K Y L. apply look_in in K. destruct K as [D E]. exact (str_total _ _ _ T F n d false i (needed_there _ _ _ F n d D E) D E Y L).
  Qed.
  Lemma int_ok n d i : look n cols = Some (d, false) -> se_type d = TInt -> (i < fm_rows f)%nat -> exists s, int_at n f i = Some s.
  Proof.
    intros K Y L. apply look_in in K. destruct K as [D E]. exact (int_total _ _ _ T F n d false i (needed_there _ _ _ F n d D E) D E Y L).
  Qed.
  Lemma fun_ok n d i : look n cols = Some (d, false) -> se_type d = TCallable -> (i < fm_rows f)%nat -> exists s, fun_at n f i = Some s.
  Proof.
    intros K Y L. apply look_in in K. destruct K as [D E]. exact (fun_total _ _ _ T F n d false i (needed_there _ _ _ F n d D E) D E Y L).
  Qed.
  Lemma str_or_ok v n d b i : look n cols = Some (d, b) -> se_type d = TStr -> (i < fm_rows f)%nat -> exists s, str_or v n f i = Some s.
  Proof.
    intros K Y L. apply look_in in K. destruct K as [D E]. apply (str_or_total _ _ _ T F v n d b i); [tauto | exact L].
  Qed.
  Lemma str_or_none v n i : look n cols = None -> (i < fm_rows f)%nat -> exists s, str_or v n f i = Some s.
  Proof.
    intros K L. unfold str_or. destruct (mem_str n (names f)) eqn:M; [|eauto]. apply PandasFacts.mem_str_in in M. exfalso.
    destruct (fits_known _ _ _ _ F M) as [d [b [D E]]]. apply (find_none _ _ K) in D. cbn in D. rewrite E, String.eqb_refl in D. discriminate.
  Qed.
  Hypothesis R : finite f.
  Lemma num_ok n d i : look n cols = Some (d, false) -> se_type d = TFloat -> ~ In n may_be_null \/ no_null f -> (i < fm_rows f)%nat ->
    exists s, num_at n f i = Some s.
  Proof.
    intros K Y N L. apply look_in in K. destruct K as [D E].
    exact (num_total _ _ _ T F R n d false i (needed_there _ _ _ F n d D E) D E Y N L).
  Qed.
  Lemma maybe_ok n d b i : look n cols = Some (d, b) -> se_type d = TFloat -> (i < fm_rows f)%nat -> exists s, maybe_num n f i = Some s.
  Proof. intros K Y L. apply look_in in K. destruct K as [D E]. exact (maybe_total _ _ _ T F R n d b i D E Y L). Qed.
End Look.

Ltac cell_ok T F R L :=
  first
    [ eapply (str_ok _ _ _ T F); [reflexivity | reflexivity | exact L]
    | eapply (int_ok _ _ _ T F); [reflexivity | reflexivity | exact L]
    | eapply (fun_ok _ _ _ T F); [reflexivity | reflexivity | exact L]
    | eapply (num_ok _ _ _ T F R); [reflexivity | reflexivity
        | first [right; assumption | left; cbn; intuition discriminate] | exact L]
    | eapply (maybe_ok _ _ _ T F R); [reflexivity | reflexivity | exact L]
    | eapply (str_or_ok _ _ _ T F); [reflexivity | reflexivity | exact L]
    | eapply (str_or_none _ _ _ F); [reflexivity | exact L] ].
Ltac by_cells T F R :=
  let i := fresh "i" in let L := fresh "L" in
  apply rows_total; intros i L;
  repeat match goal with
         | |- exists a, given ?o _ = Some a =>
             let x := fresh "x" in let E := fresh "E" in
             assert (X : exists x, o = Some x) by cell_ok T F R L; destruct X as [x E]; rewrite E; cbn [given]
         end; eauto.

Section Reads.
  Variable m : market.
  Lemma uigf_total f : is_table f -> fits ["unit"] (uigf_cols m) f -> finite f -> exists l, read_uigf f = Some l.
  Proof. intros T F R. unfold read_uigf. by_cells T F R. Qed.
  Lemma fs_total f : is_table f -> fits ["unit"] (fs_cols m) f -> finite f -> exists l, read_fs f = Some l.
  Proof. intros T F R. unfold read_fs. by_cells T F R. Qed.
  Lemma demand_total f : is_table f -> fits ["region"] (demand_cols m) f -> finite f -> exists l, read_demand f = Some l.
  Proof. intros T F R. unfold read_demand. by_cells T F R. Qed.
  Lemma fcas_req_total f : is_table f -> fits ["set"; "region"; "service"] (fcas_req_cols m) f -> finite f ->
    exists l, read_fcas_req f = Some l.
  Proof. intros T F R. unfold read_fcas_req. by_cells T F R. Qed.
  Lemma max_avail_total f : is_table f -> fits ["unit"; "service"; "dispatch_type"] (max_avail_cols m) f -> finite f ->
    exists l, read_max_avail f = Some l.
  Proof. intros T F R. unfold read_max_avail. by_cells T F R. Qed.
  Lemma reg_ramp_total f : is_table f -> fits ["unit"] (reg_ramp_cols m) f -> finite f -> no_null f ->
    exists l, read_reg_ramp f = Some l.
  Proof. intros T F R N. unfold read_reg_ramp. by_cells T F R. Qed.
  Lemma traps_total ss f : is_table f -> fits ["unit"; "service"; "dispatch_type"] (trap_cols ss m) f -> finite f ->
    exists l, read_traps f = Some l.
  Proof. intros T F R. unfold read_traps. by_cells T F R. Qed.
  Lemma inter_total f : is_table f -> fits ["interconnector"; "link"] (inter_cols m) f -> finite f ->
    exists l, read_inter f = Some l.
  Proof. intros T F R. unfold read_inter. by_cells T F R. Qed.
  Lemma lossfn_total f : is_table f -> fits ["interconnector"; "link"] lossfn_cols f -> finite f ->
    exists l, read_lossfn f = Some l.
  Proof. intros T F R. unfold read_lossfn. by_cells T F R. Qed.
  Lemma bps_total f : is_table f -> fits ["interconnector"; "link"; "loss_segment"] bp_cols f -> finite f ->
    exists l, read_bps f = Some l.
  Proof. intros T F R. unfold read_bps. by_cells T F R. Qed.
  Lemma generic_total f : is_table f -> fits ["set"] generic_cols f -> finite f -> exists l, read_generic f = Some l.
  Proof. intros T F R. unfold read_generic. by_cells T F R. Qed.
  Lemma gunit_total f : is_table f -> fits ["set"; "unit"; "service"] (gunit_cols m) f -> finite f -> exists l, read_gunit f = Some l.
  Proof. intros T F R. unfold read_gunit. by_cells T F R. Qed.
  Lemma gregion_total f : is_table f -> fits ["set"; "region"; "service"] (gregion_cols m) f -> finite f ->
    exists l, read_gregion f = Some l.
  Proof. intros T F R. unfold read_gregion. by_cells T F R. Qed.
  Lemma ginter_total f : is_table f -> fits ["set"; "interconnector"] ginter_cols f -> finite f -> exists l, read_ginter f = Some l.
  Proof. intros T F R. unfold read_ginter. by_cells T F R. Qed.
  Lemma scada_total f : is_table f -> fits ["unit"] (scada_cols m) f -> finite f -> exists t, read_scada f = Some t.
  Proof.
    intros T F R. unfold read_scada.
    assert (X : exists l, rows_of (fun i => given (str_at "unit" f i) (fun u => given (maybe_num "scada_ramp_up_rate" f i) (fun su =>
                 given (maybe_num "scada_ramp_down_rate" f i) (fun sd => Some (Scada u su sd))))) f = Some l) by by_cells T F R.
    destruct X as [l E]. unfold given at 1. rewrite E. eauto.
  Qed.
  Lemma limits_total req f : is_table f -> fits ["unit"; "dispatch_type"] (limits_cols req m) f -> finite f ->
    exists l, read_limits f = Some l.
  Proof. intros T F R. unfold read_limits. destruct req; by_cells T F R. Qed.
  Lemma ramp_total req f : is_table f -> fits ["unit"; "dispatch_type"] (ramp_cols req m) f -> finite f ->
    exists t, read_ramp f = Some t.
  Proof.
    intros T F R. unfold read_ramp.
    match goal with |- exists t, given (rows_of ?mk f) _ = Some t => assert (X : exists l, rows_of mk f = Some l) end.
    { destruct req; by_cells T F R. }
    destruct X as [l E]. unfold given at 1. rewrite E. eauto.
  Qed.
  Lemma fs_ramp_total r f : is_table f -> fits ["unit"] (fs_ramp_cols r m) f -> finite f -> exists l, read_fs_ramp r f = Some l.
  Proof.
    intros T F R. unfold read_fs_ramp, fs_ramp_cols in *. destruct (String.eqb r "fast_start_first_run"); [by_cells T F R|].
    destruct (String.eqb r "fast_start_second_run"); by_cells T F R.
  Qed.
  Lemma vcost_total f : is_table f -> fits ["set"; "cost"] vcost_cols f -> exists l, read_vcost f = Some l.
  Proof.
    intros T F.
    assert (R : finite (Frame (fm_rows f) (fm_cols f))).
    { intros c x Ic Ix. cbn in Ic. destruct F as [K [_ [C _]]].
      assert (I : In (cl_name c) (names f)) by (unfold names; apply in_map; exact Ic).
      destruct (K _ I) as [d [b [D E]]]. destruct (C d b c D Ic (eq_sym E)) as [W V]. destruct (V x Ix) as [_ [V2 _]].
      cbn in D. destruct D as [D|[D|[]]]; inversion D; subst d.
      - destruct (W x Ix) as [s ->]. repeat split; try discriminate.
      - destruct (V2 eq_refl) as [A [B N]]. repeat split; try assumption. intros X; contradiction. }
    replace (Frame (fm_rows f) (fm_cols f)) with f in R by (destruct f; reflexivity).
    unfold read_vcost. by_cells T F R.
  Qed.
  Lemma bids_total positive req f : is_table f ->
    fits ["unit"; "service"; "dispatch_type"] (if positive : bool then volume_cols req m else price_cols req m) f -> finite f ->
    exists t, read_bids f = Some t.
  Proof.
    intros T F R. unfold read_bids.
    match goal with |- exists t, given (rows_of ?mk f) _ = Some t => assert (X : exists l, rows_of mk f = Some l) end.
    { apply rows_total. intros i L.
      assert (U : exists u, str_at "unit" f i = Some u) by (destruct positive, req; cell_ok T F R L).
      assert (S : exists s, str_or "energy" "service" f i = Some s) by (destruct positive, req; cell_ok T F R L).
      assert (D : exists d, str_or "generator" "dispatch_type" f i = Some d) by (destruct positive, req; cell_ok T F R L).
      assert (B : exists qs, all_some (map (fun b => num_at b f i) (bands_of f)) = Some qs).
      { apply all_some_total. intros o I. apply in_map_iff in I. destruct I as [b [<- I]]. unfold bands_of in I.
        apply filter_In in I. destruct I as [I N]. apply negb_true_iff, mem_str_not_in in N.
        destruct (fits_known _ _ _ _ F I) as [d [b' [D' E]]].
        assert (Y : se_type d = TFloat).
        { destruct positive, req; cbn in D';
            repeat (destruct D' as [D'|D']; [inversion D'; subst; first [reflexivity | exfalso; apply N; cbn; tauto] |]);
            contradiction. }
        apply (num_total _ _ _ T F R b d b' i I D' E Y); [|exact L]. left.
        assert (Z : ~ In (se_name d) may_be_null).
        { destruct positive, req; cbn in D';
            repeat (destruct D' as [D'|D']; [inversion D'; subst; cbn; intuition discriminate |]); contradiction. }
        rewrite E in Z. exact Z. }
      destruct U as [u U], S as [s S], D as [d D], B as [qs B]. rewrite U. cbn [given]. rewrite S. cbn [given]. rewrite D. cbn [given].
      rewrite B. cbn [given]. eauto. }
    destruct X as [l E]. unfold given at 1. rewrite E. eauto.
  Qed.
End Reads.

Lemma units_total rs f : is_table f -> fits ["unit"; "dispatch_type"] (unit_info_cols rs) f -> finite f ->
  exists l, read_unit_info f = Some l.
Proof. intros T F R. unfold read_unit_info. by_cells T F R. Qed.

(** ** Columns added *)

Lemma finite_fill n t v f : finite f -> v <> CPosInf -> v <> CNegInf -> v <> CNaN -> finite (fill n t v f).
Proof.
  intros R A B C. unfold fill. destruct (mem_str n (names f)); [exact R|]. intros c x Ic Ix. cbn in Ic.
  apply in_app_iff in Ic. destruct Ic as [Ic|[Ic|[]]]; [exact (R c x Ic Ix)|]. subst c. cbn in Ix. apply repeat_spec in Ix. subst x.
  repeat split; try assumption. intros X. contradiction.
Qed.
Lemma finite_link f f' : finite f -> fill_link f = Some f' -> finite f'.
Proof.
  intros R. unfold fill_link. destruct (mem_str "link" (names f)); [intros H; inversion H; subst; exact R|].
  destruct (col "interconnector" f) as [c|] eqn:C; [|discriminate]. apply col_some in C. destruct C as [I E].
  intros H. inversion H; subst f'. intros k x Ik Ix. cbn in Ik. apply in_app_iff in Ik.
  destruct Ik as [Ik|[Ik|[]]]; [exact (R k x Ik Ix)|]. subst k. cbn in Ix. destruct (R c x I Ix) as [A [B N]].
  repeat split; try assumption. intros X. apply N in X. rewrite E in X. cbn in X. cbn. intuition discriminate.
Qed.

(** ** Calls *)

Lemma cost_total v : cost_is_table (Some v) -> exists w, read_cost v = Some w.
Proof.
  intros T. destruct v as [q|f|]; cbn [read_cost]; eauto. destruct (validate vcost_schema f) eqn:V; [eexists; reflexivity|].
  apply (validate_accepts _ _ f vcost_proper T) in V. destruct (vcost_total f T V) as [l E]. rewrite E. cbn. eauto.
Qed.
Lemma opt_cost_total v : cost_is_table v -> exists w, read_opt read_cost v = Some w.
Proof. intros T. destruct v as [v|]; cbn; [|eauto]. destruct (cost_total v T) as [w E]. rewrite E. cbn. eauto. Qed.
Lemma profiles_total m r p :
  opt_table p -> finite_if_given p -> Forall table_fits (profile_table r m p) -> exists p', read_profiles r p = Some p'.
Proof.
  intros T R F. unfold read_profiles, profile_table in *. destruct (String.eqb r "no_fast_start_units"); [eauto|].
  destruct p as [f|]; cbn; [|eauto]. inversion F as [|? ? F1 _]; subst. cbn in F1.
  destruct (fs_ramp_total m r f T F1 R) as [l E]. rewrite E. cbn. eauto.
Qed.

Lemma typed_total req m c :
  args_tables c -> finite_args c -> Forall table_fits (tables req m c) -> exists o, typed c = Some o.
Proof.
  intros [V A] R F.
  destruct c as [f|f|f v|f v|f s p r v|f v| |f v|f v|f v|f p r v|f v|f v|f|lf bps|f v|f|f|f|k v|v];
    cbn [tables cost_of_call finite_args typed] in *.
  - inversion F as [|? ? F1 _]; subst. destruct (bids_total m true req f A F1 R) as [t E]. rewrite E. cbn. eauto.
  - inversion F as [|? ? F1 _]; subst. destruct (bids_total m false req f A F1 R) as [t E]. rewrite E. cbn. eauto.
  - inversion F as [|? ? F1 _]; subst. destruct (limits_total m req f A F1 R) as [t E]. rewrite E. cbn [given].
    destruct (opt_cost_total v V) as [w W]. rewrite W. cbn. eauto.
  - inversion F as [|? ? F1 _]; subst. destruct (uigf_total m f A F1 R) as [t E]. rewrite E. cbn [given].
    destruct (opt_cost_total v V) as [w W]. rewrite W. cbn. eauto.
  - destruct A as [Af [As Ap]], R as [Rf [Rs Rp]]. inversion F as [|? ? F1 F2]; subst. apply Forall_app in F2. destruct F2 as [F2 F3].
    destruct (ramp_total m req f Af F1 Rf) as [t E]. rewrite E. cbn [given].
    assert (S : exists s', read_opt read_scada s = Some s').
    { destruct s as [s|]; cbn; [|eauto]. inversion F3 as [|? ? F4 _]; subst. destruct (scada_total m s As F4 Rs) as [l G].
      rewrite G. cbn. eauto. }
    destruct S as [s' S]. rewrite S. cbn [given]. destruct (profiles_total m r p Ap Rp F2) as [p' P]. rewrite P. cbn [given].
    destruct (opt_cost_total v V) as [w W]. rewrite W. cbn. eauto.
  - inversion F as [|? ? F1 _]; subst. destruct (fs_total m f A F1 R) as [t E]. rewrite E. cbn [given].
    destruct (opt_cost_total v V) as [w W]. rewrite W. cbn. eauto.
  - eauto.
  - inversion F as [|? ? F1 _]; subst. destruct (demand_total m f A F1 R) as [t E]. rewrite E. cbn [given].
    destruct (opt_cost_total v V) as [w W]. rewrite W. cbn. eauto.
  - inversion F as [|? ? F1 _]; subst. destruct (fcas_req_total m f A F1 R) as [t E]. rewrite E. cbn [given].
    destruct (opt_cost_total v V) as [w W]. rewrite W. cbn. eauto.
  - inversion F as [|? ? F1 _]; subst. destruct (max_avail_total m f A F1 R) as [t E]. rewrite E. cbn [given].
    destruct (opt_cost_total v V) as [w W]. rewrite W. cbn. eauto.
  - destruct A as [Af Ap], R as [Rf [Nf Rp]]. inversion F as [|? ? F1 F2]; subst.
    destruct (reg_ramp_total m f Af F1 Rf Nf) as [t E]. rewrite E. cbn [given].
    destruct (profiles_total m r p Ap Rp F2) as [p' P]. rewrite P. cbn [given].
    destruct (opt_cost_total v V) as [w W]. rewrite W. cbn. eauto.
  - inversion F as [|? ? F1 _]; subst. destruct (traps_total m _ f A F1 R) as [t E]. rewrite E. cbn [given].
    destruct (opt_cost_total v V) as [w W]. rewrite W. cbn. eauto.
  - inversion F as [|? ? F1 _]; subst. destruct (traps_total m _ f A F1 R) as [t E]. rewrite E. cbn [given].
    destruct (opt_cost_total v V) as [w W]. rewrite W. cbn. eauto.
  - inversion F as [|? ? F1 _]; subst. destruct (inter_total m f A F1 R) as [t E]. rewrite E. cbn. eauto.
  - destruct A as [Al Ab], R as [Rl Rb]. inversion F as [|? ? F1 F2]; subst. inversion F2 as [|? ? F3 _]; subst.
    destruct (lossfn_total lf Al F1 Rl) as [l E]. rewrite E. cbn [given]. destruct (bps_total bps Ab F3 Rb) as [b G].
    rewrite G. cbn. eauto.
  - inversion F as [|? ? F1 _]; subst. destruct (generic_total f A F1 R) as [t E]. rewrite E. cbn [given].
    destruct (opt_cost_total v V) as [w W]. rewrite W. cbn. eauto.
  - inversion F as [|? ? F1 _]; subst. destruct (gunit_total m f A F1 R) as [t E]. rewrite E. cbn. eauto.
  - inversion F as [|? ? F1 _]; subst. destruct (gregion_total m f A F1 R) as [t E]. rewrite E. cbn. eauto.
  - inversion F as [|? ? F1 _]; subst. destruct (ginter_total f A F1 R) as [t E]. rewrite E. cbn. eauto.
  - destruct (cost_total v V) as [w W]. rewrite W. cbn. eauto.
  - destruct (cost_total v V) as [w W]. rewrite W. cbn. eauto.
Qed.

Lemma finite_before c c1 : finite_args c -> before_check c = Some c1 -> finite_args c1.
Proof.
  intros R B. destruct c; cbn [before_check] in B; try (inversion B; subst; exact R).
  - apply given_some in B. destruct B as [f1 [B1 B]]. inversion B; subst. cbn in *.
    repeat apply finite_fill; try discriminate. exact (finite_link _ _ R B1).
  - apply given_some in B. destruct B as [f1 [B1 B]]. apply given_some in B. destruct B as [f2 [B2 B]]. inversion B; subst.
    cbn in *. destruct R as [R1 R2]. split; [exact (finite_link _ _ R1 B1) | exact (finite_link _ _ R2 B2)].
Qed.

Lemma call_total req c m : args_tables c -> finite_args c -> exists m' r back, call req c m = Some (m', r, back).
Proof.
  intros A R. unfold call. destruct (first_check c m); [eauto|]. destruct (before_check c) as [c1|] eqn:B; [|eauto].
  destruct (checks req m c1) eqn:K; [eauto|].
  apply (checks_fit req m c1 (before_table _ _ A B)) in K. destruct K as [K _].
  destruct (typed_total req m c1 (before_table _ _ A B) (finite_before _ _ R B) K) as [o O]. rewrite O. cbn [given].
  destruct (step o m) as [m1 [e|]]; eauto.
Qed.
Lemma construct_total rs interval f : is_table f -> finite f -> construct rs interval f <> None.
Proof.
  intros T R. unfold construct. destruct (validate _ _) eqn:V; [discriminate|].
  assert (T' : is_table (fill_dt (fill "loss_factor" DFloat (CNum 1) f))).
  { apply table_text. apply table_fill; [exact T | exact I]. }
  apply (validate_accepts _ _ _ (unit_info_proper rs) T') in V.
  assert (R' : finite (fill_dt (fill "loss_factor" DFloat (CNum 1) f))).
  { unfold fill_dt, fill_text. repeat apply finite_fill; try discriminate. exact R. }
  destruct (units_total rs _ T' V R') as [l E]. rewrite E. cbn [given]. destruct (new_market _); discriminate.
Qed.
