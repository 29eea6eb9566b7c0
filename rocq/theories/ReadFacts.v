(** The rows read from the tables are what the tables say. *)

From Coq Require Import QArith ZArith String List Bool Lia.
Import ListNotations.
From Verif Require SpecOrder.
From Verif Require Import PandasModel TablesModel InterModel MarketModel FrameModel SpecFrame CallModel SpecCalls SpecTables
  PandasFacts OffersFacts FrameFacts CallFacts RowFacts RejectFacts.
Open Scope string_scope.
Open Scope list_scope.

(** ** Cells *)

Lemma str_says n f i s : str_at n f i = Some s -> text_in_row f i n s.
Proof. intros H. apply cell_holds, str_cell, H. Qed.
Lemma num_says n f i q : num_at n f i = Some q -> number_in_row f i n q.
Proof. intros H. apply cell_holds, num_cell, H. Qed.
Lemma int_says n f i z : int_at n f i = Some z -> integer_in_row f i n z.
Proof. intros H. apply cell_holds, int_cell, H. Qed.
Lemma fun_says n f i g : fun_at n f i = Some g -> function_in_row f i n g.
Proof. unfold fun_at. destruct (cell_at n f i) as [[]|] eqn:E; try discriminate. intros H. inversion H; subst. apply cell_holds, E. Qed.
Lemma or_says d n f i s : str_or d n f i = Some s -> text_or f i n d s.
Proof.
  unfold str_or, text_or. destruct (mem_str n (names f)) eqn:E; intros H.
  - apply mem_str_in in E. split; [intros _; apply str_says, H | tauto].
  - apply mem_str_not_in in E. split; [tauto | congruence].
Qed.
Lemma maybe_says n f i q : maybe_num n f i = Some q -> number_or_null f i n q.
Proof.
  unfold maybe_num, number_or_null. destruct (mem_str n (names f)) eqn:E.
  - destruct (cell_at n f i) as [[]|] eqn:C; try discriminate; intros H; inversion H; subst.
    + apply cell_holds, C.
    + intros _. apply cell_holds, C.
  - intros H. inversion H; subst. apply mem_str_not_in in E. tauto.
Qed.
Lemma column_there f n : has_column f n (mem_str n (names f)).
Proof. unfold has_column. apply PandasFacts.mem_str_in. Qed.

(** ** Tables *)

Lemma given_some {A B} (o : option A) (k : A -> option B) b : given o k = Some b -> exists a, o = Some a /\ k a = Some b.
Proof. destruct o; [eauto | discriminate]. Qed.

Lemma rows_say {A} (mk : nat -> option A) (P : nat -> A -> Prop) f l :
  (forall i a, mk i = Some a -> P i a) -> rows_of mk f = Some l -> row_by_row f P l.
Proof.
  intros K H. apply rows_of_nth in H. destruct H as [L N]. split; [exact L|]. intros i a E. apply K, (N i a E).
Qed.

Ltac by_fields :=
  let i := fresh "i" in let a := fresh "a" in let H := fresh "H" in
  intros i a H;
  repeat (apply given_some in H; let x := fresh "x" in let Hx := fresh "E" in destruct H as [x [Hx H]]);
  inversion H; subst; cbn;
  repeat match goal with |- _ /\ _ => split end;
  first [apply str_says; assumption | apply num_says; assumption | apply int_says; assumption | apply fun_says; assumption
        | apply or_says; assumption | apply maybe_says; assumption | idtac].

Lemma limits_read f l : read_limits f = Some l -> limits_say f l.
Proof. apply rows_say. by_fields. Qed.
Lemma uigf_read f l : read_uigf f = Some l -> forecast_says f l.
Proof. apply rows_say. by_fields. Qed.
Lemma fs_read f l : read_fs f = Some l -> fast_start_says f l.
Proof. apply rows_say. by_fields. Qed.
Lemma demand_read f l : read_demand f = Some l -> demand_says f l.
Proof. apply rows_say. by_fields. Qed.
Lemma req_read f l : read_fcas_req f = Some l -> requirement_says f l.
Proof. apply rows_say. by_fields. Qed.
Lemma avail_read f l : read_max_avail f = Some l -> availability_says f l.
Proof. apply rows_say. by_fields. Qed.
Lemma reg_read f l : read_reg_ramp f = Some l -> joint_rates_say f l.
Proof. apply rows_say. by_fields. Qed.
Lemma traps_read f l : read_traps f = Some l -> trapeziums_say f l.
Proof. apply rows_say. by_fields. Qed.
Lemma generic_read f l : read_generic f = Some l -> generics_say f l.
Proof. apply rows_say. by_fields. Qed.
Lemma gunit_read f l : read_gunit f = Some l -> unit_terms_say f l.
Proof. apply rows_say. by_fields. Qed.
Lemma gregion_read f l : read_gregion f = Some l -> region_terms_say f l.
Proof. apply rows_say. by_fields. Qed.
Lemma ginter_read f l : read_ginter f = Some l -> inter_terms_say f l.
Proof. apply rows_say. by_fields. Qed.
Lemma ramp_read f t : read_ramp f = Some t -> ramp_rates_say f t.
Proof.
  unfold read_ramp. intros H. apply given_some in H. destruct H as [rows [E H]]. inversion H; subst.
  split; [apply column_there|]. split; [apply column_there|]. cbn [rt_rows]. revert E. apply rows_say. by_fields.
Qed.
Lemma scada_read f t : read_scada f = Some t -> scada_rates_say f t.
Proof.
  unfold read_scada. intros H. apply given_some in H. destruct H as [rows [E H]]. inversion H; subst.
  split; [apply column_there|]. split; [apply column_there|]. cbn [st_rows]. revert E. apply rows_say. by_fields.
Qed.
Lemma fs_ramp_read r f l : read_fs_ramp r f = Some l -> profiles_say r f l.
Proof.
  unfold read_fs_ramp. destruct (String.eqb_spec r "fast_start_first_run") as [->|N1].
  - apply rows_say. by_fields; try (intros _; apply int_says; assumption). discriminate.
  - destruct (String.eqb_spec r "fast_start_second_run") as [->|N2].
    + apply rows_say. by_fields; [discriminate|]. intros _.
      split; [apply int_says; assumption|]. split; [apply num_says; assumption | apply maybe_says; assumption].
    + apply rows_say. by_fields; intros E'; contradiction.
Qed.

Lemma all_nums (g : string -> option Q) bands qs b :
  all_some (map g bands) = Some qs -> In b bands -> g b = Some (band_value (combine bands qs) b).
Proof.
  revert qs. induction bands as [|c bands IH]; cbn; intros qs H I; [contradiction|].
  destruct (g c) as [q|] eqn:E; [|discriminate]. destruct (all_some (map g bands)) as [qs'|]; [|discriminate].
  inversion H; subst. cbn. destruct (String.eqb_spec b c) as [->|N]; [exact E|].
  apply IH; [reflexivity|]. destruct I; [congruence | assumption].
Qed.
Lemma bids_read f t : is_table f -> read_bids f = Some t -> bids_say f t.
Proof.
  intros [N _] H. unfold read_bids in H. apply given_some in H. destruct H as [rows [E H]]. inversion H; subst.
  unfold bids_say. cbn [bt_bands bt_rows]. split; [apply NoDup_filter; exact N|]. split.
  - intros b. unfold bands_of. rewrite filter_In. rewrite negb_true_iff, mem_str_not_in. cbn. split.
    + intros [I O]. split; [exact I|]. repeat split; intros ->; apply O; tauto.
    + intros [I [A [B C]]]. split; [exact I|]. intros [X|[X|[X|[]]]]; congruence.
  - revert E. apply rows_say. by_fields. intros b I. apply num_says. exact (all_nums _ _ _ b E2 I).
Qed.

(** ** Columns added before the reading *)

Lemma holds_fill_other n t v f n' i x : n' <> n -> holds (fill n t v f) n' i x <-> holds f n' i x.
Proof.
  intros D. unfold fill, holds. destruct (mem_str n (names f)); [tauto|]. cbn [fm_cols]. split; intros [c [I [E H]]].
  - apply in_app_iff in I. destruct I as [I|[I|[]]]; [eauto|]. subst. cbn in D. contradiction.
  - exists c. split; [apply in_app_iff; tauto|]. tauto.
Qed.
Lemma holds_fill_new n t v f i x : ~ In n (names f) -> holds (fill n t v f) n i x -> x = v.
Proof.
  intros D [c [I [E H]]]. unfold fill in I. destruct (mem_str n (names f)) eqn:M; [apply mem_str_not_in in D; congruence|].
  cbn in I. apply in_app_iff in I. destruct I as [I|[I|[]]].
  - exfalso. apply D. rewrite <- E. unfold names. apply in_map. exact I.
  - subst c. cbn in H. apply nth_error_In in H. apply repeat_spec in H. exact H.
Qed.
Lemma holds_fill_there n t v f : In n (names f) -> fill n t v f = f.
Proof. apply fill_there. Qed.

(** The column that the row has after filling, given what it has been filled with. *)
Lemma number_filled n f i q : number_in_row (fill n DFloat (CNum 1) f) i n q -> number_or f i n 1 q.
Proof.
  intros H. split; intros I.
  - rewrite fill_there in H by exact I. exact H.
  - apply holds_fill_new in H; [|exact I]. congruence.
Qed.
Lemma integer_filled n f i z : integer_in_row (fill n DInt (CInt 1) f) i n z -> integer_or f i n 1 z.
Proof.
  intros H. split; intros I.
  - rewrite fill_there in H by exact I. exact H.
  - apply holds_fill_new in H; [|exact I]. congruence.
Qed.
Lemma text_filled n d f i s : text_in_row (fill n DObject (CStr d) f) i n s -> text_or f i n d s.
Proof.
  intros H. split; intros I.
  - rewrite fill_there in H by exact I. exact H.
  - apply holds_fill_new in H; [|exact I]. congruence.
Qed.

Lemma link_rows f f' : fill_link f = Some f' -> fm_rows f' = fm_rows f.
Proof.
  unfold fill_link. destruct (mem_str "link" (names f)); [congruence|]. destruct (col "interconnector" f); [|discriminate].
  intros H. inversion H. reflexivity.
Qed.
Lemma link_names f f' n : fill_link f = Some f' -> n <> "link" -> In n (names f') <-> In n (names f).
Proof.
  unfold fill_link. destruct (mem_str "link" (names f)); [intros H; inversion H; tauto|].
  destruct (col "interconnector" f); [|discriminate]. intros H D. inversion H. unfold names. cbn [fm_cols].
  rewrite map_app, in_app_iff. cbn. intuition congruence.
Qed.
Lemma link_other f f' n i x : fill_link f = Some f' -> n <> "link" -> holds f' n i x -> holds f n i x.
Proof.
  unfold fill_link. destruct (mem_str "link" (names f)); [intros H; inversion H; tauto|].
  destruct (col "interconnector" f); [|discriminate]. intros H D. inversion H. unfold holds. cbn [fm_cols].
  intros [k [I [E K]]]. apply in_app_iff in I. destruct I as [I|[I|[]]]; [eauto|]. subst. cbn in D. contradiction.
Qed.
Lemma link_filled f f' i l : fill_link f = Some f' -> text_in_row f' i "link" l -> link_says f i l.
Proof.
  unfold fill_link, link_says. destruct (mem_str "link" (names f)) eqn:M.
  - intros H K. inversion H; subst. apply PandasFacts.mem_str_in in M. tauto.
  - apply mem_str_not_in in M. destruct (col "interconnector" f) as [c|] eqn:C; [|discriminate].
    intros H [k [I [E K]]]. inversion H; subst f'. cbn in I. split; [tauto|]. intros _.
    apply in_app_iff in I. destruct I as [I|[I|[]]].
    + exfalso. apply M. rewrite <- E. unfold names. apply in_map. exact I.
    + subst k. cbn in K. apply col_some in C. destruct C as [I C]. exists c. tauto.
Qed.
Lemma number_or_link f f' i n d q : fill_link f = Some f' -> n <> "link" -> number_or f' i n d q -> number_or f i n d q.
Proof.
  intros H D [A B]. pose proof (link_names f f' n H D) as N. split; intros I.
  - apply (link_other _ _ _ _ _ H D), A, N, I.
  - apply B. rewrite N. exact I.
Qed.
Lemma integer_or_link f f' i n d q : fill_link f = Some f' -> n <> "link" -> integer_or f' i n d q -> integer_or f i n d q.
Proof.
  intros H D [A B]. pose proof (link_names f f' n H D) as N. split; intros I.
  - apply (link_other _ _ _ _ _ H D), A, N, I.
  - apply B. rewrite N. exact I.
Qed.
Lemma number_or_fill f i n d q n' t v : n <> n' -> number_or (fill n' t v f) i n d q -> number_or f i n d q.
Proof.
  intros D [A B]. split; intros I.
  - apply (holds_fill_other n' t v f n i _ D), A. apply fill_in. tauto.
  - apply B. rewrite fill_in. tauto.
Qed.
Lemma integer_or_fill f i n d q n' t v : n <> n' -> integer_or (fill n' t v f) i n d q -> integer_or f i n d q.
Proof.
  intros D [A B]. split; intros I.
  - apply (holds_fill_other n' t v f n i _ D), A. apply fill_in. tauto.
  - apply B. rewrite fill_in. tauto.
Qed.


Ltac unlinked L E := refine (link_other _ _ _ _ _ L _ E); discriminate.

Lemma inter_read f f' l :
  fill_link f = Some f' ->
  read_inter (fill "generic_constraint_factor" DInt (CInt 1) (fill "to_region_loss_factor" DFloat (CNum 1)
                (fill "from_region_loss_factor" DFloat (CNum 1) f'))) = Some l ->
  interconnectors_say f l.
Proof.
  intros L H. apply rows_of_nth in H. destruct H as [N K]. rewrite !fill_rows, (link_rows _ _ L) in N.
  split; [exact N|]. intros i a E. destruct (K i a E) as [M _]. clear K.
  repeat (apply given_some in M; let x := fresh "x" in let Hx := fresh "E" in destruct M as [x [Hx M]]).
  inversion M; subst; cbn.
  repeat match goal with
         | H : str_at _ _ _ = Some _ |- _ => apply str_says in H; unfold text_in_row in H;
             rewrite !holds_fill_other in H by discriminate
         end.
  apply num_says in E4, E5, E7, E8. apply int_says in E6. unfold number_in_row in E4, E5.
  rewrite !holds_fill_other in E4, E5 by discriminate.
  split; [unlinked L E0|].
  split; [apply (link_filled _ _ _ _ L E1)|].
  split; [unlinked L E2|].
  split; [unlinked L E3|].
  split; [unlinked L E4|].
  split; [unlinked L E5|].
  split; [|split].
  - apply (integer_or_link _ f'); [exact L | discriminate|].
    apply integer_filled in E6. apply integer_or_fill in E6; [|discriminate]. apply integer_or_fill in E6; [|discriminate]. exact E6.
  - apply (number_or_link _ f'); [exact L | discriminate|].
    unfold number_in_row in E7. rewrite !holds_fill_other in E7 by discriminate. apply number_filled. exact E7.
  - apply (number_or_link _ f'); [exact L | discriminate|].
    unfold number_in_row in E8. rewrite holds_fill_other in E8 by discriminate. apply number_filled in E8.
    apply number_or_fill in E8; [exact E8 | discriminate].
Qed.

Lemma lossfn_read f f' l : fill_link f = Some f' -> read_lossfn f' = Some l -> loss_functions_say f l.
Proof.
  intros L H. apply rows_of_nth in H. destruct H as [N K]. rewrite (link_rows _ _ L) in N.
  split; [exact N|]. intros i a E. destruct (K i a E) as [M _]. clear K.
  repeat (apply given_some in M; let x := fresh "x" in let Hx := fresh "E" in destruct M as [x [Hx M]]).
  inversion M; subst; cbn. apply str_says in E0, E1. apply num_says in E2. apply fun_says in E3.
  split; [unlinked L E0|]. split; [apply (link_filled _ _ _ _ L E1)|].
  split; [unlinked L E2|]. unlinked L E3.
Qed.
Lemma bps_read f f' l : fill_link f = Some f' -> read_bps f' = Some l -> break_points_say f l.
Proof.
  intros L H. apply rows_of_nth in H. destruct H as [N K]. rewrite (link_rows _ _ L) in N.
  split; [exact N|]. intros i a E. destruct (K i a E) as [M _]. clear K.
  repeat (apply given_some in M; let x := fresh "x" in let Hx := fresh "E" in destruct M as [x [Hx M]]).
  inversion M; subst; cbn. apply str_says in E0, E1. apply int_says in E2. apply num_says in E3.
  split; [unlinked L E0|]. split; [apply (link_filled _ _ _ _ L E1)|].
  split; [unlinked L E2|]. unlinked L E3.
Qed.

(** ** Costs and arguments that may be left out *)

Lemma vcost_read f t : read_vcost f = Some t -> cost_says (FTable f) (VTable t).
Proof. cbn [cost_says]. apply rows_say. by_fields. Qed.
Lemma cost_read v w : cost_error (Some v) = None -> read_cost v = Some w -> cost_says v w.
Proof.
  destruct v; cbn; intros C H.
  - inversion H; subst. reflexivity.
  - rewrite C in H. apply given_some in H. destruct H as [t [E H]]. inversion H; subst. exact (vcost_read _ _ E).
  - inversion H; subst. exact I.
Qed.
Lemma opt_read {A B} (rd : A -> option B) (P : A -> B -> Prop) a b :
  (forall x y, a = Some x -> rd x = Some y -> P x y) -> read_opt rd a = Some b -> if_given P a b.
Proof.
  intros K H. destruct a as [a|]; cbn in H.
  - apply given_some in H. destruct H as [y [E H]]. inversion H; subst. exact (K a y eq_refl E).
  - inversion H; subst. exact I.
Qed.
Lemma opt_cost_read v w : cost_error v = None -> read_opt read_cost v = Some w -> if_given cost_says v w.
Proof. intros C. apply opt_read. intros x y -> E. apply cost_read; assumption. Qed.
Lemma profiles_read r p p' : read_profiles r p = Some p' -> profiles_given r p p'.
Proof.
  unfold read_profiles, profiles_given. destruct (String.eqb_spec r "no_fast_start_units") as [->|N]; intros H.
  - inversion H; subst. split; [intros E; contradiction | reflexivity].
  - split; [|contradiction]. intros _. revert H. apply opt_read. intros x y _. apply fs_ramp_read.
Qed.

(** ** The calls *)

Lemma typed_says c c1 o :
  args_tables c -> before_check c = Some c1 -> cost_error (cost_of_call c) = None -> typed c1 = Some o -> says c o.
Proof.
  intros [_ A] B C T.
  destruct c as [f|f|f v|f v|f s p r v|f v| |f v|f v|f v|f p r v|f v|f v|f|lf bps|f v|f|f|f|k v|v]; cbn [before_check] in B;
    try (apply given_some in B; destruct B as [f1 [B1 B]]); try (apply given_some in B; destruct B as [f2 [B2 B]]);
    inversion B; subst c1; cbn [typed cost_of_call] in T, C;
    repeat (apply given_some in T; let x := fresh "x" in let Hx := fresh "E" in destruct T as [x [Hx T]]);
    inversion T; subst o; cbn [says];
    repeat match goal with
           | |- _ /\ _ => split
           | |- if_given cost_says _ _ => apply opt_cost_read; assumption
           end;
    first [ exact I | reflexivity | apply bids_read; assumption | apply limits_read; assumption | apply uigf_read; assumption
          | apply fs_read; assumption | apply demand_read; assumption | apply req_read; assumption | apply avail_read; assumption
          | apply reg_read; assumption | apply traps_read; assumption | apply generic_read; assumption
          | apply gunit_read; assumption | apply gregion_read; assumption | apply ginter_read; assumption
          | apply ramp_read; assumption | apply profiles_read; assumption
          | eapply inter_read; eassumption | eapply lossfn_read; eassumption | eapply bps_read; eassumption
          | apply cost_read; assumption
          | eapply opt_read; [|eassumption]; intros; apply scada_read; assumption | idtac].
Qed.

(** A call leaves the market alone and ends in an error, or does what the tables say. *)
Lemma call_does_what_tables_say req c m m' r back :
  args_tables c -> cost_fits (cost_of_call c) -> call req c m = Some (m', r, back) ->
  (exists o, says c o /\ step o m = (m', r)) \/ (m' = m /\ exists e, r = Some e).
Proof.
  intros A F H. unfold call in H.
  destruct (first_check c m); [inversion H; subst; right; eauto|].
  destruct (before_check c) as [c1|] eqn:E2; [|inversion H; subst; right; eauto].
  destruct (checks req m c1); [inversion H; subst; right; eauto|].
  unfold given in H. destruct (typed c1) as [o|] eqn:E4; [|discriminate].
  assert (C : cost_of_call c1 = cost_of_call c).
  { destruct c; cbn [before_check] in E2; try (inversion E2; reflexivity);
      repeat (apply given_some in E2; let x := fresh "x" in destruct E2 as [x [_ E2]]); inversion E2; reflexivity. }
  assert (V : cost_error (cost_of_call c) = None).
  { destruct A as [T _]. destruct (cost_of_call c) as [[q|f|]|]; try reflexivity.
    exact (proj2 (validate_accepts _ _ f vcost_proper T) F). }
  rewrite C, V in H. left. exists o. split; [exact (typed_says c c1 o A E2 V E4)|].
  destruct (step o m) as [m1 [e|]]; inversion H; subst; reflexivity.
Qed.

(** An accepted call did what the tables say. *)
Lemma accepted_does_what_tables_say req c m m' c' :
  args_tables c -> cost_fits (cost_of_call c) -> call req c m = Some (m', None, Some c') ->
  exists o, says c o /\ step o m = (m', None).
Proof.
  intros A F H. destruct (call_does_what_tables_say _ _ _ _ _ _ A F H) as [K|[_ [e E]]]; [exact K | discriminate E].
Qed.

(** The constructor. *)
Lemma units_read f l :
  read_unit_info (fill_dt (fill "loss_factor" DFloat (CNum 1) f)) = Some l -> units_say f l.
Proof.
  intros H. apply rows_of_nth in H. destruct H as [N K]. unfold fill_dt, fill_text in *. rewrite !fill_rows in N.
  split; [exact N|]. intros i a E. destruct (K i a E) as [M _]. clear K.
  repeat (apply given_some in M; let x := fresh "x" in let Hx := fresh "E" in destruct M as [x [Hx M]]).
  inversion M; subst; cbn. apply str_says in E0, E1, E2. apply num_says in E3.
  unfold text_in_row, number_in_row in E0, E1, E3. rewrite !holds_fill_other in E0, E1 by discriminate.
  rewrite holds_fill_other in E3 by discriminate.
  split; [exact E0|]. split; [exact E1|]. split; [apply number_filled, E3|].
  apply text_filled in E2. destruct E2 as [P Q]. split; intros I.
  - assert (I' : In "dispatch_type" (names (fill "loss_factor" DFloat (CNum 1) f))) by (apply fill_in; tauto).
    apply P in I'. unfold text_in_row in I'. rewrite holds_fill_other in I' by discriminate. exact I'.
  - apply Q. rewrite fill_in. intros [X|X]; [discriminate X | contradiction].
Qed.
Lemma construct_says rs interval f req m f' :
  construct rs interval f = Some (Ok (req, m, f')) ->
  (req = true <-> In "dispatch_type" (names f))
  /\ exists l, units_say f l /\ new_market (Config rs l interval) = Ok m.
Proof.
  unfold construct. destruct (validate _ _); [discriminate|]. unfold given.
  destruct (read_unit_info _) as [l|] eqn:E; [|discriminate]. destruct (new_market _) as [m1|] eqn:N; [|discriminate].
  intros H. inversion H; subst. split; [apply PandasFacts.mem_str_in|]. exists l. split; [apply units_read, E | exact N].
Qed.

(** A history of calls on tables is the history of what they say. *)
Lemma history_says req cs m m' :
  Forall (fun c => args_tables c /\ cost_fits (cost_of_call c)) cs -> calls_accepted req cs m m' ->
  exists ops, Forall2 says cs ops /\ SpecOrder.accepted ops m /\ run ops m = m'.
Proof.
  intros A H. induction H as [m|c cs m m1 c' m' H _ IH].
  - exists []. repeat split. constructor.
  - inversion A as [|? ? [A1 A2] A3]; subst. destruct (accepted_does_what_tables_say _ _ _ _ _ A1 A2 H) as [o [S T]].
    destruct (IH A3) as [ops [F [O R]]]. exists (o :: ops). split; [constructor; assumption|]. split.
    + split; [rewrite T; reflexivity|]. rewrite T. exact O.
    + unfold run. cbn. rewrite T. exact R.
Qed.
