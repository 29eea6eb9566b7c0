(** Lemmas about filling the database. *)

From Coq Require Import ZArith Ascii String List Bool Lia Sorting.Permutation Sorting.Sorted.
Import ListNotations.
From Verif Require Import PandasModel PandasFacts CacheModel DbModel SpecDb DbFacts.
Open Scope string_scope.
Open Scope list_scope.
Open Scope Z_scope.

(** ** Months *)

Lemma from_to_empty : forall a b, b < a -> from_to a b [].
Proof. intros a b H. split; [constructor|]. replace (Z.to_nat (b - a + 1)) with 0%nat by lia. reflexivity. Qed.
Lemma from_to_app : forall a b c l r, a <= b + 1 -> b <= c -> from_to a b l -> from_to (b + 1) c r -> from_to a c (l ++ r).
Proof.
  intros a b c l r H K [M1 E1] [M2 E2]. split; [now apply Forall_app|]. rewrite map_app, E1, E2.
  replace (Z.to_nat (c - a + 1)) with (Z.to_nat (b - a + 1) + Z.to_nat (c - (b + 1) + 1))%nat by lia. rewrite seq_app, map_app. f_equal.
  cbn [Nat.add].
  generalize (Z.to_nat (c - (b + 1) + 1)) as n. intros n.
  assert (G : forall k s, map (fun i => b + 1 + Z.of_nat i) (seq s k) = map (fun i => a + Z.of_nat i) (seq (Z.to_nat (b - a + 1) + s) k)).
  { intros k. induction k as [|k IH]; intros s; cbn [seq map]; [reflexivity|]. f_equal; [lia|]. rewrite IH. f_equal. f_equal. lia. }
  rewrite (G n 0%nat). now rewrite Nat.add_0_r.
Qed.
Lemma from_to_cons : forall a b ym l, is_month ym -> month_index ym = a -> from_to (a + 1) b l -> a <= b -> from_to a b (ym :: l).
Proof.
  intros a b ym l M E F H. change (ym :: l) with ([ym] ++ l). apply (from_to_app a a b); try lia; [|exact F]. split; [now constructor|].
  replace (Z.to_nat (a - a + 1)) with 1%nat by lia. cbn. rewrite E. f_equal. lia.
Qed.

Lemma month_loop_open : forall n y m ey em, 1 <= m <= 13 -> 13 - m <= Z.of_nat n -> (y <> ey \/ em = 12) ->
  from_to (12 * y + (m - 1)) (12 * y + 11) (fst (month_loop n y m ey em)) /\ snd (month_loop n y m ey em) = false.
Proof.
  intros n. induction n as [|n IH]; intros y m ey em M N H; cbn [month_loop].
  - split; [|reflexivity]. apply from_to_empty. lia.
  - destruct (Z.ltb_spec 12 m) as [L|L]; [split; [apply from_to_empty; lia|reflexivity]|].
    assert (E : ((y =? ey) && (m =? em + 1)) = false) by (destruct (Z.eqb_spec y ey), (Z.eqb_spec m (em + 1)); auto; exfalso; lia). rewrite E.
    destruct (IH y (m + 1) ey em ltac:(lia) ltac:(lia) H) as [F G]. destruct (month_loop n y (m + 1) ey em) as [r f]. cbn [fst snd] in *. split; [|exact G].
    apply from_to_cons; [unfold is_month; cbn; lia|unfold month_index; cbn; lia| |lia].
    now replace (12 * y + (m - 1) + 1) with (12 * y + (m + 1 - 1)) by lia.
Qed.
Lemma month_loop_end : forall n y m em, 1 <= m <= em + 1 -> em < 12 -> em + 1 - m < Z.of_nat n ->
  from_to (12 * y + (m - 1)) (12 * y + (em - 1)) (fst (month_loop n y m y em)) /\ snd (month_loop n y m y em) = true.
Proof.
  intros n. induction n as [|n IH]; intros y m em M L N; [lia|]. cbn [month_loop]. destruct (Z.ltb_spec 12 m); [lia|]. rewrite Z.eqb_refl. cbn [andb].
  destruct (Z.eqb_spec m (em + 1)) as [->|D].
  - split; [apply from_to_empty; lia|reflexivity].
  - destruct (IH y (m + 1) em ltac:(lia) L ltac:(lia)) as [F G]. destruct (month_loop n y (m + 1) y em) as [r f]. cbn [fst snd] in *. split; [|exact G].
    apply from_to_cons; [unfold is_month; cbn; lia|unfold month_index; cbn; lia| |lia].
    now replace (12 * y + (m - 1) + 1) with (12 * y + (m + 1 - 1)) by lia.
Qed.
Lemma year_loop_ok : forall n y m ey em, 1 <= m <= 12 -> 1 <= em <= 12 -> ey - y < Z.of_nat n \/ ey < y -> 12 * y + (m - 1) <= 12 * ey + (em - 1) + 1 ->
  from_to (12 * y + (m - 1)) (12 * ey + (em - 1)) (year_loop n y m ey em).
Proof.
  intros n. induction n as [|n IH]; intros y m ey em M E N H; cbn [year_loop].
  - apply from_to_empty. lia.
  - destruct (Z.ltb_spec ey y) as [L|L]; [apply from_to_empty; lia|]. destruct (Z.eq_dec y ey) as [->|D]; [destruct (Z.eq_dec em 12) as [->|D12]|].
    + destruct (month_loop_open 13 ey m ey 12 ltac:(lia) ltac:(lia) ltac:(lia)) as [F G]. destruct (month_loop 13 ey m ey 12) as [r f]. cbn [fst snd] in *. subst f.
      apply (from_to_app _ (12 * ey + 11)); try lia; [exact F|]. replace (12 * ey + 11 + 1) with (12 * (ey + 1) + (1 - 1)) by lia. apply IH; lia.
    + destruct (month_loop_end 13 ey m em ltac:(lia) ltac:(lia) ltac:(lia)) as [F G]. destruct (month_loop 13 ey m ey em) as [r f]. cbn [fst snd] in *. subst f. exact F.
    + destruct (month_loop_open 13 y m ey em ltac:(lia) ltac:(lia) ltac:(lia)) as [F G]. destruct (month_loop 13 y m ey em) as [r f]. cbn [fst snd] in *. subst f.
      apply (from_to_app _ (12 * y + 11)); try lia; [exact F|]. replace (12 * y + 11 + 1) with (12 * (y + 1) + (1 - 1)) by lia. apply IH; lia.
Qed.
Lemma populate_ok : forall start last, is_month start -> is_month last -> month_index start <= month_index last + 2 ->
  from_to (month_index start - 1) (month_index last) (populate_months (fst start) (snd start) (fst last) (snd last)).
Proof.
  intros [y m] [ey em] M E H. unfold is_month, month_index in *. cbn [fst snd] in *. unfold populate_months. destruct (Z.eqb_spec m 1) as [->|N].
  - replace (12 * y + (1 - 1) - 1) with (12 * (y - 1) + (12 - 1)) by lia. apply year_loop_ok; lia.
  - replace (12 * y + (m - 1) - 1) with (12 * y + (m - 1 - 1)) by lia. apply year_loop_ok; lia.
Qed.

(** The calls of one table. *)
Definition calls_of (t : string) (l : list (string * (Z * Z))) : list (Z * Z) := map snd (filter (fun c => (fst c =? t)%string) l).
Lemma calls_monthly : forall t (ms : list (Z * Z)), In t monthly -> calls_of t (flat_map (fun ym => map (fun t => (t, ym)) monthly) ms) = ms.
Proof.
  intros t ms H. unfold calls_of. induction ms as [|ym ms IH]; cbn [flat_map]; [reflexivity|]. rewrite filter_app, map_app, IH.
  cbn in H. destruct H as [<-|[<-|[<-|[<-|[<-|[]]]]]]; reflexivity.
Qed.
Lemma calls_not_monthly : forall t (ms : list (Z * Z)), ~ In t monthly -> calls_of t (flat_map (fun ym => map (fun t => (t, ym)) monthly) ms) = [].
Proof.
  intros t ms H. unfold calls_of. induction ms as [|ym ms IH]; cbn [flat_map]; [reflexivity|]. rewrite filter_app, map_app, IH, app_nil_r.
  revert H. generalize monthly as l. intros l H. induction l as [|x l IHl]; cbn; [reflexivity|]. destruct (String.eqb_spec x t) as [->|N].
  - exfalso. apply H. now left.
  - apply IHl. intros I. apply H. now right.
Qed.
Lemma calls_app : forall t a b, calls_of t (a ++ b) = calls_of t a ++ calls_of t b.
Proof. intros t a b. unfold calls_of. now rewrite filter_app, map_app. Qed.

(** ** Monthly tables *)

Section Fill.
Context {A : Type}.

Lemma repeated_false : forall l, repeated_key l = false <-> NoDup l.
Proof.
  intros l. induction l as [|k l IH]; cbn; [split; [constructor|auto]|]. rewrite orb_false_iff, IH, NoDup_cons_iff. split; intros [H K]; (split; [|exact K]).
  - intros I. assert (E : existsb (ident_eqb k) l = true) by (apply existsb_exists; exists k; split; [exact I|now apply ident_eqb_eq]). congruence.
  - destruct (existsb (ident_eqb k) l) eqn:E; [|reflexivity]. apply existsb_exists in E. destruct E as [x [I E]]. apply ident_eqb_eq in E. now subst.
Qed.
Definition same_key (a b : ident * Z * A) : bool := ident_eqb (fst (fst a)) (fst (fst b)).
Definition own_rows (f : csv A) : list (ident * Z * A) :=
  if mem_str "INTERVENTION" (f_columns f) then filter (fun r => (snd (fst r) =? 0)%Z) (f_rows f) else f_rows f.
Lemma mem_in : forall x l, mem_str x l = true <-> In x l.
Proof.
  intros x l. unfold mem_str. rewrite existsb_exists. split; [intros [y [I E]]; apply String.eqb_eq in E; now subst|]. intros I. exists x. split; [exact I|apply String.eqb_refl].
Qed.
Lemma own_rows_in : forall f k i (a : A), In (k, i, a) (own_rows f) <-> In (k, i, a) (f_rows f) /\ (In "INTERVENTION" (f_columns f) -> i = 0%Z).
Proof.
  intros f k i a. unfold own_rows. destruct (mem_str "INTERVENTION" (f_columns f)) eqn:E.
  - apply mem_in in E. rewrite filter_In. cbn [fst snd]. rewrite Z.eqb_eq. tauto.
  - assert (N : ~ In "INTERVENTION" (f_columns f)) by (intros I; apply mem_in in I; congruence). tauto.
Qed.
Lemma month_rows_in : forall f k (a : A), In (k, a) (month_rows f) -> own_run f k a.
Proof.
  intros f k a H. unfold month_rows in H. apply in_map_iff in H. destruct H as [[[k' i] a'] [E H]]. cbn in E. injection E as -> ->. apply drop_duplicates_incl in H.
  exists i. now apply own_rows_in.
Qed.
Lemma month_rows_has : forall f k (a : A), own_run f k a -> exists a', In (k, a') (month_rows f).
Proof.
  intros f k a [i H]. apply own_rows_in in H. destruct (drop_duplicates_repr same_key (own_rows f) (k, i, a)) as [[[k' i'] a'] [I E]].
  - unfold same_key. intros x y X z Y. apply ident_eqb_eq in X, Y. apply ident_eqb_eq. congruence.
  - intros x. now apply ident_eqb_eq.
  - unfold same_key. intros x y X. apply ident_eqb_eq in X. apply ident_eqb_eq. auto.
  - exact H.
  - unfold same_key in E. apply ident_eqb_eq in E. cbn in E. subst k'. exists a'. unfold month_rows. apply in_map_iff. exists (k, i', a'). auto.
Qed.
Lemma month_rows_nodup : forall (f : csv A), NoDup (map fst (month_rows f)).
Proof.
  intros f. unfold month_rows. rewrite map_map. cbn [fst]. apply FOP_NoDup_map. eapply FOP_impl; [|apply drop_duplicates_distinct].
  intros a b E F. cbn in E. assert (ident_eqb (fst (fst a)) (fst (fst b)) = true) by now apply ident_eqb_eq. congruence.
Qed.

Lemma nodup_left : forall (l r : list ident), NoDup (l ++ r) -> NoDup l.
Proof.
  intros l r H. induction l as [|k l IH]; [constructor|]. cbn in H. apply NoDup_cons_iff in H. destruct H as [H1 H2]. constructor; [|auto].
  intros I. apply H1. apply in_app_iff. now left.
Qed.
Lemma add_months_ok : forall (files : Z * Z -> option (csv A)) months table t, add_months files months table = (t, None) ->
  (forall ym, In ym months -> exists f, files ym = Some f)
  /\ t = table ++ flat_map (fun ym => match files ym with Some f => month_rows f | None => [] end) months
  /\ (NoDup (map fst table) -> NoDup (map fst t)).
Proof.
  intros files months. induction months as [|m r IH]; intros table t H; cbn [add_months flat_map] in *.
  - injection H as <-. split; [intros ? []|]. split; [now rewrite app_nil_r|auto].
  - unfold add_data in H. destruct (files m) as [f|] eqn:F; [|discriminate]. destruct (repeated_key _) eqn:R; [discriminate|].
    destruct (IH _ _ H) as [G1 [G2 G3]]. apply repeated_false in R. split; [|split].
    + intros ym [<-|I]; [now exists f|auto].
    + rewrite G2. now rewrite <- app_assoc.
    + intros _. now apply G3.
Qed.
Lemma add_months_done : forall (files : Z * Z -> option (csv A)) months table, (forall ym, In ym months -> exists f, files ym = Some f) ->
  NoDup (map fst (table ++ flat_map (fun ym => match files ym with Some f => month_rows f | None => [] end) months)) -> snd (add_months files months table) = None.
Proof.
  intros files months. induction months as [|m r IH]; intros table H N; cbn [add_months flat_map] in *; [reflexivity|].
  unfold add_data. destruct (H m (or_introl eq_refl)) as [f F]. rewrite F in *. rewrite app_assoc in N.
  assert (R : repeated_key (map fst (table ++ month_rows f)) = false) by (apply repeated_false; rewrite map_app in N; apply nodup_left in N; exact N).
  rewrite R. apply IH; [intros; apply H; now right|exact N].
Qed.

(** ** Historical tables *)

Definition usable (columns : list string) (files : list (option (csv A))) : list (csv A) :=
  flat_map (fun o => match o with Some f => if strict_subset columns (f_columns f) then [f] else [] | None => [] end) files.
Lemma strict_wider : forall columns (f : csv A), strict_subset columns (f_columns f) = true <-> wider columns f.
Proof.
  intros columns f. unfold strict_subset, wider, complete. rewrite andb_true_iff, forallb_forall, existsb_exists. split.
  - intros [H [c [I N]]]. split; [intros x X; apply mem_in; auto|]. exists c. split; [exact I|]. intros C. apply mem_in in C. rewrite C in N. discriminate.
  - intros [H [c [I N]]]. split; [intros x X; apply mem_in; auto|]. exists c. split; [exact I|]. destruct (mem_str c columns) eqn:E; [|reflexivity].
    apply mem_in in E. contradiction.
Qed.
Definition use_step (s : list ident * list (ident * A)) (f : csv A) : list ident * list (ident * A) :=
  match fst s with
  | [] => (map fst (hist_rows f), hist_rows f)
  | _ => let new := filter (fun r => negb (existsb (ident_eqb (fst r)) (fst s))) (hist_rows f) in (fst s ++ map fst new, snd s ++ new)
  end.
Lemma hist_fold : forall columns files s, fold_left (hist_step columns) files s = fold_left use_step (usable columns files) s.
Proof.
  intros columns files. induction files as [|o files IH]; intros s; cbn [fold_left usable flat_map]; [reflexivity|]. destruct o as [f|]; cbn [hist_step].
  - destruct (strict_subset columns (f_columns f)); cbn [negb List.app fold_left]; apply IH.
  - apply IH.
Qed.
(** A row of the first file that has its key. *)
Definition newest (us : list (csv A)) (r : ident * A) : Prop :=
  exists us1 f us2, us = us1 ++ f :: us2 /\ In r (hist_rows f) /\ forall f', In f' us1 -> ~ In (fst r) (map fst (hist_rows f')).
Lemma newest_snoc : forall us f r, newest (us ++ [f]) r <-> newest us r \/ (In r (hist_rows f) /\ forall f', In f' us -> ~ In (fst r) (map fst (hist_rows f'))).
Proof.
  intros us f r. split.
  - intros [us1 [g [us2 [E [I N]]]]]. destruct us2 as [|x us2 _] using rev_ind.
    + apply app_inj_tail in E. destruct E as [-> ->]. auto.
    + change (us1 ++ g :: us2 ++ [x]) with (us1 ++ (g :: us2) ++ [x]) in E. rewrite app_assoc in E. apply app_inj_tail in E. destruct E as [-> _].
      left. exists us1, g, us2. auto.
  - intros [[us1 [g [us2 [-> [I N]]]]]|[I N]].
    + exists us1, g, (us2 ++ [f]). split; [now rewrite <- app_assoc|auto].
    + exists us, f, []. auto.
Qed.
Lemma use_fold : forall us t0, us <> [] -> let s := fold_left use_step us ([], t0) in
  (forall k, In k (fst s) <-> exists f, In f us /\ In k (map fst (hist_rows f))) /\ (forall r, In r (snd s) <-> newest us r).
Proof.
  intros us t0. induction us as [|f us IH] using rev_ind; intros H; [congruence|]. cbn zeta in *. rewrite fold_left_app. cbn [fold_left].
  destruct us as [|u us'].
  - cbn [fold_left List.app]. unfold use_step. cbn [fst snd]. split.
    + intros k. split; [intros K; exists f; split; [now left|exact K]|]. intros [g [[<-|[]] K]]. exact K.
    + intros r. rewrite (newest_snoc [] f r). split; [intros R; right; split; [exact R|intros ? []]|]. intros [[us1 [g [us2 [E _]]]]|[R _]]; [destruct us1; discriminate|exact R].
  - destruct (IH ltac:(discriminate)) as [K R]. clear IH H. set (us := u :: us') in *. destruct (fold_left use_step us ([], t0)) as [cum table]. cbn [fst snd] in *.
    unfold use_step. cbn [fst snd]. destruct cum as [|c cum].
    + assert (N : forall g, In g us -> forall k, ~ In k (map fst (hist_rows g))) by (intros g G k I; apply (K k); exists g; auto). cbn [fst snd]. split.
      * intros k. split; [intros I; exists f; split; [apply in_app_iff; right; now left|exact I]|]. intros [g [G I]]. apply in_app_iff in G.
        destruct G as [G|[<-|[]]]; [exfalso; exact (N g G k I)|exact I].
      * intros r. rewrite newest_snoc. split; [intros I; right; split; [exact I|intros g G; apply N; exact G]|]. intros [[us1 [g [us2 [E [I _]]]]]|[I _]]; [|exact I].
        exfalso. apply (N g) with (k := fst r); [rewrite E; apply in_elt|now apply in_map].
    + set (cc := c :: cum) in *. cbn [fst snd].
      assert (F : forall r, In r (filter (fun r => negb (existsb (ident_eqb (fst r)) cc)) (hist_rows f)) <-> In r (hist_rows f) /\ ~ In (fst r) cc).
      { intros r. rewrite filter_In, negb_true_iff. split; intros [I N]; (split; [exact I|]).
        - intros C. assert (E : existsb (ident_eqb (fst r)) cc = true) by (apply existsb_exists; exists (fst r); split; [exact C|now apply ident_eqb_eq]). congruence.
        - destruct (existsb (ident_eqb (fst r)) cc) eqn:E; [|reflexivity]. apply existsb_exists in E. destruct E as [x [X E]]. apply ident_eqb_eq in E. exfalso. apply N. now rewrite E. }
      split.
      * intros k. rewrite in_app_iff. split.
        -- intros [I|I]; [apply K in I; destruct I as [g [G I]]; exists g; split; [apply in_app_iff; now left|exact I]|].
           apply in_map_iff in I. destruct I as [r [<- I]]. apply F in I. exists f. split; [apply in_app_iff; right; now left|]. apply in_map. tauto.
        -- intros [g [G I]]. apply in_app_iff in G. destruct G as [G|[<-|[]]]; [left; apply K; now exists g|].
           destruct (existsb (ident_eqb k) cc) eqn:E; [left; apply existsb_exists in E; destruct E as [x [X E]]; apply ident_eqb_eq in E; now subst|].
           right. apply in_map_iff in I. destruct I as [r [<- I]]. apply in_map_iff. exists r. split; [reflexivity|]. apply filter_In. split; [exact I|]. now rewrite E.
      * intros r. rewrite in_app_iff, R, F, newest_snoc. split; (intros [I|[I N]]; [now left|right; split; [exact I|]]).
        -- intros g G C. apply N, K. now exists g.
        -- intros C. apply K in C. destruct C as [g [G C]]. exact (N g G C).
Qed.

Lemma usable_in : forall columns files (f : csv A), In f (usable columns files) <-> In (Some f) files /\ wider columns f.
Proof.
  intros columns files f. unfold usable. rewrite in_flat_map. split.
  - intros [o [I H]]. destruct o as [g|]; [|destruct H]. destruct (strict_subset columns (f_columns g)) eqn:E; [|destruct H]. destruct H as [<-|[]]. now apply strict_wider in E.
  - intros [I W]. exists (Some f). split; [exact I|]. apply strict_wider in W. rewrite W. now left.
Qed.

(** The months of the history. *)
Definition later (a b : Z * Z) : Prop := month_index b < month_index a.
Lemma history_in : forall y m ym, 1 <= m <= 12 -> In ym (history y m) <-> is_month ym /\ 2010 <= fst ym /\ month_index ym <= month_index (y, m).
Proof.
  intros y m [y' m'] M. unfold history, is_month, month_index. rewrite in_flat_map. cbn [fst snd]. split.
  - intros [i [I H]]. apply in_seq in I. apply in_flat_map in H. destruct H as [k [K H]].
    assert (Mk : 1 <= k <= 12) by (cbn in K; lia). destruct ((y - Z.of_nat i =? y) && (m <? k)) eqn:E; [destruct H|]. destruct H as [H|[]]. injection H as <- <-.
    destruct (Z.eqb_spec (y - Z.of_nat i) y), (Z.ltb_spec m k); try discriminate; lia.
  - intros [Mm [Y H]]. exists (Z.to_nat (y - y')). split; [apply in_seq; lia|]. apply in_flat_map. exists m'. split; [cbn; lia|].
    replace (y - Z.of_nat (Z.to_nat (y - y'))) with y' by lia. destruct ((y' =? y) && (m <? m')) eqn:E; [|now left].
    destruct (Z.eqb_spec y' y), (Z.ltb_spec m m'); try discriminate; lia.
Qed.
Lemma sorted_app : forall (l r : list (Z * Z)), StronglySorted later l -> StronglySorted later r -> (forall a b, In a l -> In b r -> later a b) -> StronglySorted later (l ++ r).
Proof.
  intros l r L R H. induction L as [|a l L IH F]; cbn; [exact R|]. constructor.
  - apply IH. intros x y X Y. apply H; [now right|exact Y].
  - apply Forall_app. split; [exact F|]. apply Forall_forall. intros b B. apply H; [now left|exact B].
Qed.
Definition year_part (year month y : Z) : list (Z * Z) :=
  flat_map (fun m => if ((y =? year) && (month <? m))%Z then [] else [(y, m)]) [12; 11; 10; 9; 8; 7; 6; 5; 4; 3; 2; 1]%Z.
Lemma year_part_sorted : forall year month y, StronglySorted later (year_part year month y).
Proof.
  intros year month y. unfold year_part.
  assert (G : forall ms, StronglySorted Z.gt ms -> StronglySorted later (flat_map (fun m => if ((y =? year) && (month <? m))%Z then [] else [(y, m)]) ms)).
  { intros ms S. induction S as [|m ms S IH F]; cbn [flat_map]; [constructor|]. destruct ((y =? year) && (month <? m)); cbn [List.app]; [exact IH|].
    constructor; [exact IH|]. apply Forall_forall. intros [y' m'] I. apply in_flat_map in I. destruct I as [k [K I]]. rewrite Forall_forall in F. specialize (F k K).
    destruct ((y =? year) && (month <? k)); [destruct I|]. destruct I as [I|[]]. injection I as <- <-. unfold later, month_index. cbn. lia. }
  apply G. repeat (constructor; [|repeat (constructor; [lia|]); constructor]). constructor.
Qed.
Lemma year_part_in : forall year month y ym, In ym (year_part year month y) -> fst ym = y /\ 1 <= snd ym <= 12.
Proof.
  intros year month y ym H. unfold year_part in H. apply in_flat_map in H. destruct H as [k [K H]]. destruct (_ && _); [destruct H|]. destruct H as [<-|[]]. cbn in *. lia.
Qed.
Lemma history_sorted : forall y m, StronglySorted later (history y m).
Proof.
  intros y m. unfold history. change (StronglySorted later (flat_map (fun i => year_part y m (y - Z.of_nat i)) (seq 0 (Z.to_nat (y - 2009))))).
  generalize 0%nat as s. generalize (Z.to_nat (y - 2009)) as n. intros n. induction n as [|n IH]; intros s; cbn [seq flat_map]; [constructor|].
  apply sorted_app; [apply year_part_sorted|apply IH|]. intros a b X Y. apply year_part_in in X. apply in_flat_map in Y. destruct Y as [i [I Y]]. apply in_seq in I.
  apply year_part_in in Y. unfold later, month_index. lia.
Qed.

(** What a historical table holds. *)
Lemma usable_split : forall columns (files : Z * Z -> option (csv A)) hs us1 f us2, usable columns (map files hs) = us1 ++ f :: us2 ->
  exists h1 ym h2, hs = h1 ++ ym :: h2 /\ files ym = Some f /\ wider columns f /\ usable columns (map files h1) = us1.
Proof.
  intros columns files hs. induction hs as [|h hs IH]; intros us1 f us2 E; cbn [map usable flat_map] in E; [destruct us1; discriminate|].
  fold (usable columns (map files hs)) in E. destruct (files h) as [g|] eqn:F; [destruct (strict_subset columns (f_columns g)) eqn:W|].
  - cbn [List.app] in E. destruct us1 as [|u us1]; cbn [List.app] in E.
    + injection E as -> E. exists [], h, hs. apply strict_wider in W. auto.
    + injection E as -> E. destruct (IH _ _ _ E) as [h1 [ym [h2 [-> [A1 [A2 A3]]]]]]. exists (h :: h1), ym, h2. split; [reflexivity|]. split; [exact A1|]. split; [exact A2|].
      cbn [map usable flat_map]. rewrite F, W. cbn [List.app]. f_equal. exact A3.
  - destruct (IH _ _ _ E) as [h1 [ym [h2 [-> [A1 [A2 A3]]]]]]. exists (h :: h1), ym, h2. split; [reflexivity|]. split; [exact A1|]. split; [exact A2|].
    cbn [map usable flat_map]. rewrite F, W. exact A3.
  - destruct (IH _ _ _ E) as [h1 [ym [h2 [-> [A1 [A2 A3]]]]]]. exists (h :: h1), ym, h2. split; [reflexivity|]. split; [exact A1|]. split; [exact A2|].
    cbn [map usable flat_map]. rewrite F. exact A3.
Qed.
Lemma hist_row : forall (f : csv A) k a, In (k, a) (hist_rows f) <-> file_row f k a.
Proof.
  intros f k a. unfold hist_rows, file_row. rewrite in_map_iff. split.
  - intros [[[k' i] a'] [E I]]. cbn in E. injection E as -> ->. now exists i.
  - intros [i I]. exists (k, i, a). auto.
Qed.
Lemma hist_key : forall (f : csv A) k, In k (map fst (hist_rows f)) <-> exists a, file_row f k a.
Proof.
  intros f k. rewrite in_map_iff. split.
  - intros [[k' a] [E I]]. cbn in E. subst k'. exists a. now apply hist_row.
  - intros [a I]. exists (k, a). split; [reflexivity|now apply hist_row].
Qed.
Lemma sorted_split : forall l1 (x : Z * Z) l2, StronglySorted later (l1 ++ x :: l2) -> (forall y, In y l1 -> later y x) /\ (forall y, In y l2 -> later x y).
Proof.
  intros l1 x l2. induction l1 as [|a l1 IH]; intros S; cbn in S; apply StronglySorted_inv in S; destruct S as [S F]; rewrite Forall_forall in F.
  - split; [intros ? []|exact F].
  - destruct (IH S) as [P Q]. split; [|exact Q]. intros y [<-|Y]; [apply F; apply in_elt|auto].
Qed.
Lemma history_rows : forall columns (files : Z * Z -> option (csv A)) last table k a, is_month last ->
  (exists ym f, is_month ym /\ 2010 <= fst ym /\ month_index ym <= month_index last /\ files ym = Some f /\ wider columns f) ->
  In (k, a) (set_history columns files (fst last) (snd last) table) <->
  exists ym f, is_month ym /\ 2010 <= fst ym /\ month_index ym <= month_index last /\ files ym = Some f /\ wider columns f /\ file_row f k a
    /\ forall ym' f' a', is_month ym' -> month_index ym < month_index ym' <= month_index last -> files ym' = Some f' -> wider columns f' -> ~ file_row f' k a'.
Proof.
  intros columns files [y m] table k a M [ym0 [f0 [M0 [Y0 [L0 [F0 W0]]]]]]. unfold is_month in M. cbn [fst snd] in *. unfold set_history. rewrite hist_fold.
  set (us := usable columns (map files (history y m))).
  assert (U : us <> []).
  { intros E. assert (I : In f0 us); [|rewrite E in I; destruct I]. apply usable_in. split; [|exact W0]. rewrite <- F0. apply in_map. apply history_in; auto. }
  destruct (use_fold us table U) as [_ R]. rewrite R. unfold newest. split.
  - intros [us1 [f [us2 [E [I N]]]]]. destruct (usable_split _ _ _ _ _ _ E) as [h1 [ym [h2 [H [F [W E1]]]]]]. exists ym, f.
    assert (Hy : In ym (history y m)) by (rewrite H; apply in_elt). apply history_in in Hy; [|exact M]. destruct Hy as [Y1 [Y2 Y3]].
    split; [exact Y1|]. split; [exact Y2|]. split; [exact Y3|]. split; [exact F|]. split; [exact W|]. split; [now apply hist_row|].
    intros ym' f' a' M' L' F' W' R'. apply (N f').
    + rewrite <- E1. apply usable_in. split; [|exact W']. rewrite <- F'. apply in_map.
      assert (Hy' : In ym' (history y m)) by (apply history_in; [exact M|]; unfold is_month, month_index in *; cbn [fst snd] in *; lia).
      pose proof (history_sorted y m) as S. rewrite H in S, Hy'. apply sorted_split in S. destruct S as [_ S]. apply in_app_iff in Hy'.
      destruct Hy' as [Hy'|[<-|Hy']]; [exact Hy'|lia|]. apply S in Hy'. unfold later in Hy'. lia.
    + cbn. apply hist_key. now exists a'.
  - intros [ym [f [Y1 [Y2 [Y3 [F [W [I N]]]]]]]].
    assert (Hy : In ym (history y m)) by (apply history_in; auto). apply in_split in Hy. destruct Hy as [h1 [h2 H]].
    assert (E : us = usable columns (map files h1) ++ f :: usable columns (map files h2)).
    { unfold us. rewrite H. unfold usable. rewrite map_app, flat_map_app. cbn [map flat_map]. rewrite F. pose proof W as W'. apply strict_wider in W'. rewrite W'. reflexivity. }
    exists (usable columns (map files h1)), f, (usable columns (map files h2)). split; [exact E|]. split; [now apply hist_row|].
    intros f' F' K. apply usable_in in F'. destruct F' as [F' W']. apply in_map_iff in F'. destruct F' as [ym' [F' H']]. cbn in K. apply hist_key in K. destruct K as [a' K].
    pose proof (history_sorted y m) as S. rewrite H in S. apply sorted_split in S. destruct S as [S _]. specialize (S ym' H'). unfold later in S.
    assert (Hy' : In ym' (history y m)) by (rewrite H; apply in_app_iff; now left). apply history_in in Hy'; [|exact M]. destruct Hy' as [Z1 [Z2 Z3]].
    exact (N ym' f' a' Z1 (conj S Z3) F' W' K).
Qed.
Lemma history_none : forall columns (files : Z * Z -> option (csv A)) last table, is_month last ->
  (forall ym f, is_month ym -> 2010 <= fst ym -> month_index ym <= month_index last -> files ym = Some f -> ~ wider columns f) ->
  set_history columns files (fst last) (snd last) table = table.
Proof.
  intros columns files [y m] table M H. unfold set_history. rewrite hist_fold. destruct (usable columns (map files (history (fst (y, m)) (snd (y, m))))) as [|f us] eqn:E; [reflexivity|].
  exfalso. assert (I : In f (usable columns (map files (history y m)))) by (cbn in E; rewrite E; now left). apply usable_in in I. destruct I as [I W].
  apply in_map_iff in I. destruct I as [ym [F I]]. apply history_in in I; [|exact M]. exact (H ym f (proj1 I) (proj1 (proj2 I)) (proj2 (proj2 I)) F W).
Qed.

End Fill.

Lemma model_calls : forall start last, is_month start -> is_month last -> month_index start <= month_index last ->
  let calls := populate (fst start) (snd start) (fst last) (snd last) in
  (forall t, In t monthly -> from_to (month_index start - 1) (month_index last) (calls_of t calls))
  /\ (forall t, In t latest -> calls_of t calls <> [] /\ forall ym, In ym (calls_of t calls) -> ym = last).
Proof.
  intros start last S L H calls. unfold calls, populate. split.
  - intros t T. rewrite calls_app, calls_monthly by exact T.
    assert (E : calls_of t (map (fun t => (t, (fst last, snd last))) latest) = []) by (cbn in T; destruct T as [<-|[<-|[<-|[<-|[<-|[]]]]]]; reflexivity).
    rewrite E, app_nil_r. apply populate_ok; auto. lia.
  - intros t T. rewrite calls_app, calls_not_monthly.
    + cbn [List.app]. split.
      * intros E. assert (I : In (fst last, snd last) (calls_of t (map (fun t => (t, (fst last, snd last))) latest))); [|rewrite E in I; destruct I].
        unfold calls_of. apply in_map_iff. exists (t, (fst last, snd last)). split; [reflexivity|]. apply filter_In. split; [apply in_map_iff; now exists t|apply String.eqb_refl].
      * intros ym I. unfold calls_of in I. apply in_map_iff in I. destruct I as [c [<- I]]. apply filter_In in I. destruct I as [I _]. apply in_map_iff in I.
        destruct I as [x [<- _]]. cbn. destruct last; reflexivity.
    + intros M. assert (X : forallb (fun x => negb (mem_str x monthly)) latest = true) by (vm_compute; reflexivity). rewrite forallb_forall in X. specialize (X t T).
      apply negb_true_iff in X. apply mem_in in M. congruence.
Qed.
Lemma same_names : forall l l', forallb (fun x => mem_str x l') l = true -> forall x, In x l -> In x l'.
Proof. intros l l' H x I. rewrite forallb_forall in H. apply PandasFacts.mem_str_in. now apply H. Qed.
Lemma populate_calls : forall start last, is_month start -> is_month last -> month_index start <= month_index last ->
  let calls := populate (fst start) (snd start) (fst last) (snd last) in
  (forall t, In t result_tables -> from_to (month_index start - 1) (month_index last) (calls_of t calls))
  /\ (forall t, In t record_tables -> calls_of t calls <> [] /\ forall ym, In ym (calls_of t calls) -> ym = last)
  /\ (forall t, calls_of t calls <> [] -> In t result_tables \/ In t record_tables).
Proof.
  intros start last S L O calls. destruct (model_calls start last S L O) as [A B]. repeat split.
  - apply A. revert t H. apply same_names. vm_compute. reflexivity.
  - apply A. revert t H. apply same_names. vm_compute. reflexivity.
  - apply (B t). revert t H. apply same_names. vm_compute. reflexivity.
  - apply (B t). revert t H. apply same_names. vm_compute. reflexivity.
  - intros t N. assert (I : In t monthly \/ In t latest).
    { destruct (in_dec string_dec t monthly) as [I|I]; [now left|]. destruct (in_dec string_dec t latest) as [K|K]; [now right|]. exfalso. apply N.
      unfold calls, populate. rewrite calls_app, calls_not_monthly by exact I. cbn [app]. revert K. generalize latest as l. intros l K.
      induction l as [|x l IH]; [reflexivity|]. cbn. destruct (String.eqb_spec x t) as [->|D]; [exfalso; apply K; now left|]. apply IH. intros C. apply K. now right. }
    destruct I as [I|I]; [left|right]; revert t I N; intros t I _; revert t I; apply same_names; vm_compute; reflexivity.
Qed.

Lemma months_filled : forall (A : Type) (files : Z * Z -> option (csv A)) months t, add_months files months [] = (t, None) ->
  NoDup (map fst t)
  /\ (forall k a, In (k, a) t -> exists ym f, In ym months /\ files ym = Some f /\ own_run f k a)
  /\ (forall ym, In ym months -> exists f, files ym = Some f /\ forall k a, own_run f k a -> exists a', In (k, a') t /\ own_run f k a').
Proof.
  intros A files months t H. destruct (add_months_ok _ _ _ _ H) as [F [E N]]. split; [apply N; constructor|]. cbn [List.app] in E. split.
  - intros k a I. rewrite E in I. apply in_flat_map in I. destruct I as [ym [M I]]. destruct (F ym M) as [f Ff]. rewrite Ff in I. exists ym, f.
    split; [exact M|]. split; [exact Ff|]. now apply month_rows_in.
  - intros ym M. destruct (F ym M) as [f Ff]. exists f. split; [exact Ff|]. intros k a O. destruct (month_rows_has f k a O) as [a' I]. exists a'.
    split; [|now apply month_rows_in]. rewrite E. apply in_flat_map. exists ym. split; [exact M|]. now rewrite Ff.
Qed.
Lemma months_done : forall (A : Type) (files : Z * Z -> option (csv A)) months, NoDup months ->
  (forall ym, In ym months -> exists f, files ym = Some f) ->
  (forall ym ym' f f' k a a', In ym months -> In ym' months -> files ym = Some f -> files ym' = Some f' -> own_run f k a -> own_run f' k a' -> ym = ym') ->
  snd (add_months files months []) = None.
Proof.
  intros A files months N F D. apply add_months_done; [exact F|]. cbn [List.app]. induction months as [|m ms IH]; cbn [flat_map]; [constructor|].
  apply NoDup_cons_iff in N. destruct N as [N1 N2]. destruct (F m (or_introl eq_refl)) as [f Ff]. rewrite Ff, map_app.
  assert (R : NoDup (map fst (flat_map (fun ym => match files ym with Some f => month_rows f | None => [] end) ms))).
  { apply IH; [exact N2|intros; apply F; now right|]. intros ym ym' g g' k a a' Y Y'. apply D; now right. }
  clear IH. pose proof (month_rows_nodup f) as M.
  assert (X : forall k, In k (map fst (month_rows f)) -> ~ In k (map fst (flat_map (fun ym => match files ym with Some f => month_rows f | None => [] end) ms))).
  { intros k I J. apply in_map_iff in I, J. destruct I as [[k1 a1] [E1 I]], J as [[k2 a2] [E2 J]]. cbn in E1, E2. subst k1 k2. apply in_flat_map in J.
    destruct J as [ym [Y J]]. destruct (files ym) as [g|] eqn:G; [|destruct J]. apply month_rows_in in I, J. apply N1.
    rewrite (D m ym f g k a1 a2 (or_introl eq_refl) (or_intror Y) Ff G I J). exact Y. }
  revert R X. generalize (map fst (flat_map (fun ym => match files ym with Some f => month_rows f | None => [] end) ms)) as r. intros r R X.
  induction (map fst (month_rows f)) as [|k l IHl]; cbn; [exact R|]. apply NoDup_cons_iff in M. destruct M as [M1 M2]. constructor.
  - intros I. apply in_app_iff in I. destruct I as [I|I]; [contradiction|]. exact (X k (or_introl eq_refl) I).
  - apply IHl; [exact M2|]. intros q Q. apply X. now right.
Qed.
