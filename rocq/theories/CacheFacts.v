(** Lemmas about file names and the histories of a cache manager. *)

From Coq Require Import ZArith Ascii String List Bool Lia DecimalString DecimalN.
Import ListNotations.
From Verif Require Import PandasModel PandasFacts CacheModel SpecCache CalendarFacts.
Open Scope string_scope.
Open Scope list_scope.

Notation "a +++ b" := (String.append a b) (at level 60, right associativity).

(** ** Strings *)

Lemma append_length : forall a b, String.length (a +++ b) = (String.length a + String.length b)%nat.
Proof. intros a b. induction a as [|c a IH]; cbn; [reflexivity|]. now rewrite IH. Qed.
Lemma append_inj : forall a b x y, String.length a = String.length b -> a +++ x = b +++ y -> a = b /\ x = y.
Proof.
  intros a. induction a as [|c a IH]; intros [|d b] x y L E; cbn in *; try discriminate; [auto|].
  injection E as -> E. injection L as L. destruct (IH b x y L E) as [-> ->]. auto.
Qed.
Lemma append_inj_tail : forall a b x y, String.length x = String.length y -> a +++ x = b +++ y -> a = b /\ x = y.
Proof.
  intros a b x y L E. apply append_inj; [|exact E]. apply (f_equal String.length) in E. rewrite !append_length in E. lia.
Qed.

(** ** Numbers *)

Lemma str_inj : forall a b, (0 <= a)%Z -> (0 <= b)%Z -> str a = str b -> a = b.
Proof.
  intros a b A B E. unfold str in E. apply (f_equal NilEmpty.uint_of_string) in E. rewrite !NilEmpty.usu in E.
  assert (E' : N.to_uint (Z.to_N a) = N.to_uint (Z.to_N b)) by congruence. apply Unsigned.to_uint_inj in E'. lia.
Qed.

Definition numbers (n : nat) : list Z := map Z.of_nat (seq 1 n).
Lemma in_numbers : forall n z, (1 <= z <= Z.of_nat n)%Z -> In z (numbers n).
Proof. intros n z H. unfold numbers. apply in_map_iff. exists (Z.to_nat z). split; [lia|]. apply in_seq. lia. Qed.
Fixpoint distinct_str (l : list string) : bool := match l with [] => true | x :: r => negb (mem_str x r) && distinct_str r end.
Definition fixed (w n : nat) : bool :=
  distinct_str (map (fun z => zfill w (str z)) (numbers n)) && forallb (fun z => (String.length (zfill w (str z)) =? w)%nat) (numbers n).
Lemma mem_true : forall x l, In x l -> mem_str x l = true.
Proof. intros x l H. unfold mem_str. apply existsb_exists. exists x. split; [exact H|apply String.eqb_refl]. Qed.
Lemma distinct_inj : forall (f : Z -> string) l a b, distinct_str (map f l) = true -> In a l -> In b l -> f a = f b -> a = b.
Proof.
  intros f l. induction l as [|x l IH]; intros a b D A B E; [destruct A|]. cbn in D. apply andb_true_iff in D. destruct D as [N D].
  apply negb_true_iff in N. destruct A as [<-|A], B as [<-|B].
  - reflexivity.
  - rewrite mem_true in N; [discriminate|]. rewrite E. now apply in_map.
  - rewrite mem_true in N; [discriminate|]. rewrite <- E. now apply in_map.
  - now apply IH.
Qed.
Lemma fixed_2_12 : fixed 2 12 = true. Proof. vm_compute. reflexivity. Qed.
Lemma fixed_2_31 : fixed 2 31 = true. Proof. vm_compute. reflexivity. Qed.
Lemma fixed_3_288 : fixed 3 288 = true. Proof. vm_compute. reflexivity. Qed.
Lemma fixed_inj : forall w n a b, fixed w n = true -> (1 <= a <= Z.of_nat n)%Z -> (1 <= b <= Z.of_nat n)%Z -> zfill w (str a) = zfill w (str b) -> a = b.
Proof.
  intros w n a b F A B E. unfold fixed in F. apply andb_true_iff in F. destruct F as [F _].
  apply (distinct_inj (fun z => zfill w (str z)) (numbers n)); auto; now apply in_numbers.
Qed.
Lemma fixed_length : forall w n a, fixed w n = true -> (1 <= a <= Z.of_nat n)%Z -> String.length (zfill w (str a)) = w.
Proof.
  intros w n a F A. unfold fixed in F. apply andb_true_iff in F. destruct F as [_ F]. rewrite forallb_forall in F. apply Nat.eqb_eq, F. now apply in_numbers.
Qed.

(** ** Names *)

Lemma month_range : forall d, valid_date d -> (1 <= d_month d <= 12)%Z. Proof. intros d V. apply V. Qed.
Lemma day_range : forall d, valid_date d -> (1 <= d_day d <= 31)%Z.
Proof. intros d [A [B C]]. pose proof (month_size (d_year d) (d_month d) B). lia. Qed.

Lemma name_inj : forall e a b, dispatch_time a -> dispatch_time b -> name_with e a = name_with e b -> a = b.
Proof.
  intros e a b A B E.
  assert (Va : valid_date (market_date a)) by (apply market_valid; apply A).
  assert (Vb : valid_date (market_date b)) by (apply market_valid; apply B).
  pose proof (number_range a (proj1 A)) as Na. pose proof (number_range b (proj1 B)) as Nb.
  pose proof (month_range _ Va) as Ma. pose proof (month_range _ Vb) as Mb. pose proof (day_range _ Va) as Da. pose proof (day_range _ Vb) as Db.
  pose proof (fixed_length 2 12 _ fixed_2_12 Ma) as LMa. pose proof (fixed_length 2 12 _ fixed_2_12 Mb) as LMb.
  pose proof (fixed_length 2 31 _ fixed_2_31 Da) as LDa. pose proof (fixed_length 2 31 _ fixed_2_31 Db) as LDb.
  pose proof (fixed_length 3 288 _ fixed_3_288 Na) as LNa. pose proof (fixed_length 3 288 _ fixed_3_288 Nb) as LNb.
  unfold name_with, cat in E. cbn [fold_right] in E. apply append_inj in E; [|reflexivity]. destruct E as [_ E].
  apply append_inj_tail in E; [|rewrite !append_length; lia]. destruct E as [Y E]. apply append_inj in E; [|lia]. destruct E as [M E].
  apply append_inj in E; [|lia]. destruct E as [D E]. apply append_inj in E; [|lia]. destruct E as [N _].
  apply number_inj; auto.
  - destruct (market_date a) as [y m d], (market_date b) as [y' m' d']. cbn [d_year d_month d_day] in *. f_equal.
    + apply str_inj; auto; [destruct Va|destruct Vb]; cbn in *; lia.
    + now apply (fixed_inj 2 12).
    + now apply (fixed_inj 2 31).
  - now apply (fixed_inj 3 288).
Qed.

(** No name of an ordinary run contains the letter C. *)
Fixpoint has (c : ascii) (s : string) : bool := match s with "" => false | String x r => Ascii.eqb x c || has c r end.
Lemma has_append : forall c a b, has c (a +++ b) = has c a || has c b.
Proof. intros c a b. induction a as [|x a IH]; cbn; [reflexivity|]. now rewrite IH, orb_assoc. Qed.
Lemma has_str : forall n, has "C" (str n) = false.
Proof. intros n. unfold str. induction (N.to_uint (Z.to_N n)); cbn; auto. Qed.
Lemma has_zeros : forall n, has "C" (zeros n) = false. Proof. intros n. induction n; cbn; auto. Qed.
Lemma has_name : forall t, has "C" (name t) = false.
Proof.
  intros t. unfold name, name_with, cat, zfill. cbn [fold_right]. rewrite !has_append, !has_str, !has_zeros. reflexivity.
Qed.
Lemma prefix_has : forall p s c, prefix_of p s = true -> has c p = true -> has c s = true.
Proof.
  intros p. induction p as [|a p IH]; intros [|b s] c P H; cbn in *; try discriminate. apply andb_true_iff in P. destruct P as [E P].
  apply Ascii.eqb_eq in E. subst b. apply orb_true_iff in H. destruct H as [->|H]; [reflexivity|]. rewrite (IH s c P H). apply orb_true_r.
Qed.
Lemma contains_has : forall p s c, contains p s = true -> has c p = true -> has c s = true.
Proof.
  intros p s c. induction s as [|x s IH]; intros K H; cbn [contains] in K.
  - rewrite orb_false_r in K. now apply (prefix_has p).
  - apply orb_true_iff in K. destruct K as [K|K]; [now apply (prefix_has p)|]. cbn. rewrite (IH K H). apply orb_true_r.
Qed.
Lemma contains_append : forall p a b, contains p b = true -> contains p (a +++ b) = true.
Proof. intros p a b H. induction a as [|x a IH]; cbn; [exact H|]. rewrite IH. apply orb_true_r. Qed.
Lemma name_not_rerun : forall t, contains "OCD" (name t) = false.
Proof. intros t. destruct (contains "OCD" (name t)) eqn:E; [|reflexivity]. apply (contains_has _ _ "C") in E; [|reflexivity]. now rewrite has_name in E. Qed.
Lemma name_rerun : forall t, contains "OCD" (name_ocd t) = true.
Proof. intros t. unfold name_ocd, name_with, cat. cbn [fold_right]. do 6 apply contains_append. reflexivity. Qed.
Lemma names_apart : forall a b, name a <> name_ocd b.
Proof. intros a b E. pose proof (name_not_rerun a) as N. rewrite E, name_rerun in N. discriminate. Qed.

Section Files.
Context {C : Type}.
Implicit Types fs : files C.

Lemma file_name_inj : forall fs fs' a b, dispatch_time a -> dispatch_time b -> file_name fs a = file_name fs' b -> a = b.
Proof.
  intros fs fs' a b A B E. unfold file_name in E. destruct (dhas (name a) fs), (dhas (name b) fs').
  - now apply (name_inj ".loaded").
  - now apply names_apart in E.
  - symmetry in E. now apply names_apart in E.
  - now apply (name_inj "_OCD.loaded").
Qed.
Lemma rerun_iff : forall fs t, is_rerun fs t = true <-> dget (name t) fs = None.
Proof.
  intros fs t. unfold is_rerun, file_name. destruct (dhas (name t) fs) eqn:E.
  - rewrite name_not_rerun. split; [discriminate|]. intros N. unfold dhas in E. rewrite N in E. discriminate.
  - rewrite name_rerun. split; [|reflexivity]. intros _. unfold dhas in E. destruct (dget (name t) fs); [discriminate|reflexivity].
Qed.
Lemma file_exists : forall fs t c, dget (file_name fs t) fs = Some c <->
  dget (name t) fs = Some c \/ (dget (name t) fs = None /\ dget (name_ocd t) fs = Some c).
Proof.
  intros fs t c. unfold file_name, dhas. destruct (dget (name t) fs) as [x|] eqn:E.
  - rewrite E. split; [auto|]. intros [H|[H _]]; [auto|discriminate].
  - split; [auto|]. intros [H|[_ H]]; [discriminate|exact H].
Qed.
Lemma in_cache_iff : forall fs t, in_cache fs t = true <-> exists c, dget (name t) fs = Some c \/ dget (name_ocd t) fs = Some c.
Proof.
  intros fs t. unfold in_cache. split.
  - intros H. unfold dhas in H. destruct (dget (file_name fs t) fs) as [c|] eqn:E; [|discriminate]. exists c. apply file_exists in E. tauto.
  - intros [c H]. destruct (dget (name t) fs) as [x|] eqn:E.
    + assert (K : dget (file_name fs t) fs = Some x) by (apply file_exists; auto). unfold dhas. now rewrite K.
    + destruct H as [H|H]; [discriminate|]. assert (K : dget (file_name fs t) fs = Some c) by (apply file_exists; auto). unfold dhas. now rewrite K.
Qed.

(** ** Loads *)

Lemma load_interval_set : forall t (w : world C) m, mg_interval (fst (load_interval t w m)) = Some t.
Proof.
  intros t w m. unfold load_interval, read_file. destruct (in_cache (w_before w) t).
  - destruct (dget _ _); [destruct (w_bad w c)|]; reflexivity.
  - destruct (w_raises w); [reflexivity|]. destruct (in_cache (w_after w) t); [|reflexivity]. destruct (dget _ _); [destruct (w_bad w c)|]; reflexivity.
Qed.
Lemma load_ok : forall t (w : world C) m m', load_interval t w m = (m', None) -> exists fs c, (fs = w_before w \/ fs = w_after w)
  /\ (dget (name t) fs = Some c \/ (dget (name t) fs = None /\ dget (name_ocd t) fs = Some c)) /\ w_bad w c = false /\ m' = Manager (Some t) (Some c).
Proof.
  intros t w m m' H. unfold load_interval, read_file in H. destruct (in_cache (w_before w) t).
  - destruct (dget _ _) as [c|] eqn:D; [|discriminate]. destruct (w_bad w c) eqn:B; [discriminate|]. injection H as <-.
    exists (w_before w), c. repeat split; auto. now apply file_exists.
  - destruct (w_raises w); [discriminate|]. destruct (in_cache (w_after w) t); [|discriminate]. destruct (dget _ _) as [c|] eqn:D; [|discriminate].
    destruct (w_bad w c) eqn:B; [discriminate|]. injection H as <-. exists (w_after w), c. repeat split; auto. now apply file_exists.
Qed.
Lemma load_fails : forall t (w : world C) m m' e, load_interval t w m = (m', Some e) -> m' = Manager (Some t) (mg_xml m).
Proof.
  intros t w m m' e H. unfold load_interval, read_file in H. destruct (in_cache (w_before w) t).
  - destruct (dget _ _) as [c|] eqn:D; [destruct (w_bad w c)|]; congruence.
  - destruct (w_raises w); [congruence|]. destruct (in_cache (w_after w) t); [|congruence]. destruct (dget _ _) as [c|] eqn:D; [destruct (w_bad w c)|]; congruence.
Qed.
Lemma load_missing : forall t (w : world C) m, snd (load_interval t w m) = Some MissingData <->
  in_cache (w_before w) t = false /\ w_raises w = false /\ in_cache (w_after w) t = false.
Proof.
  intros t w m. unfold load_interval, read_file.
  assert (K : forall fs, in_cache fs t = true -> dget (file_name fs t) fs <> None).
  { intros fs H. unfold in_cache, dhas in H. destruct (dget (file_name fs t) fs); congruence. }
  destruct (in_cache (w_before w) t) eqn:A.
  - apply K in A. destruct (dget _ _) as [c|]; [|congruence]. destruct (w_bad w c); cbn; split; try discriminate; intros [? _]; discriminate.
  - destruct (w_raises w); [cbn; split; [discriminate|intros [_ [? _]]; discriminate]|]. destruct (in_cache (w_after w) t) eqn:B.
    + apply K in B. destruct (dget _ _) as [c|]; [|congruence]. destruct (w_bad w c); cbn; split; try discriminate; intros [_ [_ ?]]; discriminate.
    + cbn. tauto.
Qed.

(** The last load succeeded. *)
Lemma loads_snoc : forall steps s (m : manager C), loads (steps ++ [s]) m = load_step (loads steps m) s.
Proof. intros. unfold loads. now rewrite fold_left_app. Qed.

Lemma honest_ok : forall (of : C -> datetime) t (w : world C) m m', dispatch_time t -> honest of w -> load_interval t w m = (m', None) ->
  exists c, m' = Manager (Some t) (Some c) /\ of c = t.
Proof.
  intros of t w m m' T [F1 F2] H. apply load_ok in H. destruct H as [fs [c [K [D [_ E]]]]]. exists c. split; [exact E|].
  destruct K as [-> | ->]; [apply F1|apply F2]; tauto.
Qed.

(** ** The search *)

Lemma search_hits : forall (violations : C -> list string) limit (of : C -> datetime) steps hits m m' hits' e,
  (forall s, In s steps -> dispatch_time (fst s) /\ honest of (snd s)) ->
  search violations limit steps hits m = (m', hits', e) ->
  forall h, In h hits' -> In h hits \/ exists c, of c = fst h /\ snd h = violations c /\ snd h <> [] /\ In (fst h) (map fst steps).
Proof.
  intros violations limit of steps. induction steps as [|[t w] r IH]; intros hits m m' hits' e G H h I; cbn [search] in H.
  - left. congruence.
  - destruct (limit <=? length hits)%nat; [left; congruence|].
    assert (Gr : forall s, In s r -> dispatch_time (fst s) /\ honest of (snd s)) by (intros; apply G; now right).
    destruct (load_interval t w m) as [m1 [e1|]] eqn:L.
    + destruct e1; try (left; congruence). destruct (IH _ _ _ _ _ Gr H h I) as [K|[c [K1 [K2 [K3 K4]]]]]; [auto|]. right. exists c. repeat split; auto. now right.
    + destruct (G (t, w) (or_introl eq_refl)) as [T W]. destruct (honest_ok of t w m m1 T W L) as [c [-> O]]. cbn [mg_xml] in H.
      destruct (IH _ _ _ _ _ Gr H h I) as [K|[c' [K1 [K2 [K3 K4]]]]].
      * destruct (violations c) as [|v vs] eqn:V; [auto|]. apply in_app_iff in K. destruct K as [K|[<-|[]]]; [auto|]. right. exists c. cbn [fst snd].
        repeat split; auto; [congruence|]. now left.
      * right. exists c'. repeat split; auto. now right.
Qed.

Lemma read_found : forall fs bad t (m : manager C), in_cache fs t = true ->
  exists c, found fs t = Some c /\ read_file fs bad t m = if bad c then (m, Some Unreadable) else (Manager (mg_interval m) (Some c), None).
Proof.
  intros fs bad t m H. unfold in_cache, dhas in H. destruct (dget (file_name fs t) fs) as [c|] eqn:E; [|discriminate]. exists c. split.
  - apply file_exists in E. unfold found. destruct E as [->|[-> E]]; auto.
  - unfold read_file. now rewrite E.
Qed.
Lemma not_found : forall fs t, in_cache fs t = false -> found fs t = None.
Proof.
  intros fs t H. unfold found. destruct (dget (name t) fs) as [c|] eqn:A.
  - assert (K : in_cache fs t = true) by (apply in_cache_iff; exists c; auto). congruence.
  - destruct (dget (name_ocd t) fs) as [c|] eqn:B; [|reflexivity]. assert (K : in_cache fs t = true) by (apply in_cache_iff; exists c; auto). congruence.
Qed.
Lemma load_available : forall t (w : world C) m m' e, load_interval t w m = (m', e) ->
  (e = None /\ exists c, available t w = Some c /\ m' = Manager (Some t) (Some c)) \/ (e = Some MissingData /\ available t w = None) \/ e = Some Download \/ e = Some Unreadable.
Proof.
  intros t w m m' e H. unfold load_interval in H. unfold available. destruct (in_cache (w_before w) t) eqn:A.
  - destruct (read_found (w_before w) (w_bad w) t (Manager (Some t) (mg_xml m)) A) as [c [F R]]. rewrite R in H. rewrite F.
    destruct (w_bad w c); injection H as <- <-; [auto|]. left. split; [reflexivity|]. exists c. auto.
  - rewrite (not_found _ _ A). destruct (w_raises w); [injection H as <- <-; auto|]. destruct (in_cache (w_after w) t) eqn:B.
    + destruct (read_found (w_after w) (w_bad w) t (Manager (Some t) (mg_xml m)) B) as [c [F R]]. rewrite R in H. rewrite F.
      destruct (w_bad w c); injection H as <- <-; [auto|]. left. split; [reflexivity|]. exists c. auto.
    + rewrite (not_found _ _ B). injection H as <- <-. auto.
Qed.
Lemma search_exact : forall (violations : C -> list string) limit steps hits m m' hits', (length hits <= limit)%nat ->
  search violations limit steps hits m = (m', hits', None) -> hits' = hits ++ firstn (limit - length hits) (flat_map (violated violations) steps).
Proof.
  intros violations limit steps. induction steps as [|[t w] r IH]; intros hits m m' hits' L H; cbn [search flat_map] in *.
  - rewrite firstn_nil, app_nil_r. congruence.
  - destruct (Nat.leb_spec limit (length hits)) as [K|K].
    + replace (limit - length hits)%nat with 0%nat by lia. cbn. rewrite app_nil_r. congruence.
    + destruct (load_interval t w m) as [m1 e1] eqn:E. destruct (load_available _ _ _ _ _ E) as [[-> [c [A ->]]]|[[-> A]|[->| ->]]]; try discriminate.
      * cbn [mg_xml] in H. unfold violated at 1. cbn [fst snd]. rewrite A. destruct (violations c) as [|v vs].
        -- cbn [List.app]. apply (IH _ _ _ _ L H).
        -- apply IH in H; [|rewrite app_length; cbn; lia]. rewrite H, app_length, <- app_assoc. cbn [List.app length].
           replace (limit - length hits)%nat with (S (limit - (length hits + 1))) by lia. reflexivity.
      * unfold violated at 1. cbn [fst snd]. rewrite A. cbn [List.app]. apply (IH _ _ _ _ L H).
Qed.

End Files.
