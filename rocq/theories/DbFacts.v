(** Lemmas about the database queries. *)

From Coq Require Import ZArith Ascii String List Bool Lia Sorting.Permutation Sorting.Sorted.
Import ListNotations.
From Verif Require Import PandasModel PandasFacts CacheModel SpecCache CalendarFacts CacheFacts DbModel SpecDb.
Open Scope string_scope.
Open Scope list_scope.

(** ** The order of texts *)

Lemma ascii_nat : forall c d, nat_of_ascii c = nat_of_ascii d -> c = d.
Proof. intros c d E. rewrite <- (ascii_nat_embedding c), <- (ascii_nat_embedding d). now rewrite E. Qed.
Lemma text_refl : forall a, text_le a a = true.
Proof. intros a. induction a as [|c a IH]; cbn; [reflexivity|]. now rewrite Ascii.eqb_refl. Qed.
Lemma text_antisym : forall a b, text_le a b = true -> text_le b a = true -> a = b.
Proof.
  intros a. induction a as [|c a IH]; intros [|d b] H K; cbn in *; try discriminate; auto.
  rewrite Ascii.eqb_sym in K. destruct (Ascii.eqb_spec c d) as [->|N].
  - f_equal. auto.
  - apply Nat.ltb_lt in H, K. lia.
Qed.
Lemma text_trans : forall a b c, text_le a b = true -> text_le b c = true -> text_le a c = true.
Proof.
  intros a. induction a as [|x a IH]; intros [|y b] [|z c] H K; cbn in *; try discriminate; auto.
  destruct (Ascii.eqb_spec x y) as [<-|N].
  - destruct (Ascii.eqb_spec x z) as [<-|M]; [eauto|exact K].
  - destruct (Ascii.eqb_spec y z) as [<-|M].
    + destruct (Ascii.eqb_spec x y); [congruence|exact H].
    + apply Nat.ltb_lt in H, K. destruct (Ascii.eqb_spec x z) as [->|P]; [lia|]. apply Nat.ltb_lt. lia.
Qed.
Lemma text_total : forall a b, text_le a b = true \/ text_le b a = true.
Proof.
  intros a. induction a as [|x a IH]; intros [|y b]; cbn; auto. rewrite (Ascii.eqb_sym y x). destruct (Ascii.eqb_spec x y) as [->|N]; auto.
  destruct (Nat.lt_ge_cases (nat_of_ascii x) (nat_of_ascii y)) as [L|L]; [left; now apply Nat.ltb_lt|]. right. apply Nat.ltb_lt.
  assert (nat_of_ascii x <> nat_of_ascii y) by (intros E; apply N, ascii_nat, E). lia.
Qed.
Lemma text_append : forall a b x y, String.length a = String.length b ->
  text_le (a +++ x) (b +++ y) = true <-> (text_le a b = true /\ a <> b) \/ (a = b /\ text_le x y = true).
Proof.
  intros a. induction a as [|c a IH]; intros [|d b] x y L; cbn in *; try discriminate.
  - split; [auto|]. intros [[_ N]|[_ H]]; [congruence|exact H].
  - injection L as L. destruct (Ascii.eqb_spec c d) as [->|N].
    + rewrite IH by exact L. split.
      * intros [[H K]|[-> H]]; [left; split; [exact H|congruence]|auto].
      * intros [[H K]|[E H]]; [left; split; [exact H|congruence]|right; split; [congruence|exact H]].
    + split; [|intros [[H _]|[E _]]; [exact H|congruence]]. intros H. left. split; [exact H|congruence].
Qed.

(** Increasing numbers of a fixed width. *)
Fixpoint counts (n : nat) (z : Z) : list Z := match n with O => [] | S k => z :: counts k (z + 1)%Z end.
Definition rising_text (w n : nat) : bool :=
  forallb (fun z => text_le (zfill w (str z)) (zfill w (str (z + 1))) && negb (zfill w (str z) =? zfill w (str (z + 1)))%string && (String.length (zfill w (str (z + 1))) =? w)%nat) (counts n 0)
  && (String.length (zfill w (str 0)) =? w)%nat.
Lemma in_counts : forall n z x, (z <= x < z + Z.of_nat n)%Z -> In x (counts n z).
Proof. intros n. induction n as [|n IH]; intros z x H; [lia|]. cbn [counts]. destruct (Z.eq_dec z x); [now left|]. right. apply IH. lia. Qed.
Lemma rising_2 : rising_text 2 99 = true. Proof. vm_compute. reflexivity. Qed.
Lemma rising_4 : rising_text 4 (Z.to_nat 9999) = true. Proof. vm_compute. reflexivity. Qed.
Section Fixed.
Variables (w n : nat).
Hypothesis (R : rising_text w n = true).
Lemma rising_next : forall z, (0 <= z < Z.of_nat n)%Z -> text_le (zfill w (str z)) (zfill w (str (z + 1))) = true /\ zfill w (str z) <> zfill w (str (z + 1)) /\ String.length (zfill w (str (z + 1))) = w.
Proof.
  intros z H. unfold rising_text in R. apply andb_true_iff in R. destruct R as [F _]. rewrite forallb_forall in F.
  specialize (F z (in_counts n 0 z ltac:(lia))). apply andb_true_iff in F. destruct F as [F L]. apply andb_true_iff in F. destruct F as [F N].
  split; [exact F|]. split; [|now apply Nat.eqb_eq]. apply negb_true_iff in N. now apply String.eqb_neq.
Qed.
Lemma field_length : forall z, (0 <= z <= Z.of_nat n)%Z -> String.length (zfill w (str z)) = w.
Proof.
  intros z H. destruct (Z.eq_dec z 0) as [->|N].
  - unfold rising_text in R. apply andb_true_iff in R. destruct R as [_ L]. now apply Nat.eqb_eq.
  - destruct (rising_next (z - 1) ltac:(lia)) as [_ [_ L]]. now replace (z - 1 + 1)%Z with z in L by lia.
Qed.
Lemma field_less : forall k z, (0 <= z)%Z -> (z + Z.of_nat (S k) <= Z.of_nat n)%Z ->
  text_le (zfill w (str z)) (zfill w (str (z + Z.of_nat (S k)))) = true /\ zfill w (str z) <> zfill w (str (z + Z.of_nat (S k))).
Proof.
  intros k. induction k as [|k IH]; intros z Z0 H.
  - change (Z.of_nat 1) with 1%Z. destruct (rising_next z ltac:(lia)) as [A [B _]]. auto.
  - destruct (rising_next z ltac:(lia)) as [A [B _]]. destruct (IH (z + 1)%Z ltac:(lia) ltac:(lia)) as [P Q].
    replace (z + 1 + Z.of_nat (S k))%Z with (z + Z.of_nat (S (S k)))%Z in P, Q by lia.
    split; [eapply text_trans; eauto|]. intros E. rewrite <- E in P. apply B. now apply text_antisym.
Qed.
Lemma field_lt : forall a b, (0 <= a)%Z -> (a < b)%Z -> (b <= Z.of_nat n)%Z -> text_le (zfill w (str a)) (zfill w (str b)) = true /\ zfill w (str a) <> zfill w (str b).
Proof. intros a b A L B. replace b with (a + Z.of_nat (S (Z.to_nat (b - a - 1))))%Z by lia. apply field_less; lia. Qed.
Lemma field_order : forall a b x y, (0 <= a <= Z.of_nat n)%Z -> (0 <= b <= Z.of_nat n)%Z ->
  text_le (zfill w (str a) +++ x) (zfill w (str b) +++ y) = true <-> (a < b)%Z \/ (a = b /\ text_le x y = true).
Proof.
  intros a b x y A B. rewrite text_append by (rewrite !field_length by lia; reflexivity). destruct (Z.lt_trichotomy a b) as [L|[->|L]].
  - destruct (field_lt a b ltac:(lia) L ltac:(lia)) as [P Q]. split; [auto|]. intros _. left. auto.
  - split; [intros [[_ N]|[_ H]]; [congruence|auto]|]. intros [H|[_ H]]; [lia|auto].
  - destruct (field_lt b a ltac:(lia) L ltac:(lia)) as [P Q]. split.
    + intros [[H N]|[E _]]; [exfalso; apply N; now apply text_antisym|congruence].
    + intros [H|[H _]]; lia.
Qed.
End Fixed.
Lemma same_char : forall c x y, text_le (String c "" +++ x) (String c "" +++ y) = text_le x y.
Proof. intros c x y. cbn. now rewrite Ascii.eqb_refl. Qed.

Lemma day_31 : forall d, valid_date d -> (1 <= d_day d <= 31)%Z. Proof. exact day_range. Qed.
Lemma stamp_order : forall a b, stamped a -> stamped b -> text_le (stamp a) (stamp b) = true <-> (moment a <= moment b)%Z.
Proof.
  intros a b [[Va [Ha [Ma Sa]]] Ya] [[Vb [Hb [Mb Sb]]] Yb].
  pose proof (month_range _ Va) as Ra. pose proof (month_range _ Vb) as Rb. pose proof (day_range _ Va) as Da. pose proof (day_range _ Vb) as Db.
  pose proof (proj1 Va) as Y1a. pose proof (proj1 Vb) as Y1b.
  unfold stamp, cat. cbn [fold_right].
  rewrite (field_order 4 (Z.to_nat 9999) rising_4) by lia. rewrite same_char. rewrite (field_order 2 99 rising_2) by lia. rewrite same_char.
  rewrite (field_order 2 99 rising_2) by lia. rewrite same_char. rewrite (field_order 2 99 rising_2) by lia. rewrite same_char.
  rewrite (field_order 2 99 rising_2) by lia. rewrite same_char. rewrite (field_order 2 99 rising_2) by lia. cbn [text_le].
  assert (T : before (t_date a) (t_date b) \/ before (t_date b) (t_date a) \/ t_date a = t_date b).
  { destruct (t_date a) as [y m d], (t_date b) as [y' m' d']. unfold before. cbn.
    destruct (Z.lt_trichotomy y y') as [?|[->|?]]; [auto| |auto]. destruct (Z.lt_trichotomy m m') as [?|[->|?]]; [auto| |auto 6].
    destruct (Z.lt_trichotomy d d') as [?|[->|?]]; auto 8. }
  unfold moment. destruct T as [T|[T|T]].
  - pose proof (ordinal_mono _ _ Va Vb T). unfold before in T. lia.
  - pose proof (ordinal_mono _ _ Vb Va T). unfold before in T. lia.
  - rewrite T. lia.
Qed.
Lemma stamp_inj : forall a b, stamped a -> stamped b -> stamp a = stamp b -> a = b.
Proof.
  intros a b A B E. apply moment_inj; [apply A|apply B|]. apply Z.le_antisymm; apply stamp_order; auto; rewrite E; apply text_refl.
Qed.

(** ** Groups *)

Lemma ident_eqb_eq : forall a b, ident_eqb a b = true <-> a = b.
Proof.
  intros a. induction a as [|x a IH]; intros [|y b]; cbn; split; try congruence; auto.
  - intros H. apply andb_true_iff in H. destruct H as [E H]. apply String.eqb_eq in E. apply IH in H. congruence.
  - intros H. injection H as -> ->. rewrite String.eqb_refl. now apply IH.
Qed.
Lemma date_eqb_eq : forall a b, date_eqb a b = true <-> a = b.
Proof.
  intros [a x] [b y]. unfold date_eqb. cbn. rewrite andb_true_iff, ident_eqb_eq, String.eqb_eq. split; [intros [E1 E2]; subst; auto|intros E; injection E as -> ->; auto].
Qed.
Lemma version_eqb_eq : forall a b, version_eqb a b = true <-> a = b.
Proof.
  intros [a|a] [b|b]; cbn; [rewrite Z.eqb_eq| | |rewrite String.eqb_eq]; split; congruence.
Qed.
Lemma version_total : forall a b, version_le a b = true \/ version_le b a = true.
Proof. intros [a|a] [b|b]; cbn; auto; [rewrite !Z.leb_le; lia|apply text_total]. Qed.
Lemma version_trans : forall a b c, version_le a b = true -> version_le b c = true -> version_le a c = true.
Proof. intros [a|a] [b|b] [c|c]; cbn; auto; try discriminate; [rewrite !Z.leb_le; lia|apply text_trans]. Qed.
Lemma version_antisym : forall a b, version_le a b = true -> version_le b a = true -> a = b.
Proof. intros [a|a] [b|b]; cbn; try discriminate; [rewrite !Z.leb_le; intros; f_equal; lia|intros; f_equal; now apply text_antisym]. Qed.

Section Max.
Context {B K : Type}.
Variables (le : B -> B -> bool) (keq : K -> K -> bool) (key : B -> K).
Hypothesis (Hkeq : forall a b, keq a b = true <-> a = b).
Hypothesis (total : forall a b, le a b = true \/ le b a = true).
Hypothesis (trans : forall a b c, le a b = true -> le b c = true -> le a c = true).

Lemma max_row_none : forall l, max_row le l = None -> l = [].
Proof. intros [|x l] H; [reflexivity|]. cbn in H. destruct (max_row le l); discriminate. Qed.
Lemma max_row_ok : forall l m, max_row le l = Some m -> In m l /\ forall x, In x l -> le x m = true.
Proof.
  intros l. induction l as [|x l IH]; intros m H; [discriminate|]. cbn in H. destruct (max_row le l) as [y|] eqn:E.
  - destruct (IH y eq_refl) as [I G]. injection H as <-. destruct (le x y) eqn:L.
    + split; [now right|]. intros z [<-|Z]; auto.
    + assert (M : le y x = true) by (destruct (total x y); congruence). split; [now left|]. intros z [<-|Z].
      * destruct (total x x); auto.
      * eapply trans; eauto.
  - apply max_row_none in E. subst l. injection H as <-. split; [now left|]. intros z [<-|[]]. destruct (total x x); auto.
Qed.
Lemma keys_in : forall l k, In k (keys_of keq l) <-> In k l.
Proof.
  intros l k. rewrite keys_of_drop. split; [apply drop_duplicates_incl|]. intros H.
  destruct (drop_duplicates_repr keq l k) as [b [I E]]; auto.
  - intros a b E c F. apply Hkeq in E, F. apply Hkeq. congruence.
  - intros a. now apply Hkeq.
  - intros a b E. apply Hkeq. apply Hkeq in E. auto.
  - apply Hkeq in E. now subst.
Qed.
Lemma group_in : forall l b, In b (group_max keq key le l) -> In b l /\ forall x, In x l -> key x = key b -> le x b = true.
Proof.
  intros l b H. unfold group_max in H. apply in_flat_map in H. destruct H as [k [_ H]]. destruct (max_row _ _) as [m|] eqn:E; [|destruct H].
  destruct H as [<-|[]]. apply max_row_ok in E. destruct E as [I G]. apply filter_In in I. destruct I as [I J]. apply Hkeq in J. split; [exact I|].
  intros x X Y. apply G. apply filter_In. split; [exact X|]. apply Hkeq. congruence.
Qed.
Lemma group_has : forall l x, In x l -> exists b, In b (group_max keq key le l) /\ key b = key x.
Proof.
  intros l x H. destruct (max_row le (filter (fun b => keq (key b) (key x)) l)) as [m|] eqn:E.
  - exists m. pose proof (max_row_ok _ _ E) as [I _]. apply filter_In in I. destruct I as [I J]. apply Hkeq in J. split; [|exact J].
    unfold group_max. apply in_flat_map. exists (key x). split; [apply keys_in; now apply in_map|]. rewrite E. now left.
  - apply max_row_none in E. exfalso. assert (I : In x (filter (fun b => keq (key b) (key x)) l)) by (apply filter_In; split; [exact H|now apply Hkeq]).
    rewrite E in I. destruct I.
Qed.
Lemma keys_nodup : forall l, NoDup (keys_of keq l).
Proof.
  intros l. induction l as [|k l IH]; cbn; constructor.
  - intros H. apply filter_In in H. destruct H as [_ H]. apply negb_true_iff in H. assert (keq k k = true) by now apply Hkeq. congruence.
  - now apply NoDup_filter.
Qed.
Lemma group_nodup : forall l, NoDup (map key (group_max keq key le l)).
Proof.
  intros l. unfold group_max. pose proof (keys_nodup (map key l)) as N. induction (keys_of keq (map key l)) as [|k ks IH]; cbn [flat_map map]; [constructor|].
  apply NoDup_cons_iff in N. destruct N as [N1 N2]. rewrite map_app. destruct (max_row le (filter _ l)) as [m|] eqn:E; cbn [map List.app]; [|now apply IH].
  apply max_row_ok in E. destruct E as [I _]. apply filter_In in I. destruct I as [_ J]. apply Hkeq in J. constructor; [|now apply IH].
  intros H. apply in_map_iff in H. destruct H as [b [E H]]. apply in_flat_map in H. destruct H as [k' [K' H]].
  destruct (max_row le (filter (fun b => keq (key b) k') l)) as [m'|] eqn:F; [|destruct H]. destruct H as [<-|[]]. apply max_row_ok in F. destruct F as [F _].
  apply filter_In in F. destruct F as [_ F]. apply Hkeq in F. congruence.
Qed.
End Max.

(** A join in which every row has at most one partner is a selection. *)
Lemma join_select : forall {A B K : Type} (on : A -> B -> bool) (key : B -> K) (l : list A) (r : list B),
  NoDup (map key r) -> (forall a b b', on a b = true -> on a b' = true -> key b = key b') ->
  map fst (merge on l r) = filter (fun a => existsb (on a) r) l.
Proof.
  intros A B K on key l r N U. unfold merge. induction l as [|a l IH]; cbn [flat_map map filter]; [reflexivity|].
  rewrite map_app, IH, map_map. cbn [fst].
  assert (E : map (fun x : B => a) (filter (on a) r) = if existsb (on a) r then [a] else []).
  { clear IH. induction r as [|b r IH]; cbn [filter existsb map]; [reflexivity|]. cbn [map] in N. apply NoDup_cons_iff in N. destruct N as [N1 N2].
    destruct (on a b) eqn:O; cbn [orb map]; [|now apply IH]. f_equal. rewrite IH by exact N2. destruct (existsb (on a) r) eqn:X; [|reflexivity].
    apply existsb_exists in X. destruct X as [b' [I P]]. exfalso. apply N1. rewrite (U a b b' O P). now apply in_map. }
  rewrite E. destruct (existsb (on a) r); reflexivity.
Qed.

(** ** Effective dates *)

Section Effective.
Context {A : Type}.
Implicit Types table : list (dated A).

Definition by_version (a b : dated unit) : bool := version_le (e_version a) (e_version b).
Definition by_date (a b : dated unit) : bool := text_le (e_date a) (e_date b).

Lemma temp2_in : forall (t : list (dated A)) b, In b (temp2 t) -> (exists r, In r t /\ e_id r = e_id b /\ e_date r = e_date b /\ e_version r = e_version b)
  /\ forall r, In r t -> e_id r = e_id b -> e_date r = e_date b -> version_le (e_version r) (e_version b) = true.
Proof.
  intros t b H. apply (group_in _ _ _ date_eqb_eq) in H; [|intros; apply version_total|intros ? ? ?; apply version_trans].
  destruct H as [I G]. split.
  - apply in_map_iff in I. destruct I as [r [<- I]]. exists r. auto.
  - intros r R E D. apply (G (Dated (e_id r) (e_date r) (e_version r) tt)); [apply in_map_iff; now exists r|]. cbn. congruence.
Qed.
Lemma temp2_has : forall (t : list (dated A)) r, In r t -> exists b, In b (temp2 t) /\ e_id b = e_id r /\ e_date b = e_date r.
Proof.
  intros t r H. destruct (group_has (fun a b : dated unit => version_le (e_version a) (e_version b)) date_eqb (fun r => (e_id r, e_date r)) date_eqb_eq
    ltac:(intros; apply version_total) ltac:(intros ? ? ?; apply version_trans) (map (fun r => Dated (e_id r) (e_date r) (e_version r) tt) t)
    (Dated (e_id r) (e_date r) (e_version r) tt)) as [b [I E]].
  - apply in_map_iff. now exists r.
  - exists b. split; [exact I|]. cbn in E. injection E as -> ->. auto.
Qed.
Lemma temp3_nodup : forall t2, NoDup (map e_id (temp3 t2)).
Proof. intros t2. apply (group_nodup _ _ _ ident_eqb_eq); [intros; apply text_total|intros ? ? ?; apply text_trans]. Qed.
Lemma temp3_in : forall t2 b, In b (temp3 t2) -> In b t2 /\ forall x, In x t2 -> e_id x = e_id b -> text_le (e_date x) (e_date b) = true.
Proof. intros t2 b H. apply (group_in _ _ _ ident_eqb_eq) in H; [exact H|intros; apply text_total|intros ? ? ?; apply text_trans]. Qed.
Lemma temp3_has : forall t2 x, In x t2 -> exists b, In b (temp3 t2) /\ e_id b = e_id x.
Proof. intros t2 x H. apply (group_has _ _ _ ident_eqb_eq); auto; [intros; apply text_total|intros ? ? ?; apply text_trans]. Qed.

Definition chosen (dt : string) table (r : dated A) : bool :=
  existsb (fun k => ident_eqb (e_id r) (e_id k) && version_eqb (e_version r) (e_version k) && (e_date r =? e_date k)%string) (temp3 (temp2 (temp dt table))).
Lemma effective_filter : forall dt table, effective dt table = filter (chosen dt table) table.
Proof.
  intros dt table. unfold effective, temp4. apply (join_select _ e_id); [apply temp3_nodup|].
  intros a b b' X Y. apply andb_true_iff in X, Y. destruct X as [X _], Y as [Y _]. apply andb_true_iff in X, Y. destruct X as [X _], Y as [Y _].
  apply ident_eqb_eq in X, Y. congruence.
Qed.
Lemma chosen_iff : forall dt table r, In r table -> chosen dt table r = true <-> in_effect dt table r.
Proof.
  intros dt table r R. unfold chosen. rewrite existsb_exists. split.
  - intros [k [K E]]. apply andb_true_iff in E. destruct E as [E D]. apply andb_true_iff in E. destruct E as [I V].
    apply ident_eqb_eq in I. apply version_eqb_eq in V. apply String.eqb_eq in D.
    apply temp3_in in K. destruct K as [K2 K3]. pose proof (temp2_in _ _ K2) as [[q [Q [Qi [Qd Qv]]]] G].
    unfold temp in Q. apply filter_In in Q. destruct Q as [Q Qt].
    split; [exact R|]. split; [congruence|]. intros r' R' E' T'.
    assert (P : In r' (temp dt table)) by (apply filter_In; auto).
    destruct (temp2_has _ _ P) as [b [B [Bi Bd]]]. split.
    + rewrite D, <- Bd. apply K3; [exact B|congruence].
    + intros Ed. rewrite V. apply G; [exact P|congruence|congruence].
  - intros [_ [T G]]. assert (P : In r (temp dt table)) by (apply filter_In; auto).
    destruct (temp2_has _ _ P) as [b [B [Bi Bd]]]. destruct (temp3_has _ _ B) as [k [K Ki]]. exists k. split; [exact K|].
    pose proof (temp3_in _ _ K) as [K2 K3]. pose proof (temp2_in _ _ K2) as [[q [Q [Qi [Qd Qv]]]] H]. unfold temp in Q. apply filter_In in Q. destruct Q as [Q Qt].
    destruct (G q Q ltac:(congruence) Qt) as [G1 G2]. assert (D : e_date r = e_date k).
    { apply text_antisym; [rewrite <- Bd; apply K3; [exact B|congruence]|congruence]. }
    assert (V : e_version r = e_version k).
    { apply version_antisym; [apply H; [exact P|congruence|exact D]|]. rewrite <- Qv. apply G2. congruence. }
    apply andb_true_iff. split; [apply andb_true_iff; split; [apply ident_eqb_eq; congruence|now apply version_eqb_eq]|now apply String.eqb_eq].
Qed.
Lemma effective_iff : forall dt table r, In r (effective dt table) <-> in_effect dt table r.
Proof.
  intros dt table r. rewrite effective_filter, filter_In. split.
  - intros [R C]. now apply chosen_iff.
  - intros H. pose proof H as [R _]. split; [exact R|now apply chosen_iff].
Qed.
Lemma effective_used_iff : forall dt used table r, In r (effective_used dt used table) <-> in_effect dt table r /\ In (e_id r, dt) used.
Proof.
  intros dt used table r. unfold effective_used. rewrite in_map_iff. split.
  - intros [[a u] [E H]]. cbn in E. subst a. apply in_merge in H. destruct H as [H [U I]]. apply effective_iff in H. split; [exact H|].
    apply filter_In in U. destruct U as [U D]. apply String.eqb_eq in D. apply ident_eqb_eq in I. destruct u; cbn in *; congruence.
  - intros [H U]. exists (r, (e_id r, dt)). split; [reflexivity|]. apply in_merge. split; [now apply effective_iff|]. split.
    + apply filter_In. split; [exact U|]. cbn. apply String.eqb_refl.
    + cbn. now apply ident_eqb_eq.
Qed.
Lemma effective_used_filter : forall dt used table, NoDup used -> exists keep, effective_used dt used table = filter keep table.
Proof.
  intros dt used table N. unfold effective_used. rewrite (join_select _ fst).
  - rewrite effective_filter. exists (fun a => chosen dt table a && existsb (fun u : ident * string => ident_eqb (e_id a) (fst u)) (filter (fun u => (snd u =? dt)%string) used)).
    generalize (chosen dt table) as f. generalize (filter (fun u => (snd u =? dt)%string) used) as u. intros u f. clear. induction table as [|a l IH]; cbn [filter]; [reflexivity|].
    destruct (f a); cbn [filter andb]; [|exact IH]. destruct (existsb _ u); [now rewrite IH|exact IH].
  - assert (E : forall u, In u (filter (fun u : ident * string => (snd u =? dt)%string) used) -> u = (fst u, dt)).
    { intros [a b] H. apply filter_In in H. destruct H as [_ H]. apply String.eqb_eq in H. cbn in *. congruence. }
    apply (NoDup_filter (fun u : ident * string => (snd u =? dt)%string)) in N. induction (filter _ used) as [|u l IH]; cbn [map]; [constructor|].
    apply NoDup_cons_iff in N. destruct N as [N1 N2]. constructor; [|apply IH; [exact N2|intros; apply E; now right]].
    intros H. apply in_map_iff in H. destruct H as [v [F V]]. apply N1. rewrite (E u (or_introl eq_refl)), <- F, <- (E v (or_intror V)). exact V.
  - intros a b b' X Y. apply ident_eqb_eq in X, Y. congruence.
Qed.

(** With times and numbers. *)
Lemma stored_in_effect : forall now (entries : list (entry A)) e, stamped now -> (forall e, In e entries -> stamped (n_time e)) -> In e entries ->
  in_effect (stamp now) (map stored entries) (stored e) <-> entry_in_effect now entries e.
Proof.
  intros now entries e N S E. unfold in_effect, entry_in_effect. cbn [stored e_id e_date e_version]. rewrite (stamp_order _ _ (S e E) N). split.
  - intros [_ [T G]]. split; [exact E|]. split; [exact T|]. intros e' E' I T'. destruct (G (stored e')) as [G1 G2].
    + apply in_map_iff. now exists e'.
    + exact I.
    + cbn [stored e_date]. now apply stamp_order; auto.
    + cbn [stored e_date e_version version_le] in G1, G2. apply stamp_order in G1; auto. destruct (Z.eq_dec (moment (n_time e')) (moment (n_time e))) as [M|M]; [|lia]. right. split; [exact M|].
      apply Z.leb_le, G2. apply (f_equal stamp). apply moment_inj; [apply (S e' E')|apply (S e E)|exact M].
  - intros [_ [T G]]. split; [apply in_map_iff; now exists e|]. split; [exact T|]. intros r R I Tr. apply in_map_iff in R. destruct R as [e' [<- E']]. cbn [stored e_id e_date e_version version_le] in *.
    apply stamp_order in Tr; auto. specialize (G e' E' I Tr). split.
    + apply stamp_order; auto. lia.
    + intros D. apply stamp_inj in D; auto. apply Z.leb_le. rewrite D in G. lia.
Qed.

End Effective.

(** ** Start dates *)

Section Started.
Context {A : Type}.
Variable sort : list (spell A) -> list (spell A).
Hypothesis (S : sorts sort).

Definition same_unit (a b : spell A) : bool := (s_unit a =? s_unit b)%string.
Lemma keep_last_nodup : forall l, NoDup (map s_unit (keep_last same_unit l)).
Proof.
  intros l. unfold keep_last. rewrite map_rev. apply NoDup_rev. apply FOP_NoDup_map. eapply FOP_impl; [|apply drop_duplicates_distinct].
  intros a b E. unfold same_unit in E. now apply String.eqb_neq.
Qed.
Lemma drop_first : forall (l : list (spell A)) a, In a (drop_duplicates same_unit l) -> exists l1 l2, l = l1 ++ a :: l2 /\ forall b, In b l1 -> s_unit b <> s_unit a.
Proof.
  intros l. induction l as [|x l IH]; intros a H; [destruct H|]. cbn in H. destruct H as [->|H].
  - exists [], l. split; [reflexivity|]. intros b [].
  - apply filter_In in H. destruct H as [H N]. destruct (IH a H) as [l1 [l2 [-> G]]]. exists (x :: l1), l2. split; [reflexivity|].
    intros b [<-|B]; [|auto]. apply negb_true_iff in N. unfold same_unit in N. now apply String.eqb_neq in N.
Qed.
Lemma keep_last_in : forall l a, In a (keep_last same_unit l) -> exists l1 l2, l = l1 ++ a :: l2 /\ forall b, In b l2 -> s_unit b <> s_unit a.
Proof.
  intros l a H. unfold keep_last in H. apply in_rev in H. apply drop_first in H. destruct H as [l1 [l2 [E G]]]. exists (rev l2), (rev l1). split.
  - rewrite <- (rev_involutive l), E, rev_app_distr. cbn. now rewrite <- app_assoc.
  - intros b B. apply G. now apply in_rev.
Qed.
Lemma keep_last_has : forall l a, In a l -> exists b, In b (keep_last same_unit l) /\ s_unit b = s_unit a.
Proof.
  intros l a H. apply in_rev in H. destruct (drop_duplicates_repr same_unit (rev l) a) as [b [B E]].
  - unfold same_unit. intros x y E z F. apply String.eqb_eq in E, F. apply String.eqb_eq. congruence.
  - intros x. apply String.eqb_refl.
  - unfold same_unit. intros x y E. apply String.eqb_eq in E. apply String.eqb_eq. auto.
  - exact H.
  - exists b. split; [unfold keep_last; now apply -> in_rev|]. now apply String.eqb_eq.
Qed.
Lemma sorted_after : forall (le : spell A -> spell A -> Prop) l1 a l2, StronglySorted le (l1 ++ a :: l2) -> forall b, In b l1 -> le b a.
Proof.
  intros le l1 a l2. induction l1 as [|x l1 IH]; intros H b B; [destruct B|]. cbn in H. apply StronglySorted_inv in H. destruct H as [H F].
  destruct B as [<-|B]; [|now apply IH]. rewrite Forall_forall in F. apply F. apply in_elt.
Qed.
Lemma started_in : forall dt table r, In r (started sort dt table) -> last_started dt table r.
Proof.
  intros dt table r H. unfold started in H. destruct (S (filter (fun r => text_le (s_start r) dt) table)) as [P O]. apply keep_last_in in H.
  destruct H as [l1 [l2 [E G]]].
  assert (M : forall x, In x (l1 ++ r :: l2) <-> In x table /\ text_le (s_start x) dt = true).
  { intros x. rewrite <- E. rewrite <- (filter_In (fun r => text_le (s_start r) dt)). split; intros X; [eapply Permutation_in; [apply Permutation_sym; exact P|exact X]|eapply Permutation_in; eauto]. }
  destruct (proj1 (M r) (in_elt r l1 l2)) as [I T]. split; [exact I|]. split; [exact T|]. intros r' I' U T'.
  assert (X : In r' (l1 ++ r :: l2)) by (apply M; auto). apply in_app_iff in X. destruct X as [X|[<-|X]].
  - rewrite E in O. exact (sorted_after _ _ _ _ O r' X).
  - apply text_refl.
  - exfalso. exact (G r' X U).
Qed.
Lemma started_nodup : forall dt table, NoDup (map s_unit (started sort dt table)).
Proof. intros dt table. apply keep_last_nodup. Qed.
Lemma started_has : forall dt table r, In r table -> text_le (s_start r) dt = true -> exists r', In r' (started sort dt table) /\ s_unit r' = s_unit r.
Proof.
  intros dt table r I T. apply keep_last_has. destruct (S (filter (fun r => text_le (s_start r) dt) table)) as [P _].
  eapply Permutation_in; [exact P|]. now apply filter_In.
Qed.
Lemma started_iff : forall dt table r, NoDup (map (fun r => (s_unit r, s_start r)) table) -> In r (started sort dt table) <-> last_started dt table r.
Proof.
  intros dt table r N. split; [apply started_in|]. intros [I [T G]]. destruct (started_has dt table r I T) as [r' [I' U]].
  pose proof (started_in _ _ _ I') as [J [T' G']]. assert (E : s_start r = s_start r').
  { apply text_antisym; [apply G'; auto|apply G; auto]. }
  enough (r = r') by congruence. clear - N I J U E. induction table as [|x l IH]; [destruct I|]. cbn in N. apply NoDup_cons_iff in N. destruct N as [N1 N2].
  destruct I as [->|I], J as [->|J]; auto.
  - exfalso. apply N1. apply in_map_iff. exists r'. split; [congruence|exact J].
  - exfalso. apply N1. apply in_map_iff. exists r. split; [congruence|exact I].
Qed.
End Started.

(** ** Days *)

Lemma shifted_market : forall t, dispatch_time t -> shifted_date t = market_date t.
Proof.
  intros t [[V [H [M S]]] [_ [F Z]]]. unfold shifted_date, market_date.
  destruct (Z.ltb_spec (3600 * t_hour t + 60 * t_min t + t_sec t) (4 * 3600 + 1)), (Z.ltb_spec (60 * t_hour t + t_min t) (60 * 4 + 5)); auto; exfalso; lia.
Qed.

(** ** Generic constraints *)

Lemma matches_eq : forall A (r : dated A) d, matches r d = true <-> e_id r = [i_con d] /\ e_date r = i_date d /\ e_version r = i_version d.
Proof. intros A r d. unfold matches. rewrite !andb_true_iff, ident_eqb_eq, String.eqb_eq, version_eqb_eq. tauto. Qed.
Lemma matched_iff : forall A dt dispatch (table : list (dated A)) r, In r (matched dt dispatch table) <->
  In r table /\ exists d, In d dispatch /\ i_time d = dt /\ e_id r = [i_con d] /\ e_date r = i_date d /\ e_version r = i_version d.
Proof.
  intros A dt dispatch table r. unfold matched. rewrite in_map_iff. split.
  - intros [[a d] [E H]]. cbn in E. subst a. apply in_merge in H. destruct H as [R [D M]]. split; [exact R|]. exists d. apply filter_In in D. destruct D as [D T].
    apply String.eqb_eq in T. apply matches_eq in M. auto.
  - intros [R [d [D [T M]]]]. exists (r, d). split; [reflexivity|]. apply in_merge. split; [exact R|]. split; [apply filter_In; split; [exact D|now apply String.eqb_eq]|].
    now apply matches_eq.
Qed.
Lemma matched_filter : forall A dt dispatch (table : list (dated A)), NoDup (map (fun d => (i_time d, i_con d)) dispatch) -> exists keep, matched dt dispatch table = filter keep table.
Proof.
  intros A dt dispatch table N. unfold matched. rewrite (join_select _ i_con); [eexists; reflexivity| |].
  - assert (E : forall d, In d (filter (fun d => (i_time d =? dt)%string) dispatch) -> i_time d = dt).
    { intros d H. apply filter_In in H. now apply String.eqb_eq. }
    assert (N' : NoDup (map (fun d => (i_time d, i_con d)) (filter (fun d => (i_time d =? dt)%string) dispatch))).
    { clear E. induction dispatch as [|d l IH]; cbn in *; [constructor|]. apply NoDup_cons_iff in N. destruct N as [N1 N2].
      destruct (i_time d =? dt)%string; [|auto]. cbn. constructor; [|auto]. intros H. apply N1. apply in_map_iff in H. destruct H as [x [Ex X]]. apply filter_In in X.
      apply in_map_iff. exists x. tauto. }
    induction (filter _ dispatch) as [|d l IH]; cbn in *; [constructor|]. apply NoDup_cons_iff in N'. destruct N' as [N1 N2]. constructor; [|apply IH; auto].
    intros H. apply in_map_iff in H. destruct H as [x [Ex X]]. apply N1. apply in_map_iff. exists x. rewrite Ex, (E x), (E d); auto.
  - intros a b b' X Y. apply matches_eq in X, Y. destruct X as [X _], Y as [Y _]. congruence.
Qed.

(** ** Tables by time *)

Lemma by_time_iff : forall (A : Type) t (table : list (datetime * A)), stamped t -> (forall r, In r table -> stamped (fst r)) -> forall r, In r table ->
  (In (stamp (fst r), snd r) (by_time (stamp t) (map (fun r => (stamp (fst r), snd r)) table)) <-> fst r = t).
Proof.
  intros A t table T S r R. unfold by_time. rewrite filter_In. cbn [fst]. rewrite String.eqb_eq. split.
  - intros [_ E]. exact (stamp_inj _ _ (S r R) T E).
  - intros E. split; [|now rewrite E]. apply in_map_iff. exists r. auto.
Qed.
Lemma midnight_stamped : forall t, dispatch_time t -> (d_year (t_date t) <= 9999)%Z -> stamped (DateTime (market_date t) 0 0 0).
Proof.
  intros t T Y. assert (V : valid_date (market_date t)) by (apply market_valid; apply T). split; [split; [exact V|cbn; lia]|]. cbn.
  unfold market_date. destruct (_ <? _)%Z; [|exact Y]. unfold prev_day. destruct (_ <? _)%Z; [exact Y|]. destruct (_ <? _)%Z; cbn; lia.
Qed.
Lemma by_day_iff : forall (A : Type) t (table : list (datetime * A)), dispatch_time t -> (d_year (t_date t) <= 9999)%Z ->
  (forall r, In r table -> stamped (fst r)) -> forall r, In r table ->
  (In (stamp (fst r), snd r) (by_day t (map (fun r => (stamp (fst r), snd r)) table)) <-> fst r = DateTime (market_date t) 0 0 0).
Proof.
  intros A t table T Y S r R. unfold by_day. rewrite shifted_market by exact T. apply by_time_iff; auto. now apply midnight_stamped.
Qed.

Lemma StronglySorted_spell : forall (A : Type) (l : list (spell A)), StronglySorted (fun a b => text_le (s_start a) (s_start b) = true) (sort_rows (fun a b => text_le (s_start a) (s_start b)) l).
Proof.
  intros A l. unfold sort_rows. induction l as [|x l IH]; cbn [fold_right]; [constructor|]. induction IH as [|y r S IHr F]; cbn [insert_sorted].
  - constructor; [constructor|constructor].
  - destruct (text_le (s_start x) (s_start y)) eqn:L.
    + constructor; [constructor; auto|]. constructor; [exact L|]. apply Forall_forall. intros z Z. rewrite Forall_forall in F. eapply text_trans; [exact L|auto].
    + assert (M : text_le (s_start y) (s_start x) = true) by (destruct (text_total (s_start x) (s_start y)); congruence).
      constructor; [exact IHr|]. clear IHr. apply Forall_forall. intros z Z.
      assert (P : z = x \/ In z r).
      { clear - Z. induction r as [|w r IH]; cbn in Z; [destruct Z as [<-|[]]; auto|]. destruct (text_le (s_start x) (s_start w)).
        - destruct Z as [<-|Z]; [auto|right; exact Z].
        - destruct Z as [<-|Z]; [right; now left|]. destruct (IH Z) as [->|I]; [auto|right; now right]. }
      rewrite Forall_forall in F. destruct P as [->|P]; auto.
Qed.
