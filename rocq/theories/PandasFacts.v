(** Lemmas about the table operations. *)

From Coq Require Import QArith String List Bool Arith Lia Permutation Lqa.
Import ListNotations.
From Verif Require Import PandasModel.
Open Scope list_scope.

(** ** Sums *)

Definition sumQ {A : Type} (f : A -> Q) (l : list A) : Q := qsum (map f l).

Lemma sumQ_nil {A} (f : A -> Q) : sumQ f [] = 0.
Proof. reflexivity. Qed.

Lemma sumQ_cons {A} (f : A -> Q) a l : sumQ f (a :: l) = f a + sumQ f l.
Proof. reflexivity. Qed.

Lemma sumQ_app {A} (f : A -> Q) l1 l2 : sumQ f (l1 ++ l2) == sumQ f l1 + sumQ f l2.
Proof.
  induction l1 as [|a t IH]; cbn [app]; rewrite ?sumQ_cons, ?sumQ_nil.
  - ring.
  - rewrite IH; ring.
Qed.

Lemma sumQ_ext_in {A} (f g : A -> Q) l :
  (forall a, In a l -> f a == g a) -> sumQ f l == sumQ g l.
Proof.
  induction l as [|a t IH]; intros H.
  - reflexivity.
  - rewrite !sumQ_cons, IH by (intros; apply H; now right).
    rewrite (H a) by now left. reflexivity.
Qed.

Lemma sumQ_ext {A} (f g : A -> Q) l : (forall a, f a == g a) -> sumQ f l == sumQ g l.
Proof. intros H; apply sumQ_ext_in; auto. Qed.

Lemma sumQ_zero {A} (f : A -> Q) l : (forall a, In a l -> f a == 0) -> sumQ f l == 0.
Proof.
  induction l as [|a t IH]; intros H; [reflexivity|].
  rewrite sumQ_cons, IH by (intros; apply H; now right).
  rewrite (H a) by now left. ring.
Qed.

Lemma sumQ_scale {A} (f : A -> Q) c l : sumQ (fun a => c * f a) l == c * sumQ f l.
Proof.
  induction l as [|a t IH]; rewrite ?sumQ_nil, ?sumQ_cons; [ring|]. rewrite IH; ring.
Qed.

Lemma sumQ_plus {A} (f g : A -> Q) l : sumQ (fun a => f a + g a) l == sumQ f l + sumQ g l.
Proof.
  induction l as [|a t IH]; rewrite ?sumQ_nil, ?sumQ_cons; [ring|]. rewrite IH; ring.
Qed.

Lemma sumQ_map {A B} (f : B -> Q) (g : A -> B) l : sumQ f (map g l) = sumQ (fun a => f (g a)) l.
Proof. unfold sumQ; now rewrite map_map. Qed.

Lemma sumQ_flat_map {A B} (f : B -> Q) (g : A -> list B) l :
  sumQ f (flat_map g l) == sumQ (fun a => sumQ f (g a)) l.
Proof.
  induction l as [|a t IH]; cbn [flat_map]; [reflexivity|].
  rewrite sumQ_app, sumQ_cons, IH. reflexivity.
Qed.

Lemma sumQ_filter {A} (f : A -> Q) (p : A -> bool) l :
  sumQ f (filter p l) == sumQ (fun a => if p a then f a else 0) l.
Proof.
  induction l as [|a t IH]; cbn [filter]; [reflexivity|].
  rewrite sumQ_cons. destruct (p a); rewrite ?sumQ_cons, IH; ring.
Qed.

Lemma sumQ_perm {A} (f : A -> Q) l1 l2 : Permutation l1 l2 -> sumQ f l1 == sumQ f l2.
Proof.
  induction 1; rewrite ?sumQ_cons.
  - reflexivity.
  - rewrite IHPermutation; reflexivity.
  - ring.
  - now rewrite IHPermutation1.
Qed.

Lemma sumQ_le {A} (f g : A -> Q) l :
  (forall a, In a l -> f a <= g a) -> sumQ f l <= sumQ g l.
Proof.
  induction l as [|a t IH]; intros H; [apply Qle_refl|].
  rewrite !sumQ_cons. apply Qplus_le_compat; [apply H; now left|apply IH; intros; apply H; now right].
Qed.

Lemma sumQ_nonneg {A} (f : A -> Q) l : (forall a, In a l -> 0 <= f a) -> 0 <= sumQ f l.
Proof.
  intros H. rewrite <- (sumQ_zero (fun _ : A => 0) l) by (intros; reflexivity).
  apply sumQ_le. auto.
Qed.

Lemma sumQ_const_scale {A} (c : Q) (f : A -> Q) l :
  sumQ (fun a => f a * c) l == sumQ f l * c.
Proof.
  induction l as [|a t IH]; rewrite ?sumQ_nil, ?sumQ_cons; [ring|]. rewrite IH; ring.
Qed.

(** Sum over a list without repetitions of a function that is zero except at one
    element. *)
Lemma sumQ_single {A} (f : A -> Q) (a : A) l :
  NoDup l -> In a l -> (forall b, In b l -> b <> a -> f b == 0) -> sumQ f l == f a.
Proof.
  induction l as [|b t IH]; intros ND HI H; [destruct HI|].
  rewrite sumQ_cons. inversion ND as [|? ? N1 N2]; subst.
  destruct HI as [->|HI].
  - rewrite sumQ_zero; [ring|]. intros c Hc. apply H; [now right|]. intros ->; auto.
  - rewrite IH; auto.
    + rewrite (H b); [ring|now left|]. intros ->; auto.
    + intros c Hc Hn; apply H; auto; now right.
Qed.

Lemma sumQ_sub {A} (f g : A -> Q) l : sumQ (fun a => f a - g a) l == sumQ f l - sumQ g l.
Proof.
  induction l as [|a t IH]; rewrite ?sumQ_nil, ?sumQ_cons; [ring|]. rewrite IH; ring.
Qed.

(** ** merge *)

Lemma in_merge {A B} (on : A -> B -> bool) l r a b :
  In (a, b) (merge on l r) <-> In a l /\ In b r /\ on a b = true.
Proof.
  unfold merge. rewrite in_flat_map. split.
  - intros [c [Hc Hi]]. apply in_map_iff in Hi. destruct Hi as [d [E Hd]].
    inversion E; subst. apply filter_In in Hd. tauto.
  - intros [Ha [Hb Ho]]. exists a. split; auto. apply in_map. apply filter_In; auto.
Qed.

Lemma in_merge_p {A B} (on : A -> B -> bool) l r p :
  In p (merge on l r) <-> In (fst p) l /\ In (snd p) r /\ on (fst p) (snd p) = true.
Proof. destruct p; apply in_merge. Qed.

Lemma sumQ_merge {A B} (f : A * B -> Q) (on : A -> B -> bool) l r :
  sumQ f (merge on l r) == sumQ (fun a => sumQ (fun b => f (a, b)) (filter (on a) r)) l.
Proof.
  unfold merge. rewrite sumQ_flat_map. apply sumQ_ext; intros a. rewrite sumQ_map. reflexivity.
Qed.

Lemma merge_app_l {A B} (on : A -> B -> bool) l1 l2 r :
  merge on (l1 ++ l2) r = merge on l1 r ++ merge on l2 r.
Proof. apply flat_map_app. Qed.

Lemma merge_nil_r {A B} (on : A -> B -> bool) (l : list A) : merge on l (@nil B) = [].
Proof. induction l; cbn; auto. Qed.

Lemma in_merge_left {A B} (on : A -> B -> bool) l (r : list B) p :
  In p (merge_left on l r) <->
  In (fst p) l /\
  match snd p with
  | Some b => In b r /\ on (fst p) b = true
  | None => forall b, In b r -> on (fst p) b = false
  end.
Proof.
  unfold merge_left. rewrite in_flat_map. destruct p as [a o]; cbn [fst snd]. split.
  - intros [c [Hc Hi]]. destruct (filter (on c) r) as [|b t] eqn:E.
    + destruct Hi as [Hi|[]]. inversion Hi; subst. split; auto.
      intros b Hb. destruct (on a b) eqn:Ho; auto.
      assert (In b (filter (on a) r)) by (apply filter_In; auto). rewrite E in H. destruct H.
    + apply in_map_iff in Hi. destruct Hi as [d [Ed Hd]]. inversion Ed; subst.
      split; auto. rewrite <- E in Hd. apply filter_In in Hd. tauto.
  - intros [Ha H]. exists a; split; auto. destruct o as [b|].
    + destruct H as [Hb Ho]. assert (Hin : In b (filter (on a) r)) by (apply filter_In; auto).
      destruct (filter (on a) r) as [|b' t] eqn:E; [destruct Hin|].
      apply in_map_iff. exists b. auto.
    + destruct (filter (on a) r) as [|b' t] eqn:E; [now left|].
      assert (Hin : In b' (filter (on a) r)) by (rewrite E; now left).
      apply filter_In in Hin. destruct Hin as [Hb Ho]. rewrite (H b' Hb) in Ho. discriminate.
Qed.

(** ** save_index *)

Lemma save_index_nil {A} n : @save_index A n [] = [].
Proof. reflexivity. Qed.

Lemma save_index_cons {A} n (a : A) l : save_index n (a :: l) = (n, a) :: save_index (S n) l.
Proof. reflexivity. Qed.

Lemma save_index_fst {A} n (l : list A) : map fst (save_index n l) = seq n (length l).
Proof.
  revert n; induction l as [|a t IH]; intros n; [reflexivity|].
  rewrite save_index_cons. cbn. now rewrite IH.
Qed.

Lemma save_index_snd {A} n (l : list A) : map snd (save_index n l) = l.
Proof.
  revert n; induction l as [|a t IH]; intros n; [reflexivity|].
  rewrite save_index_cons. cbn. now rewrite IH.
Qed.

Lemma save_index_length {A} n (l : list A) : length (save_index n l) = length l.
Proof. rewrite <- (save_index_snd n l) at 2. now rewrite map_length. Qed.

Lemma in_save_index {A} n (l : list A) p :
  In p (save_index n l) -> (n <= fst p < n + length l)%nat /\ In (snd p) l.
Proof.
  intros H. split.
  - apply (in_map fst) in H. rewrite save_index_fst in H. apply in_seq in H. lia.
  - apply (in_map snd) in H. now rewrite save_index_snd in H.
Qed.

Lemma save_index_in {A} n (l : list A) a : In a l -> exists i, In (i, a) (save_index n l).
Proof.
  intros H. rewrite <- (save_index_snd n l) in H. apply in_map_iff in H.
  destruct H as [[i b] [E H]]. cbn in E; subst. eauto.
Qed.

Lemma save_index_nth {A} n (l : list A) k :
  nth_error (save_index n l) k = option_map (fun a => (n + k, a)%nat) (nth_error l k).
Proof.
  revert n k; induction l as [|a t IH]; intros n k.
  - destruct k; reflexivity.
  - rewrite save_index_cons. destruct k; cbn [nth_error option_map].
    + now rewrite Nat.add_0_r.
    + rewrite IH. destruct (nth_error t k); cbn; auto. f_equal. f_equal. lia.
Qed.

Lemma save_index_NoDup {A} n (l : list A) : NoDup (save_index n l).
Proof.
  apply (NoDup_map_inv fst). rewrite save_index_fst. apply seq_NoDup.
Qed.

Lemma save_index_inj {A} n (l : list A) p q :
  In p (save_index n l) -> In q (save_index n l) -> fst p = fst q -> p = q.
Proof.
  intros Hp Hq E.
  apply In_nth_error in Hp. apply In_nth_error in Hq. destruct Hp as [i Hi], Hq as [j Hj].
  rewrite save_index_nth in Hi, Hj.
  destruct (nth_error l i) eqn:Ei; [|discriminate]. destruct (nth_error l j) eqn:Ej; [|discriminate].
  cbn in Hi, Hj. inversion Hi; subst. inversion Hj; subst. cbn in E.
  assert (i = j) by lia. subst. rewrite Ei in Ej. now inversion Ej.
Qed.

Lemma save_index_shift {A} n k (l : list A) :
  save_index (n + k) l = map (fun p => (k + fst p, snd p)%nat) (save_index n l).
Proof.
  revert n; induction l as [|a t IH]; intros n; [reflexivity|].
  rewrite !save_index_cons. cbn [map fst snd]. rewrite <- IH. f_equal. f_equal. lia.
Qed.

Lemma save_index_app {A} n (l1 l2 : list A) :
  save_index n (l1 ++ l2) = save_index n l1 ++ save_index (n + length l1) l2.
Proof.
  revert n; induction l1 as [|a t IH]; intros n; cbn [app length].
  - now rewrite Nat.add_0_r, save_index_nil.
  - rewrite !save_index_cons, IH. cbn [app]. do 3 f_equal. lia.
Qed.

(** ** next_id *)

Lemma list_max_ge l i : In i l -> (i <= list_max l)%nat.
Proof.
  intros H. assert (F : Forall (fun k => (k <= list_max l)%nat) l) by (apply list_max_le; lia).
  rewrite Forall_forall in F. auto.
Qed.

Lemma list_max_in l : l <> [] -> In (list_max l) l.
Proof.
  induction l as [|a t IH]; intros H; [congruence|]. cbn.
  destruct t as [|b t'].
  - cbn. left; lia.
  - destruct (Nat.max_spec a (list_max (b :: t'))) as [[_ E]|[_ E]]; fold (list_max (b :: t')); rewrite E.
    + right. apply IH. congruence.
    + now left.
Qed.

Lemma next_id_gt ids k i : next_id ids = Some k -> In i ids -> (i < k)%nat.
Proof.
  intros E H. apply list_max_ge in H. unfold next_id in E.
  destruct ids as [|a t]; [discriminate|]. injection E as <-. cbv [list_max fold_right] in *. lia.
Qed.

Lemma next_id_in ids k : next_id ids = Some k -> exists i, In i ids /\ k = S i.
Proof.
  unfold next_id. destruct ids as [|a t] eqn:E; [discriminate|]. intros H; inversion H; subst.
  exists (list_max (a :: t)). split; auto. apply list_max_in. congruence.
Qed.

Lemma next_id_none ids : next_id ids = None <-> ids = [].
Proof. destruct ids; cbn; split; congruence. Qed.

Lemma next_id_seq n k : next_id (seq n (S k)) = Some (n + S k)%nat.
Proof.
  destruct (next_id (seq n (S k))) as [j|] eqn:E.
  - pose proof (next_id_in _ _ E) as [i [Hi ->]]. apply in_seq in Hi.
    assert (H : In (n + k)%nat (seq n (S k))) by (apply in_seq; lia).
    pose proof (next_id_gt _ _ _ E H). f_equal. lia.
  - apply next_id_none in E. discriminate.
Qed.

(** ** drop_duplicates and keys_of *)

Lemma drop_duplicates_incl {A} (same : A -> A -> bool) l a :
  In a (drop_duplicates same l) -> In a l.
Proof.
  induction l as [|b t IH]; cbn; [auto|]. intros [->|H]; auto.
  apply filter_In in H. right; apply IH; tauto.
Qed.

Lemma drop_duplicates_distinct {A} (same : A -> A -> bool) l :
  ForallOrdPairs (fun a b => same a b = false) (drop_duplicates same l).
Proof.
  induction l as [|b t IH]; cbn; constructor.
  - apply Forall_forall. intros c Hc. apply filter_In in Hc. destruct Hc as [_ Hc].
    now apply negb_true_iff in Hc.
  - clear -IH. induction IH as [|c l H1 H2 IH]; cbn; [constructor|].
    destruct (negb (same b c)); auto. constructor; auto.
    rewrite Forall_forall in *. intros d Hd. apply filter_In in Hd. apply H1; tauto.
Qed.

Lemma drop_duplicates_repr {A} (same : A -> A -> bool) l a :
  (forall a b, same a b = true -> forall c, same b c = true -> same a c = true) ->
  (forall a, same a a = true) ->
  (forall a b, same a b = true -> same b a = true) ->
  In a l -> exists b, In b (drop_duplicates same l) /\ same b a = true.
Proof.
  intros Htr Hre Hsy. induction l as [|b t IH]; intros Ha; [destruct Ha|].
  destruct Ha as [->|Ha].
  - exists a. split; [now left|auto].
  - destruct (IH Ha) as [c [Hc1 Hc2]]. destruct (same b c) eqn:E.
    + exists b. split; [now left|]. eauto.
    + exists c. split; auto. right. apply filter_In. split; auto. now rewrite E.
Qed.

Lemma filter_length_le {A} (f : A -> bool) l : (length (filter f l) <= length l)%nat.
Proof. induction l as [|a t IH]; cbn; [lia|]. destruct (f a); cbn; lia. Qed.

Lemma drop_duplicates_length_le {A} (same : A -> A -> bool) l :
  (length (drop_duplicates same l) <= length l)%nat.
Proof.
  induction l as [|b t IH]; cbn; [lia|].
  assert (length (filter (fun b0 => negb (same b b0)) (drop_duplicates same t))
          <= length (drop_duplicates same t))%nat by apply filter_length_le. lia.
Qed.

Lemma filter_full {A} (f : A -> bool) l :
  length (filter f l) = length l -> filter f l = l.
Proof.
  induction l as [|a t IH]; cbn; auto. destruct (f a); cbn; intros H.
  - f_equal. apply IH. lia.
  - assert (length (filter f t) <= length t)%nat by apply filter_length_le. lia.
Qed.

(** A table without repeated rows is unchanged by [drop_duplicates]. *)
Lemma no_repeats_same {A} (same : A -> A -> bool) l :
  length l = length (drop_duplicates same l) -> drop_duplicates same l = l.
Proof.
  induction l as [|b t IH]; cbn; auto. intros H.
  pose proof (drop_duplicates_length_le same t).
  assert (length (filter (fun b0 => negb (same b b0)) (drop_duplicates same t))
          <= length (drop_duplicates same t))%nat by apply filter_length_le.
  f_equal. rewrite filter_full by lia. apply IH. lia.
Qed.

Lemma no_repeats_distinct {A} (same : A -> A -> bool) l :
  length l = length (drop_duplicates same l) ->
  ForallOrdPairs (fun a b => same a b = false) l.
Proof.
  intros H. rewrite <- (no_repeats_same same l H). apply drop_duplicates_distinct.
Qed.

Lemma distinct_no_repeats {A} (same : A -> A -> bool) l :
  ForallOrdPairs (fun a b => same a b = false) l ->
  drop_duplicates same l = l.
Proof.
  induction 1 as [|a l H1 H2 IH]; cbn; auto. rewrite IH. f_equal.
  rewrite Forall_forall in H1. clear -H1. induction l as [|b t IHt]; cbn; auto.
  rewrite (H1 b) by now left. cbn. f_equal. apply IHt. intros; apply H1; now right.
Qed.

Lemma FOP_filter {A} (R : A -> A -> Prop) (f : A -> bool) l :
  ForallOrdPairs R l -> ForallOrdPairs R (filter f l).
Proof.
  induction 1 as [|a l H1 H2 IH]; cbn; [constructor|].
  destruct (f a); auto. constructor; auto. rewrite Forall_forall in *.
  intros b Hb. apply filter_In in Hb. apply H1; tauto.
Qed.

Lemma FOP_map {A B} (R : B -> B -> Prop) (f : A -> B) l :
  ForallOrdPairs (fun a b => R (f a) (f b)) l -> ForallOrdPairs R (map f l).
Proof.
  induction 1 as [|a l H1 H2 IH]; cbn; constructor; auto.
  apply Forall_map. auto.
Qed.

Lemma FOP_NoDup_map {A B} (f : A -> B) l :
  ForallOrdPairs (fun a b => f a <> f b) l -> NoDup (map f l).
Proof.
  induction 1 as [|a l H1 H2 IH]; cbn; constructor; auto.
  rewrite in_map_iff. intros [b [E Hb]]. rewrite Forall_forall in H1. apply (H1 b Hb). auto.
Qed.

Lemma FOP_impl {A} (R S : A -> A -> Prop) l :
  (forall a b, R a b -> S a b) -> ForallOrdPairs R l -> ForallOrdPairs S l.
Proof.
  intros H. induction 1 as [|a l H1 H2 IH]; constructor; auto.
  eapply Forall_impl; [|exact H1]. auto.
Qed.

(** In a table without repeated keys, two rows with the same key are the same. *)
Lemma FOP_unique {A} (same : A -> A -> bool) l a b :
  ForallOrdPairs (fun a b => same a b = false) l ->
  (forall a b, same a b = same b a) ->
  In a l -> In b l -> same a b = true -> a = b.
Proof.
  intros H Hs Ha Hb E. induction H as [|c l H1 H2 IH]; [destruct Ha|].
  rewrite Forall_forall in H1. destruct Ha as [->|Ha], Hb as [->|Hb]; auto.
  - rewrite (H1 _ Hb) in E. discriminate.
  - rewrite Hs, (H1 _ Ha) in E. discriminate.
Qed.

Lemma keys_of_drop {K} (keq : K -> K -> bool) l : keys_of keq l = drop_duplicates keq l.
Proof. reflexivity. Qed.

Lemma keys_of_in_nat l i : In i (keys_of Nat.eqb l) <-> In i l.
Proof.
  rewrite keys_of_drop. split; [apply drop_duplicates_incl|]. intros H.
  destruct (drop_duplicates_repr Nat.eqb l i) as [b [Hb E]]; auto.
  - intros a b E c E2. apply Nat.eqb_eq in E, E2. subst. apply Nat.eqb_refl.
  - intros a. apply Nat.eqb_refl.
  - intros a b E. apply Nat.eqb_eq in E. subst. apply Nat.eqb_refl.
  - apply Nat.eqb_eq in E. now subst.
Qed.

Lemma keys_of_NoDup_nat l : NoDup (keys_of Nat.eqb l).
Proof.
  rewrite keys_of_drop, <- (map_id (drop_duplicates Nat.eqb l)).
  apply FOP_NoDup_map. eapply FOP_impl; [|apply drop_duplicates_distinct].
  cbn. intros a b E. apply Nat.eqb_neq in E. auto.
Qed.

(** ** groupby_sum *)

Lemma groupby_sum_total {A K} (keq : K -> K -> bool) (key : A -> K) (val : A -> Q) (w : K -> Q) l :
  (forall a b, keq a b = true <-> a = b) ->
  sumQ (fun p => w (fst p) * snd p) (groupby_sum keq key val l)
  == sumQ (fun a => w (key a) * val a) l.
Proof.
  intros Hk. unfold groupby_sum. rewrite sumQ_map. cbn [fst snd].
  assert (Hr : forall a, keq a a = true) by (intros; now apply Hk).
  induction l as [|a t IH]; [reflexivity|].
  cbn [map]. rewrite keys_of_drop. cbn [drop_duplicates]. rewrite sumQ_cons, sumQ_cons.
  rewrite <- keys_of_drop.
  set (ks := keys_of keq (map key t)) in *.
  cbn [filter]. rewrite Hr. cbn [map qsum fold_right].
  change (fold_right Qplus 0 (map val ?l)) with (sumQ val l).
  transitivity (w (key a) * val a
     + (w (key a) * sumQ val (filter (fun b => keq (key b) (key a)) t)
        + sumQ (fun k => w k * qsum (map val (filter (fun a0 => keq (key a0) k) t)))
               (filter (fun b => negb (keq (key a) b)) ks))).
  { rewrite Qplus_assoc. apply Qplus_comp; [ring|].
    apply sumQ_ext_in. intros k Hin. apply filter_In in Hin. destruct Hin as [_ Hin].
    destruct (keq (key a) k); [discriminate|]. reflexivity. }
  apply Qplus_comp; [reflexivity|].
  transitivity (sumQ (fun k => w k * qsum (map val (filter (fun a0 => keq (key a0) k) t))) ks); [|exact IH].
  assert (Hd : NoDup ks).
  { unfold ks. rewrite keys_of_drop, <- (map_id (drop_duplicates _ _)).
    apply FOP_NoDup_map. eapply FOP_impl; [|apply drop_duplicates_distinct].
    cbn. intros c d E ->. rewrite Hr in E. discriminate. }
  assert (Hin : forall b, In b t -> In (key b) ks).
  { intros b Hb. unfold ks. rewrite keys_of_drop.
    destruct (drop_duplicates_repr keq (map key t) (key b)) as [c [Hc E]].
    - intros x y E1 z E2. apply Hk in E1, E2. subst. auto.
    - auto.
    - intros x y E. apply Hk in E. subst. auto.
    - now apply in_map.
    - apply Hk in E. now subst. }
  clear IH. clearbody ks.
  (* split ks into the key of a and the rest *)
  assert (S1 : sumQ (fun k => w k * qsum (map val (filter (fun a0 => keq (key a0) k) t))) ks
     == sumQ (fun k => if keq (key a) k then w k * sumQ val (filter (fun a0 => keq (key a0) k) t) else 0) ks
        + sumQ (fun k => w k * qsum (map val (filter (fun a0 => keq (key a0) k) t)))
            (filter (fun b => negb (keq (key a) b)) ks)).
  { rewrite sumQ_filter, <- sumQ_plus. apply sumQ_ext. intros k. unfold sumQ.
    destruct (keq (key a) k); cbn [negb]; ring. }
  rewrite S1. apply Qplus_comp; [|reflexivity].
  destruct (existsb (keq (key a)) ks) eqn:Ex.
  - apply existsb_exists in Ex. destruct Ex as [k [Hkin E]]. apply Hk in E. subst k.
    rewrite (sumQ_single _ (key a)); auto.
    + rewrite Hr. reflexivity.
    + intros b Hb Hn. destruct (keq (key a) b) eqn:E; [|reflexivity]. apply Hk in E. congruence.
  - rewrite (sumQ_zero (fun k => if keq (key a) k then _ else 0)).
    + rewrite (sumQ_zero val); [ring|].
      intros b Hb. apply filter_In in Hb. destruct Hb as [Hb E]. apply Hk in E.
      assert (existsb (keq (key a)) ks = true).
      { apply existsb_exists. exists (key b). split; auto. rewrite E. auto. }
      congruence.
    + intros k Hkin. destruct (keq (key a) k) eqn:E; [|reflexivity].
      assert (existsb (keq (key a)) ks = true) by (apply existsb_exists; eauto). congruence.
Qed.

(** ** sort_rows *)

Lemma insert_sorted_perm {A} (le : A -> A -> bool) a l : Permutation (a :: l) (insert_sorted le a l).
Proof.
  induction l as [|b t IH]; cbn; auto. destruct (le a b); auto.
  eapply perm_trans; [apply perm_swap|]. now apply perm_skip.
Qed.

Lemma sort_rows_perm {A} (le : A -> A -> bool) l : Permutation l (sort_rows le l).
Proof.
  induction l as [|a t IH]; cbn; auto.
  eapply perm_trans; [|apply insert_sorted_perm]. now apply perm_skip.
Qed.

Lemma sort_rows_in {A} (le : A -> A -> bool) l a : In a (sort_rows le l) <-> In a l.
Proof.
  split; apply Permutation_in; [apply Permutation_sym|]; apply sort_rows_perm.
Qed.

(** ** Dictionaries *)

Lemma dget_dset_same {A} k (v : A) d : dget k (dset k v d) = Some v.
Proof.
  induction d as [|[k' v'] t IH]; cbn.
  - now rewrite String.eqb_refl.
  - destruct (String.eqb k k') eqn:E; cbn; rewrite ?String.eqb_refl, ?E; auto.
Qed.

Lemma dget_dset_other {A} k k' (v : A) d : k <> k' -> dget k (dset k' v d) = dget k d.
Proof.
  intros H. assert (E0 : String.eqb k k' = false) by now apply String.eqb_neq.
  induction d as [|[k2 v2] t IH]; cbn.
  - now rewrite E0.
  - destruct (String.eqb k' k2) eqn:E; cbn.
    + apply String.eqb_eq in E. subst. now rewrite E0.
    + destruct (String.eqb k k2); auto.
Qed.

Lemma dget_ddel_other {A} k k' (d : dict A) : k <> k' -> dget k (ddel k' d) = dget k d.
Proof.
  intros H. induction d as [|[k2 v2] t IH]; cbn; auto.
  destruct (String.eqb k' k2) eqn:E; cbn.
  - apply String.eqb_eq in E. subst. destruct (String.eqb k k2) eqn:E2; auto.
    apply String.eqb_eq in E2. congruence.
  - destruct (String.eqb k k2); auto.
Qed.

Definition dkeys {A} (d : dict A) : list string := map fst d.

Lemma dset_keys {A} k (v : A) d k' : In k' (dkeys (dset k v d)) <-> k' = k \/ In k' (dkeys d).
Proof.
  unfold dkeys. induction d as [|[k2 v2] t IH]; cbn.
  - intuition.
  - destruct (String.eqb k k2) eqn:E; cbn.
    + apply String.eqb_eq in E; subst. intuition.
    + rewrite IH. intuition.
Qed.

Lemma dset_NoDup {A} k (v : A) d : NoDup (dkeys d) -> NoDup (dkeys (dset k v d)).
Proof.
  unfold dkeys. induction d as [|[k2 v2] t IH]; cbn; intros H.
  - constructor; auto.
  - inversion H as [|? ? H1 H2]; subst. destruct (String.eqb k k2) eqn:E; cbn.
    + apply String.eqb_eq in E; subst. now constructor.
    + constructor; auto. intros Hin. apply (dset_keys k v t k2) in Hin.
      destruct Hin as [->|Hin]; auto. rewrite String.eqb_refl in E. discriminate.
Qed.

Lemma ddel_keys {A} k (d : dict A) k' : In k' (dkeys (ddel k d)) -> In k' (dkeys d).
Proof.
  unfold dkeys. induction d as [|[k2 v2] t IH]; cbn; auto.
  destruct (String.eqb k k2); cbn; auto. intuition.
Qed.

Lemma ddel_NoDup {A} k (d : dict A) : NoDup (dkeys d) -> NoDup (dkeys (ddel k d)).
Proof.
  unfold dkeys. induction d as [|[k2 v2] t IH]; cbn; intros H; auto.
  inversion H as [|? ? H1 H2]; subst. destruct (String.eqb k k2); cbn; auto.
  constructor; auto. intros Hin. apply H1. now apply (ddel_keys k t k2).
Qed.

Lemma dget_in {A} k (d : dict A) v : dget k d = Some v -> In (k, v) d.
Proof.
  induction d as [|[k2 v2] t IH]; cbn; [discriminate|].
  destruct (String.eqb k k2) eqn:E; intros H.
  - inversion H; subst. apply String.eqb_eq in E; subst. now left.
  - right; auto.
Qed.

Lemma in_dget {A} k (d : dict A) v : NoDup (dkeys d) -> In (k, v) d -> dget k d = Some v.
Proof.
  unfold dkeys. induction d as [|[k2 v2] t IH]; cbn; intros ND H; [destruct H|].
  inversion ND as [|? ? N1 N2]; subst. destruct H as [H|H].
  - inversion H; subst. now rewrite String.eqb_refl.
  - destruct (String.eqb k k2) eqn:E; auto. apply String.eqb_eq in E; subst.
    exfalso. apply N1. change k2 with (fst (k2, v)). now apply in_map.
Qed.

Lemma ddel_gone {A} k (d : dict A) : NoDup (dkeys d) -> dget k (ddel k d) = None.
Proof.
  unfold dkeys. induction d as [|[k2 v2] t IH]; cbn; intros ND; auto.
  inversion ND as [|? ? N1 N2]; subst. destruct (String.eqb k k2) eqn:E; cbn.
  - apply String.eqb_eq in E; subst. destruct (dget k2 t) eqn:G; auto.
    apply dget_in in G. exfalso. apply N1. change k2 with (fst (k2, a)). now apply in_map.
  - rewrite E; auto.
Qed.

Lemma in_dset {A} k (v : A) d k' v' :
  In (k', v') (dset k v d) -> (k' = k /\ v' = v) \/ In (k', v') d.
Proof.
  induction d as [|[k2 v2] t IH]; cbn.
  - intros [H|[]]; inversion H; auto.
  - destruct (String.eqb k k2) eqn:E; cbn; intros [H|H].
    + inversion H; auto.
    + auto.
    + inversion H; auto.
    + destruct (IH H); auto.
Qed.

Lemma in_ddel {A} k (d : dict A) p : In p (ddel k d) -> In p d.
Proof.
  induction d as [|[k2 v2] t IH]; cbn; auto.
  destruct (String.eqb k k2); cbn; auto. intuition.
Qed.

Lemma in_dconcat {A} (d : dict (list A)) a :
  In a (dconcat d) <-> exists k l, In (k, l) d /\ In a l.
Proof.
  unfold dconcat. rewrite in_flat_map. split.
  - intros [[k l] [H1 H2]]. eauto.
  - intros [k [l [H1 H2]]]. exists (k, l). auto.
Qed.

Lemma mem_str_in s l : mem_str s l = true <-> In s l.
Proof.
  unfold mem_str. rewrite existsb_exists. split.
  - intros [x [H E]]. apply String.eqb_eq in E. now subst.
  - intros H. exists s. split; auto. apply String.eqb_refl.
Qed.

Lemma mem_str_not_in s l : mem_str s l = false <-> ~ In s l.
Proof.
  rewrite <- mem_str_in. destruct (mem_str s l); intuition congruence.
Qed.

Lemma NoDup_map_in {A B} (f : A -> B) l :
  (forall a b, In a l -> In b l -> f a = f b -> a = b) -> NoDup l -> NoDup (map f l).
Proof.
  induction l as [|a t IH]; intros Hi ND; cbn; [constructor|].
  inversion ND as [|? ? N1 N2]; subst. constructor.
  - intros H. apply in_map_iff in H. destruct H as [b [E Hb]].
    apply N1. rewrite (Hi a b); auto; [now left|now right].
  - apply IH; auto. intros; apply Hi; auto; now right.
Qed.
