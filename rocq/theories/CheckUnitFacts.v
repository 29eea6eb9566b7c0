(** Checks that concrete unit inputs belong together. *)

From Coq Require Import QArith String List Bool Lia.
Import ListNotations.
From Verif Require Import PandasModel TablesModel OffersModel UnitDataModel SpecOffers SpecUnitData OffersFacts.
Open Scope string_scope.
Open Scope list_scope.

Definition belongsb (v : volume_row) (p : price_offer) : bool :=
  String.eqb (vo_duid v) (po_duid p) && String.eqb (vo_type v) (po_type p)
  && match vo_dir v with None => true | Some d => String.eqb d (po_dir p) end.

Lemma belongsb_iff v p : belongsb v p = true <-> belongs v p.
Proof.
  unfold belongsb, belongs. rewrite !andb_true_iff, !String.eqb_eq. destruct (vo_dir v) as [d|].
  - rewrite String.eqb_eq. split; [intros [[A B] C]; subst; auto|intros [A [B [C|C]]]; [discriminate|]; repeat split; congruence].
  - tauto.
Qed.

Lemma one_filter {A} (f : A -> bool) l a b : length (filter f l) = 1%nat -> In a l -> In b l -> f a = true -> f b = true -> a = b.
Proof.
  intros L Ha Hb Fa Fb. assert (X : In a (filter f l)) by (apply filter_In; auto). assert (Y : In b (filter f l)) by (apply filter_In; auto).
  destruct (filter f l) as [|x [|y t]]; cbn in *; try lia. destruct X as [X|[]], Y as [Y|[]]. congruence.
Qed.

Lemma one_exists {A} (f : A -> bool) l : length (filter f l) = 1%nat -> exists a, In a l /\ f a = true.
Proof.
  intros L. destruct (filter f l) as [|x t] eqn:E; [discriminate|]. exists x. apply filter_In. rewrite E. now left.
Qed.

Definition pairedb (i : inputs) : bool :=
  forallb (fun v => Nat.eqb (length (filter (belongsb v) (in_prices i))) 1 && Nat.eqb (length (vo_bands v)) 10) (in_volumes i)
  && forallb (fun p => Nat.eqb (length (filter (fun v => belongsb v p) (in_volumes i))) 1) (in_prices i).

Lemma pairedb_ok i : pairedb i = true -> NoDup (map (fun v => (vo_duid v, vo_dir v, vo_type v)) (in_volumes i)) -> paired i.
Proof.
  unfold pairedb. rewrite andb_true_iff, !forallb_forall. intros [V P] N.
  assert (V' : forall v, In v (in_volumes i) -> length (filter (belongsb v) (in_prices i)) = 1%nat /\ length (vo_bands v) = 10%nat).
  { intros v Hv. specialize (V v Hv). rewrite andb_true_iff, !Nat.eqb_eq in V. exact V. }
  assert (P' : forall p, In p (in_prices i) -> length (filter (fun v => belongsb v p) (in_volumes i)) = 1%nat).
  { intros p Hp. apply Nat.eqb_eq. exact (P p Hp). }
  split; [exact (NoDup_map_inv _ _ N)|]. split; [intros v Hv; apply V'; exact Hv|]. split; [|split; [|split]].
  - intros v Hv. destruct (one_exists _ _ (proj1 (V' v Hv))) as [p [Hp B]]. exists p. split; [exact Hp|now apply belongsb_iff].
  - intros v p q Hv Hp Hq B C. apply (one_filter (belongsb v) (in_prices i)); auto; [apply V'; exact Hv|now apply belongsb_iff|now apply belongsb_iff].
  - intros p Hp. destruct (one_exists _ _ (P' p Hp)) as [v [Hv B]]. exists v. split; [exact Hv|now apply belongsb_iff].
  - intros v w p Hv Hw Hp B C. apply (one_filter (fun v => belongsb v p) (in_volumes i)); auto; now apply belongsb_iff.
Qed.

Definition pricesb (i : inputs) : bool :=
  forallb (fun p => mem_str (po_dir p) ["GENERATOR"; "LOAD"] && mem_str (po_type p) ("ENERGY" :: fcas_types) && Nat.eqb (length (po_bands p)) 10) (in_prices i).

Lemma pricesb_ok i : pricesb i = true -> NoDup (map price_key (in_prices i)) -> prices_ok i.
Proof.
  unfold pricesb. rewrite forallb_forall. intros P N. split; [exact N|]. split; [|split]; intros p Hp; specialize (P p Hp);
    rewrite !andb_true_iff, !mem_str_in, Nat.eqb_eq in P; destruct P as [[A B] C]; auto. destruct A as [A|[A|[]]]; unfold direction; auto.
Qed.

Ltac distinct := repeat (constructor; [cbn; intuition discriminate|]); constructor.
