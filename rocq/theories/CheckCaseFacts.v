(** Boolean checks for the trades of a case file, used for the examples. *)

From Coq Require Import QArith String List Bool.
Import ListNotations.
From Verif Require Import PandasModel OffersModel XmlModel SpecXml SpecUnitData SpecCase CaseFacts.
Open Scope string_scope.
Open Scope list_scope.

Definition market_at (p : elem * elem) : option string := match attr "TradeType" (snd p) with Some s => market_of s | None => None end.
Definition side_at (p : elem * elem) : option string := match attr "Direction" (snd p) with Some s => direction_of s | None => direction_of_type (fst p) end.
Definition same_opt (a b : option string) : bool := match a, b with Some x, Some y => String.eqb x y | _, _ => false end.
Lemma same_opt_ok a b : same_opt a b = true <-> exists x, a = Some x /\ b = Some x.
Proof.
  unfold same_opt. destruct a as [x|], b as [y|]; split; try discriminate; try (intros (z & A & B); discriminate).
  - intros E. apply String.eqb_eq in E. subst. exists y. auto.
  - intros (z & A & B). injection A as ->. injection B as ->. apply String.eqb_refl.
Qed.
Lemma market_at_ok p m : of_market p m <-> market_at p = Some m.
Proof.
  unfold of_market, market_at. destruct (attr "TradeType" (snd p)) as [s|]; split; try discriminate; try (intros (t & A & B)); try congruence.
  intros E. exists s. auto.
Qed.
Lemma side_at_ok p d : on_side p d <-> side_at p = Some d.
Proof. unfold on_side, side_at. destruct (attr "Direction" (snd p)); tauto. Qed.

Definition partnerb (v p : elem * elem) : bool :=
  same_opt (attr "TraderID" (fst v)) (attr "TraderID" (fst p)) && same_opt (market_at v) (market_at p)
  && match side_at p with None => false | Some d => match attr "Direction" (snd v) with None => true | Some s => same_opt (direction_of s) (Some d) end end.
Lemma partnerb_ok v p : partnerb v p = true <-> partner v p.
Proof.
  unfold partnerb, partner, of_unit, named. rewrite !andb_true_iff, !same_opt_ok. split.
  - intros (((u & U1 & U2) & (m & M1 & M2)) & S). destruct (side_at p) as [d|] eqn:E; [|discriminate]. exists u, m, d.
    split; [exact U1|]. split; [exact U2|]. split; [now apply market_at_ok|]. split; [now apply market_at_ok|]. split; [now apply side_at_ok|].
    intros s A. rewrite A in S. apply same_opt_ok in S. destruct S as (x & S1 & S2). congruence.
  - intros (u & m & d & U1 & U2 & M1 & M2 & S & D). apply market_at_ok in M1, M2. apply side_at_ok in S. rewrite S.
    split; [split; [exists u; auto|exists m; auto]|]. destruct (attr "Direction" (snd v)) as [s|]; [|reflexivity].
    apply same_opt_ok. exists d. split; [exact (D s eq_refl)|reflexivity].
Qed.
Definition same_bidb (p q : elem * elem) : bool :=
  same_opt (attr "TraderID" (fst p)) (attr "TraderID" (fst q)) && same_opt (market_at p) (market_at q) && same_opt (side_at p) (side_at q).
Lemma same_bidb_ok p q : same_bid p q -> same_bidb p q = true.
Proof.
  unfold same_bidb, same_bid, of_unit, named. intros (u & m & d & U1 & U2 & M1 & M2 & S1 & S2). apply market_at_ok in M1, M2. apply side_at_ok in S1, S2.
  rewrite !andb_true_iff, !same_opt_ok. split; [split; [exists u; auto|exists m; auto]|exists d; auto].
Qed.

Fixpoint fopb {A} (R : A -> A -> bool) (l : list A) : bool :=
  match l with [] => true | a :: r => forallb (R a) r && fopb R r end.
Lemma fopb_ok {A} (R : A -> A -> bool) (P : A -> A -> Prop) l : (forall a b, R a b = true -> P a b) -> fopb R l = true -> ForallOrdPairs P l.
Proof.
  intros K. induction l as [|a l IH]; intros H; [constructor|]. cbn in H. apply andb_true_iff in H. destruct H as [H1 H2].
  constructor; [|exact (IH H2)]. apply Forall_forall. intros b I. apply K. rewrite forallb_forall in H1. exact (H1 b I).
Qed.

Definition matchedb (vs ps : list (elem * elem)) : bool :=
  fopb (fun p q => negb (same_bidb p q)) ps
  && fopb (fun v w => forallb (fun p => negb (partnerb v p && partnerb w p)) ps) vs
  && forallb (fun v => existsb (partnerb v) ps) vs
  && forallb (fun v => fopb (fun p q => negb (partnerb v p && partnerb v q)) ps) vs
  && forallb (fun p => existsb (fun v => partnerb v p) vs) ps.
Lemma matchedb_ok vs ps : matchedb vs ps = true -> matched vs ps.
Proof.
  unfold matchedb. rewrite !andb_true_iff, !forallb_forall. intros ((((H1 & H2) & H3) & H4) & H5).
  split; [|split; [|split; [|split]]].
  - apply (fopb_ok _ _ _) with (2 := H1). intros p q N S. apply same_bidb_ok in S. rewrite S in N. discriminate.
  - apply (fopb_ok _ _ _) with (2 := H2). intros v w N p I A B. rewrite forallb_forall in N. specialize (N p I).
    apply partnerb_ok in A. apply partnerb_ok in B. rewrite A, B in N. discriminate.
  - intros v I. specialize (H3 v I). apply existsb_exists in H3. destruct H3 as (p & Ip & P). exists p. split; [exact Ip|now apply partnerb_ok].
  - intros v p q I Ip Iq A B. specialize (H4 v I).
    assert (F : ForallOrdPairs (fun p q => ~ (partner v p /\ partner v q)) ps).
    { apply (fopb_ok _ _ _) with (2 := H4). intros x y N (C & D). apply partnerb_ok in C. apply partnerb_ok in D. rewrite C, D in N. discriminate. }
    destruct (ForallOrdPairs_In F p q Ip Iq) as [E|[E|E]]; [exact E| |]; exfalso; apply E; auto.
  - intros p I. specialize (H5 p I). apply existsb_exists in H5. destruct H5 as (v & Iv & P). exists v. split; [exact Iv|now apply partnerb_ok].
Qed.
