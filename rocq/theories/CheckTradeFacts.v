(** Deciding the hypotheses of the trade theorems for concrete markets. *)

From Coq Require Import QArith String List Bool Arith.
Import ListNotations.
From Verif Require Import PandasModel TablesModel MarketModel SolverModel SpecLp SpecNetwork SpecElastic SpecDual SpecTrade CheckFacts CheckDualFacts.
Open Scope string_scope.
Open Scope list_scope.

(** [x] with other values for the variables [ids]. *)
Definition instead (ids : list nat) (f x : assignment) : assignment := fun n => if existsb (Nat.eqb n) ids then f n else x n.

Definition only_groupb (m : market) (group : string -> bool) (ids : list nat) : bool :=
  forallb (fun i => existsb (fun v => Nat.eqb (bv_id v) i) (rows_or_nil (m_bids m))) ids
  && forallb (fun v => group (bv_unit v) || negb (existsb (Nat.eqb (bv_id v)) ids)) (rows_or_nil (m_bids m)).
Lemma only_groupb_ok m group ids f x : only_groupb m group ids = true -> only_group m group x (instead ids f x).
Proof.
  unfold only_groupb. rewrite andb_true_iff, !forallb_forall. intros [H1 H2]. split.
  - intros v Hv G. specialize (H2 v Hv). rewrite G in H2. cbn in H2. apply negb_true_iff in H2. unfold instead. rewrite H2. reflexivity.
  - intros n N. unfold instead. destruct (existsb (Nat.eqb n) ids) eqn:E; [exfalso|reflexivity].
    apply existsb_exists in E. destruct E as [i [Hi E]]. apply Nat.eqb_eq in E. subst i. specialize (H1 n Hi).
    apply existsb_exists in H1. destruct H1 as [v [Hv E]]. apply Nat.eqb_eq in E. exact (N v Hv E).
Qed.

Lemma rest_met m q pi y rs ss : forallb (fun c => existsb (fun r => balance_conb m r c) rs || existsb (fun s => set_conb m s c) ss || metb pi y c) (p_cons q) = true ->
  forall con, In con (p_cons q) -> (forall r, ~ balance_con m r con) -> (forall s, ~ set_con m s con) -> met_or_free pi y con.
Proof.
  rewrite forallb_forall. intros H con Hc N1 N2. specialize (H con Hc). rewrite !orb_true_iff in H.
  destruct H as [[H|H]|H]; [| |now apply metb_ok]; apply existsb_exists in H; destruct H as [r [_ H]].
  - destruct (N1 r). now apply balance_conb_ok.
  - destruct (N2 r). now apply set_conb_ok.
Qed.

Definition all_presentb (m : market) (p : problem) : bool :=
  forallb (fun kr => forallb (fun row => existsb (fun con => Nat.eqb (pc_id con) (cr_id row)) (p_cons p)) (snd kr)) (m_mrhs m).
Lemma all_presentb_ok m p : all_presentb m p = true -> forall k rows, In (k, rows) (m_mrhs m) -> all_present p rows.
Proof.
  unfold all_presentb. rewrite forallb_forall. intros H k rows Hk row Hr. specialize (H _ Hk). cbn [snd] in H. rewrite forallb_forall in H.
  specialize (H row Hr). apply existsb_exists in H. destruct H as [con [Hc E]]. apply Nat.eqb_eq in E. eauto.
Qed.

Lemma idle_ok m group y : forallb (fun w => negb (group (bv_unit w)) || Qeq_bool (y (bv_id w)) 0) (rows_or_nil (m_bids m)) = true ->
  forall w, In w (rows_or_nil (m_bids m)) -> group (bv_unit w) = true -> y (bv_id w) == 0.
Proof.
  rewrite forallb_forall. intros H w Hw G. specialize (H w Hw). rewrite G in H. cbn in H. now apply Qeq_bool_iff.
Qed.
