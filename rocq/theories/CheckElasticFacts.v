(** Deciding, for concrete histories, that a call is held and that nothing it set is violated. *)

From Coq Require Import QArith String List Bool.
Import ListNotations.
From Verif Require Import PandasModel TablesModel MarketModel SpecLp SpecHistory SpecElastic CheckFacts.
Open Scope string_scope.
Open Scope list_scope.

Definition softensb (o : op) (post : list op) : bool :=
  forallb (fun k => forallb (fun o' => if mem_str k (touches o')
                                       then match o' with OpElastic k' _ => String.eqb k k' | _ => false end else true) post) (touches o).
Lemma softensb_ok o post : softensb o post = true -> softens o post.
Proof.
  unfold softensb, softens. intros H k o' Hk Ho T. rewrite forallb_forall in H. specialize (H k Hk). rewrite forallb_forall in H. specialize (H o' Ho).
  assert (E : mem_str k (touches o') = true). { apply existsb_exists. exists k. split; [exact T|apply String.eqb_refl]. }
  rewrite E in H. destruct o'; try discriminate H. apply String.eqb_eq in H. subst. eexists. reflexivity.
Qed.

Definition heldb (c : config) (ops : list op) (n : nat) : bool :=
  match new_market c, nth_error ops n with
  | Ok m0, Some o => saneb ops m0 && match snd (step o (run (firstn n ops) m0)) with None => softensb o (skipn (S n) ops) | Some _ => false end
  | _, _ => false
  end.
Lemma heldb_met c ops n o : nth_error ops n = Some o -> heldb c ops n = true -> held_at c o (final c (firstn n ops)) (final c ops).
Proof.
  unfold heldb, final, held_at. destruct (new_market c) as [m0|]; [|discriminate]. intros E. rewrite E. intros H.
  apply andb_true_iff in H. destruct H as [H1 H2]. exists m0, (firstn n ops), (skipn (S n) ops).
  split; [reflexivity|]. pose proof (nth_split' ops n o E) as Sp. rewrite <- Sp.
  split; [now apply saneb_ok|]. split; [reflexivity|].
  destruct (snd (step o (run (firstn n ops) m0))); [discriminate|]. split; [reflexivity|]. split; [now apply softensb_ok|reflexivity].
Qed.
Lemma heldb_ok c ops n o : nth_error ops n = Some o -> heldb c ops n = true -> held c o (final c ops).
Proof. intros E H. eexists. exact (heldb_met c ops n o E H). Qed.

Definition unviolatedb (o : op) (m : market) (x : assignment) : bool :=
  forallb (fun k => forallb (fun i => Qeq_bool (x i) 0) (violation_vars m k)) (touches o).
Lemma unviolatedb_ok o m x : unviolatedb o m x = true -> unviolated o m x.
Proof.
  unfold unviolatedb, unviolated, no_violation. intros H k Hk i Hi. rewrite forallb_forall in H. specialize (H k Hk).
  rewrite forallb_forall in H. apply Qeq_bool_iff, H, Hi.
Qed.

(** Proofs of [held], of [held_at] and of [unviolated] for the call at position [n] of a concrete history. *)
Ltac held_by n := apply (heldb_ok _ _ n); [reflexivity|vm_compute; reflexivity].
Ltac held_met n := apply (heldb_met _ _ n); [reflexivity|vm_compute; reflexivity].
Ltac clean := apply unviolatedb_ok; vm_compute; reflexivity.
