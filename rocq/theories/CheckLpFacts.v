(** Tools for concrete optimal solutions and concrete priced markets. *)

From Coq Require Import QArith Lqa String List Bool Arith.
Import ListNotations.
From Verif Require Import PandasModel TablesModel MarketModel SolverModel SpecLp SpecHistory SpecPrices CheckFacts.
Open Scope string_scope.
Open Scope list_scope.

Lemma all_of_cons {A} (P : A -> Prop) a t : (forall v, In v (a :: t) -> P v) -> P a /\ (forall v, In v t -> P v).
Proof. intros H. split; [apply H; now left|]. intros v Hv. apply H. now right. Qed.

(** [B : forall v, In v (concrete list) -> ...]: one hypothesis per element. *)
Ltac split_all B := repeat (apply all_of_cons in B; let H := fresh B in destruct B as [H B]).

(** A relation with a concrete type. *)
Ltac clean_relations :=
  repeat match goal with
  | H : relation _ _ _ |- _ => unfold relation in H; destruct H as [[? H]|[[? H]|[? H]]]; try discriminate
  end.

(** Proof that no feasible point of a concrete problem has a smaller objective. *)
Ltac no_better :=
  let y := fresh "y" in let B := fresh "B" in let K := fresh "K" in
  intros y [B [K _]]; cbn [p_vars p_cons] in B, K; unfold objective, linear; cbn [p_obj];
  split_all B; split_all K; unfold in_bounds in *; unfold con_holds in *;
  cbn [pv_id pv_lb pv_ub pc_type pc_terms pc_rhs linear rhs_value] in *; clean_relations;
  unfold values; cbn -[Qmult Qplus Qle]; try lra.

Definition pricedb (c : config) (pre mid post : list op) (tv tp : bid_table) : bool :=
  match new_market c with
  | Err _ => false
  | Ok m0 =>
    saneb (pre ++ OpVolumeBids tv :: mid ++ OpPriceBids tp :: post) m0
    && match snd (step (OpVolumeBids tv) (run pre m0)) with None => true | Some _ => false end
    && match snd (step (OpPriceBids tp) (run (pre ++ OpVolumeBids tv :: mid) m0)) with None => true | Some _ => false end
    && leavesb "bids" mid && leavesb "bids" post && leavesb "prices" post
  end.
Lemma pricedb_ok c pre mid post tv tp : pricedb c pre mid post tv tp = true ->
  priced c tv tp (final c (pre ++ OpVolumeBids tv :: mid ++ OpPriceBids tp :: post)).
Proof.
  unfold pricedb, final, priced. destruct (new_market c) as [m0|]; [|discriminate]. intros H.
  rewrite !andb_true_iff in H. destruct H as [[[[[H1 H2] H3] H4] H5] H6].
  exists m0, pre, mid, post. split; [reflexivity|]. split; [now apply saneb_ok|].
  destruct (snd (step (OpVolumeBids tv) _)); [discriminate|]. destruct (snd (step (OpPriceBids tp) _)); [discriminate|].
  repeat split; auto; now apply leavesb_ok.
Qed.
