(** Deciding whether two lists of calls keep the order within each group, for the
    examples. *)

From Coq Require Import QArith String List Bool Arith.
Import ListNotations.
From Verif Require Import PandasModel TablesModel MarketModel SpecHistory SpecOrder OrderFacts.
Open Scope string_scope.
Open Scope list_scope.

Lemma nothing_about k ops : ~ In k (flat_map touches ops) -> filter (about k) ops = [].
Proof.
  intros H. induction ops as [|o t IH]; [reflexivity|]. cbn [filter flat_map] in *. destruct (about k o) eqn:E.
  - apply about_in in E. exfalso. apply H, in_or_app. now left.
  - apply IH. intros Hk. apply H, in_or_app. now right.
Qed.
Lemma same_order_ok ops ops' : Forall (fun k => filter (about k) ops = filter (about k) ops') (flat_map touches ops ++ flat_map touches ops') ->
  same_order ops ops'.
Proof.
  intros H k. destruct (in_dec string_dec k (flat_map touches ops ++ flat_map touches ops')) as [Hk|Hk].
  - rewrite Forall_forall in H. now apply H.
  - rewrite !nothing_about; [reflexivity|intros X; apply Hk, in_or_app; auto..].
Qed.

Fixpoint acceptedb (ops : list op) (m : market) : bool :=
  match ops with
  | [] => true
  | o :: t => match step o m with (m', None) => acceptedb t m' | _ => false end
  end.
Lemma acceptedb_ok ops : forall m, acceptedb ops m = true -> accepted ops m.
Proof.
  induction ops as [|o t IH]; intros m H; [exact I|]. cbn [acceptedb] in H. unfold accepted. cbn [along].
  destruct (step o m) as [m' [e|]]; [discriminate H|]. split; [reflexivity|]. now apply IH.
Qed.
