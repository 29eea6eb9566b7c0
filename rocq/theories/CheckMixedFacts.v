(** Deciding which groups are soft, for the examples. *)

From Coq Require Import QArith String List Bool Arith.
Import ListNotations.
From Verif Require Import PandasModel TablesModel MarketModel SpecHistory SpecElastic SpecSoft SpecExact SpecMixed PandasFacts.
Open Scope string_scope.
Open Scope list_scope.

Definition costly (ops : list op) (k : string) : bool :=
  existsb (fun o => mem_str k (touches o) && match cost_arg o with Some _ => true | None => false end) ops.
Definition present (m : market) (k : string) : bool := match group m k with Some _ => true | None => false end.
Definition soft_groupb (ops : list op) (m : market) (k : string) : bool := present m k && costly ops k.

Lemma soft_groupb_iff ops m k : soft_groupb ops m k = true <-> soft_group ops m k.
Proof.
  unfold soft_groupb, soft_group, present, costly. rewrite andb_true_iff, existsb_exists. split.
  - intros [G [o [Ho E]]]. apply andb_true_iff in E. destruct E as [Ek Ec]. split; [intros N; now rewrite N in G|].
    exists o. split; [exact Ho|]. split; [now apply mem_str_in|]. intros N. now rewrite N in Ec.
  - intros [G [o [Ho [Hk Hc]]]]. split; [destruct (group m k); [reflexivity|now destruct G]|]. exists o. split; [exact Ho|].
    apply andb_true_iff. split; [now apply mem_str_in|]. destruct (cost_arg o); [reflexivity|now destruct Hc].
Qed.

Lemma soft_groups_ok ops m ss :
  forallb (fun k => Bool.eqb (soft_groupb ops m k) (mem_str k (map so_key ss))) (flat_map touches ops ++ map so_key ss) = true ->
  soft_groups ops m ss.
Proof.
  intros H k. rewrite forallb_forall in H. rewrite <- soft_groupb_iff. split.
  - intros S. assert (Hk : In k (flat_map touches ops)).
    { apply soft_groupb_iff in S. destruct S as [_ [o [Ho [Hk _]]]]. apply in_flat_map. now exists o. }
    specialize (H k (in_or_app _ _ _ (or_introl Hk))). apply eqb_prop in H. rewrite S in H. now apply mem_str_in.
  - intros Hk. specialize (H k (in_or_app _ _ _ (or_intror Hk))). apply eqb_prop in H. rewrite H. now apply mem_str_in.
Qed.

Lemma together_ok ops m :
  forallb (fun o => forallb (soft_groupb ops m) (filter (present m) (touches o))
                    || forallb (fun k => negb (soft_groupb ops m k)) (touches o)) ops = true -> together ops m.
Proof.
  intros H o k k' Ho Hk Hk' S G. rewrite forallb_forall in H. specialize (H o Ho). apply orb_true_iff in H. apply soft_groupb_iff.
  destruct H as [H|H]; rewrite forallb_forall in H.
  - apply H, filter_In. split; [exact Hk'|]. unfold present. destruct (group m k'); [reflexivity|now destruct G].
  - specialize (H k Hk). apply negb_true_iff in H. apply soft_groupb_iff in S. rewrite S in H. discriminate H.
Qed.

Definition hardb (ops : list op) (o : op) : bool := forallb (fun k => negb (costly ops k)) (touches o).
Lemma hardb_ok ops o : hardb ops o = true -> hard ops o.
Proof.
  intros H k o' Hk Ho' Hk'. unfold hardb in H. rewrite forallb_forall in H. specialize (H k Hk). apply negb_true_iff in H.
  destruct (cost_arg o') eqn:E; [|reflexivity]. exfalso. apply Bool.not_true_iff_false in H. apply H. apply existsb_exists. exists o'.
  split; [exact Ho'|]. rewrite E. apply andb_true_iff. split; [now apply mem_str_in|reflexivity].
Qed.
Lemma hardb_not ops o k : In k (touches o) -> costly ops k = true -> ~ hard ops o.
Proof.
  intros Hk H N. apply existsb_exists in H. destruct H as [o' [Ho' E]]. apply andb_true_iff in E. destruct E as [E Ec].
  apply mem_str_in in E. rewrite (N k o' Hk Ho' E) in Ec. discriminate Ec.
Qed.
