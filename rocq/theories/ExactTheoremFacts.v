(** The problem that a history without violation costs builds admits exactly the dispatch
    that obeys its calls. *)

From Coq Require Import QArith Qminmax Lqa String List Bool Arith Lia ZArith.
Import ListNotations.
From Verif Require Import PandasModel TablesModel VariableIdsModel MarketConstraintsModel
  UnitConstraintsModel RampModel FcasModel InterModel ElasticModel MarketModel SolverModel
  SpecLp SpecHistory SpecDispatch SpecElastic SpecNetwork SpecOrder SpecExact SpecSoft SpecMixed
  StepFacts InvariantFacts PlanFacts BookFacts ExactFacts MixedFacts.
Open Scope string_scope.
Open Scope list_scope.

Definition isb := MixedFacts.isb.

Section History.
Variable c : config.
Variable m0 : market.
Variable ops : list op.
Hypothesis H0 : new_market c = Ok m0.
Hypothesis Hs : sane ops m0.
Hypothesis Ha : accepted ops m0.
Hypothesis H1 : one_each ops.
Hypothesis Hp : forall o, In o ops -> in_scope c ops o.
Let m := run ops m0.

Lemma no_elastic k v : ~ In (OpElastic k v) ops.
Proof. intros H. destruct (Hp _ H) as [E _]. discriminate E. Qed.

Lemma all_settings : settings ops = ops.
Proof.
  assert (N := no_elastic). clear -N. induction ops as [|o t IH]; [reflexivity|]. cbn [settings filter]. fold (settings t).
  rewrite IH by (intros k v H; apply (N k v); now right). destruct o; try reflexivity. exfalso. apply (N k v). now left.
Qed.

Lemma all_one_each : one_each (settings ops).
Proof. now rewrite all_settings. Qed.

Lemma all_scope o : In o ops -> cost_arg o = None -> in_scope c ops o.
Proof. auto. Qed.

Lemma all_hard o : hard ops o.
Proof. intros k o' _ Ho' _. apply (Hp o' Ho'). Qed.

Lemma hist_reached : reached c m.
Proof. exists m0, ops. auto. Qed.

Lemma one_stands o : In o ops -> stands m0 ops o.
Proof. intros Ho. apply in_ops_stands; auto; [apply all_one_each|]. intros k v He. now apply no_elastic in He. Qed.

Lemma table_network : network c (directions ops) [] [] m.
Proof. apply plain_network; auto. apply all_one_each. Qed.

Lemma bids_or_none : (exists t n, In (OpVolumeBids t) ops /\ rows_or_nil (m_bids m) = bid_variables t n
     /\ exists m', m_cfg m' = c /\ check_bids true m' t = None)
  \/ (m_bids m = None /\ forall t, ~ In (OpVolumeBids t) ops).
Proof.
  apply (MixedFacts.bids_or_none c); auto; [apply all_one_each|]. intros o Ho Co. apply scope_wide. auto.
Qed.

Lemma no_soft : soft_groups ops m [].
Proof. intros k. split; [|intros []]. intros [_ [o [Ho [_ Hc]]]]. apply Hc. apply (Hp o Ho). Qed.

Lemma no_deficits : m_deficits m = [].
Proof.
  destruct (booked c ops m0 ops H0 Hs Ha all_one_each (plain_scope c ops all_scope)) as [B [F [_ [Bk [Fl _]]]]]. fold m in Bk.
  destruct (m_deficits m) as [|[k l] t] eqn:D; [reflexivity|]. exfalso.
  destruct (bk_def _ _ _ _ Bk k l) as [k' [Hk' _]]; [rewrite D; now left|].
  destruct (Fl k' Hk') as [o [Ho [_ Hc]]]. apply Hc. apply (Hp o Ho).
Qed.

Lemma exact_region x p : assemble m = Ok p -> (feasible p x <-> forall o, In o ops -> obeys ops m x o).
Proof.
  intros A. assert (So : all_softened c m []) by (split; [constructor|intros s []]).
  assert (To : together ops m). { intros o k k' _ _ _ S _. apply no_soft in S. destruct S. }
  pose proof (mixed_region c m0 ops H0 Hs Ha all_one_each all_scope x [] p So no_soft To A) as E.
  assert (F : hard_feasible p m [] x <-> feasible p x).
  { unfold hard_feasible, feasible. cbn [is_slack existsb]. split; intros [V [K R]]; (split; [|split; [|exact R]]).
    - intros v Hv. now apply V. - intros k Hk. apply K; [exact Hk|]. intros s [].
    - intros v Hv _. now apply V. - intros k Hk _. now apply K. }
  rewrite <- F, E. unfold obeys_hard. split; intros H o Ho; [apply H; [exact Ho|apply all_hard]|intros _; now apply H].
Qed.

End History.

Lemma exact_history c m0 ops p x : new_market c = Ok m0 -> sane ops m0 -> accepted ops m0 -> one_each ops ->
  (forall o, In o ops -> in_scope c ops o) -> assemble (run ops m0) = Ok p ->
  (feasible p x <-> forall o, In o ops -> obeys ops (run ops m0) x o).
Proof. intros. now apply (exact_region c). Qed.

Lemma exact_empty c m0 ops p : new_market c = Ok m0 -> sane ops m0 -> accepted ops m0 -> one_each ops ->
  (forall o, In o ops -> in_scope c ops o) -> assemble (run ops m0) = Ok p ->
  ((exists x, feasible p x) <-> exists x, forall o, In o ops -> obeys ops (run ops m0) x o).
Proof.
  intros A B C D E F. split; intros [x H]; exists x; now apply (exact_history c m0 ops p x).
Qed.
