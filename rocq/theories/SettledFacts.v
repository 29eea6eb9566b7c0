(** What dispatch records does not depend on the solver or on the order of rows and calls. *)

From Coq Require Import QArith Lqa String List Bool.
Import ListNotations.
From Verif Require Import PandasModel TablesModel MarketModel SolverModel DispatchModel SpecLp SpecHistory SpecDispatch SpecDual SpecSolver SpecElastic
  SpecOrder SpecExact SpecShuffle DispatchFacts MixedFacts ShuffleFacts.
Open Scope string_scope.
Open Scope list_scope.

Lemma records c s a m old new : reached c m -> sound s -> dispatch_market s a m old = (new, None) ->
  exists p x, assemble m = Ok p /\ optimal p x /\ d_value new = Some x /\ exists o, d_objective new = Some o /\ o == objective p x.
Proof.
  intros R S D. destruct (dispatch_records c s a m old new R S D) as [p [x [y [pi [q [A [O [V [Ob _]]]]]]]]]. exists p, x. auto.
Qed.

Lemma least_unique p x y : optimal p x -> optimal p y -> objective p x == objective p y.
Proof. intros [Fx Ox] [Fy Oy]. apply Qle_antisym; auto. Qed.

Lemma settled_market c m s s' a a' old old' new new' : reached c m -> sound s -> sound s' ->
  dispatch_market s a m old = (new, None) -> dispatch_market s' a' m old' = (new', None) ->
  exists o o', d_objective new = Some o /\ d_objective new' = Some o' /\ o == o'.
Proof.
  intros R S S' D D'. destruct (records c s a m old new R S D) as [p [x [A [O [_ [o [E1 E2]]]]]]].
  destruct (records c s' a' m old' new' R S' D') as [p' [x' [A' [O' [_ [o' [E1' E2']]]]]]].
  rewrite A in A'. injection A' as <-. exists o, o'. split; [exact E1|]. split; [exact E1'|]. rewrite E2, E2'. now apply least_unique.
Qed.

Section Two.
Variables (c c' : config) (m0 m0' : market) (ops ops' : list op) (s s' : solver) (a a' : dispatch_args) (old old' new : recorded).
Hypothesis H0 : new_market c = Ok m0.
Hypothesis H0' : new_market c' = Ok m0'.
Hypothesis Hs : sane ops m0.
Hypothesis Hs' : sane ops' m0'.
Hypothesis Ha : accepted ops m0.
Hypothesis Ha' : accepted ops' m0'.
Hypothesis H1 : one_each ops.
Hypothesis Hp : forall o, In o ops -> cost_arg o = None /\ in_scope_losses c ops o.
Hypothesis HU : same_units c c'.
Hypothesis HS : same_calls ops ops'.
Hypothesis S : sound s.
Hypothesis D : dispatch_market s a (run ops m0) old = (new, None).

Lemma settled new' : sound s' -> dispatch_market s' a' (run ops' m0') old' = (new', None) ->
  (exists o o', d_objective new = Some o /\ d_objective new' = Some o' /\ o == o')
  /\ ((forall p y z, assemble (run ops m0) = Ok p -> optimal p y -> optimal p z -> same_dispatch (run ops m0) y (run ops m0) z) ->
      exists x x', d_value new = Some x /\ d_value new' = Some x' /\ same_dispatch (run ops m0) x (run ops' m0') x').
Proof.
  intros S' D'. destruct (records c s a _ old new (hist_reached c m0 ops H0 Hs) S D) as [p [x [A [O [V [o [E1 E2]]]]]]].
  destruct (records c' s' a' _ old' new' (hist_reached c' m0' ops' H0' Hs') S' D') as [p' [x' [A' [O' [V' [o' [E1' E2']]]]]]].
  destruct (shuffled_optimum c' c m0' m0 ops' ops p' p x' H0' H0 Hs' Hs Ha' Ha (one_each_same _ _ HS H1) (scope_same _ _ _ _ HU HS Hp)
    (same_units_sym _ _ HU) (same_calls_sym _ _ HS) A' A O') as [y [Oy [Sy Ey]]].
  split.
  - exists o, o'. split; [exact E1|]. split; [exact E1'|]. rewrite E2, E2', Ey. now apply least_unique.
  - intros U. exists x, x'. split; [exact V|]. split; [exact V'|]. destruct (U p x y A O Oy) as [U1 [U2 U3]], Sy as [S1 [S2 S3]].
    split; [|split]; intros; [rewrite U1|rewrite U2|rewrite U3]; symmetry; auto.
Qed.

Lemma settled_found p' : assemble (run ops' m0') = Ok p' -> complete_at s' p' -> sv_mip s' p' <> None.
Proof.
  intros A' C N. destruct (records c s a _ old new (hist_reached c m0 ops H0 Hs) S D) as [p [x [A [O _]]]].
  destruct (shuffled_optimum c c' m0 m0' ops ops' p p' x H0 H0' Hs Hs' Ha Ha' H1 Hp HU HS A A' O) as [y [Oy _]].
  apply (C N). now exists y.
Qed.
End Two.
