(** C90: the cost that dispatch records is settled by the calls. *)

From Coq Require Import QArith Lqa String List Bool Arith Permutation.
Import ListNotations.
From Verif Require Import PandasModel TablesModel MarketModel SolverModel DispatchModel SpecLp SpecHistory SpecDispatch SpecDual SpecSolver SpecElastic
  SpecOrder SpecExact SpecShuffle Fixtures CheckFacts CheckOrderFacts CheckLpFacts CheckPricingFacts CheckDualFacts CheckDispatchFacts DualFacts LossTheoremFacts
  SettledFacts PropDispatch.
Open Scope string_scope.
Open Scope list_scope.

(** Whatever solver is used, the recorded objective of a market is the same. *)
Theorem C90_any_solver :
  forall c m s s' a a' old old' new new', reached c m -> sound s -> sound s' ->
    dispatch_market s a m old = (new, None) -> dispatch_market s' a' m old' = (new', None) ->
    exists o o', d_objective new = Some o /\ d_objective new' = Some o' /\ o == o'.
Proof. exact settled_market. Qed.
Print Assumptions C90_any_solver.

(** Nor does it depend on the order of the rows and of the calls.  If the cheapest dispatch is
    unique, the same dispatch is recorded. *)
Theorem C90_any_order :
  forall c c' m0 m0' ops ops' s s' a a' old old' new,
    new_market c = Ok m0 -> new_market c' = Ok m0' -> sane ops m0 -> sane ops' m0' -> accepted ops m0 -> accepted ops' m0' ->
    one_each ops -> (forall o, In o ops -> cost_arg o = None /\ in_scope_losses c ops o) -> same_units c c' -> same_calls ops ops' ->
    sound s -> dispatch_market s a (run ops m0) old = (new, None) ->
    forall new', sound s' -> dispatch_market s' a' (run ops' m0') old' = (new', None) ->
    (exists o o', d_objective new = Some o /\ d_objective new' = Some o' /\ o == o')
    /\ ((forall p y z, assemble (run ops m0) = Ok p -> optimal p y -> optimal p z -> same_dispatch (run ops m0) y (run ops m0) z) ->
        exists x x', d_value new = Some x /\ d_value new' = Some x' /\ same_dispatch (run ops m0) x (run ops' m0') x').
Proof. exact settled. Qed.
Print Assumptions C90_any_order.

(** And where one of them was dispatched, a solver that misses no optimum finds one for the other. *)
Theorem C90_found_in_any_order :
  forall c c' m0 m0' ops ops' s s' a old new,
    new_market c = Ok m0 -> new_market c' = Ok m0' -> sane ops m0 -> sane ops' m0' -> accepted ops m0 -> accepted ops' m0' ->
    one_each ops -> (forall o, In o ops -> cost_arg o = None /\ in_scope_losses c ops o) -> same_units c c' -> same_calls ops ops' ->
    sound s -> dispatch_market s a (run ops m0) old = (new, None) ->
    forall p', assemble (run ops' m0') = Ok p' -> complete_at s' p' -> sv_mip s' p' <> None.
Proof. exact settled_found. Qed.
Print Assumptions C90_found_in_any_order.

(** Two units with the same price and a unit offering reserve.  The solvers prefer different
    units; the cost is the same.  With different prices the dispatch is the same as well. *)
Definition se_ui : list unit_info_row := [UnitInfo "A" "NSW" "generator" 1; UnitInfo "B" "NSW" "generator" 1].
Definition se_config : config := Config ["NSW"] se_ui 5.
Definition se_other : config := Config ["NSW"] (rev se_ui) 5.
Definition se_bids (a b r : Q) : list bid_row :=
  [BidRow "A" "energy" "generator" (fun _ => a); BidRow "B" "energy" "generator" (fun _ => b); BidRow "A" "raise_6s" "generator" (fun _ => r)].
Definition se_needs : list op := [OpDemand [Demand "NSW" 60] None; OpFcasReq [FcasReq "R6" "NSW" "raise_6s" 5 "="] None].
Definition se_ops (b : Q) : list op := OpVolumeBids (BidTable ["1"] (se_bids 40 40 10)) :: OpPriceBids (BidTable ["1"] (se_bids 30 b 2)) :: se_needs.
Definition se_turned (b : Q) : list op :=
  OpVolumeBids (BidTable ["1"] (rev (se_bids 40 40 10))) :: OpPriceBids (BidTable ["1"] (se_bids 30 b 2)) :: rev se_needs.
Definition se_start : market := final se_config [].
Definition se_start' : market := final se_other [].
Definition se_build (m : market) : problem := match assemble m with Ok p => p | Err _ => Problem [] [] [] [] [] end.
Definition se_tie : problem := Eval vm_compute in se_build (final se_config (se_ops 30)).
Definition se_tie' : problem := Eval vm_compute in se_build (final se_other (se_turned 30)).
Definition se_one : problem := Eval vm_compute in se_build (final se_config (se_ops 50)).
Definition se_one' : problem := Eval vm_compute in se_build (final se_other (se_turned 50)).
Definition se_first : nat -> Q := values [40; 5; 20].
Definition se_second : nat -> Q := values [5; 20; 40].
Definition se_third : nat -> Q := values [5; 40; 20].
Definition se_solver : solver :=
  table_solver [(se_tie, se_first); (se_one, se_first)] [(se_tie, (se_first, values [30; 2])); (se_one, (se_first, values [50; 2]))] by_distance.
Definition se_solver' : solver :=
  table_solver [(se_tie', se_second); (se_one', se_third)] [(se_tie', (se_second, values [2; 30])); (se_one', (se_third, values [2; 50]))] by_distance.
Lemma se_shadow : shadow_prices se_tie se_first (values [30; 2]) /\ shadow_prices se_one se_first (values [50; 2]).
Proof.
  split; (apply shadowb_ok; [vm_compute; reflexivity|]); [unfold se_tie|unfold se_one]; unfold se_first; no_cheaper.
Qed.
Lemma se_shadow' : shadow_prices se_tie' se_second (values [2; 30]) /\ shadow_prices se_one' se_third (values [2; 50]).
Proof.
  split; (apply shadowb_ok; [vm_compute; reflexivity|]); [unfold se_tie', se_second|unfold se_one', se_third]; no_cheaper.
Qed.
Lemma se_sound : sound se_solver /\ sound se_solver'.
Proof.
  destruct se_shadow as [T O], se_shadow' as [T' O']. split; (apply table_sound; [exact by_distance_sorts| |]).
  - intros p x [E|[E|[]]]; injection E as <- <-; [exact (shadow_optimal _ _ _ T)|exact (shadow_optimal _ _ _ O)].
  - intros q y pi [E|[E|[]]]; injection E as <- <- <-; assumption.
  - intros p x [E|[E|[]]]; injection E as <- <-; [exact (shadow_optimal _ _ _ T')|exact (shadow_optimal _ _ _ O')].
  - intros q y pi [E|[E|[]]]; injection E as <- <- <-; assumption.
Qed.

Lemma se_dearest y : optimal se_one y -> y 0%nat == 40 /\ y 1%nat == 5 /\ y 2%nat == 20.
Proof.
  intros [[B [C _]] L]. assert (F : feasible se_one se_first) by (apply feasibleb_ok; vm_compute; reflexivity).
  specialize (L _ F). pose proof (B _ (or_introl eq_refl)) as B0.
  pose proof (C _ (or_introl eq_refl)) as C0. pose proof (C _ (or_intror (or_introl eq_refl))) as C1.
  unfold objective, se_one, se_first in L. unfold in_bounds in B0. unfold con_holds, relation in C0, C1.
  cbn -[Qmult Qplus Qle Qeq values] in *. unfold values in L. cbn [nth] in L.
  destruct C0 as [[N _]|[[N _]|[_ C0]]]; try discriminate N. destruct C1 as [[N _]|[[N _]|[_ C1]]]; try discriminate N.
  split; [lra|split; lra].
Qed.
Lemma se_unique p y z : assemble (run (se_ops 50) se_start) = Ok p -> optimal p y -> optimal p z ->
  same_dispatch (run (se_ops 50) se_start) y (run (se_ops 50) se_start) z.
Proof.
  intros A. assert (E : assemble (run (se_ops 50) se_start) = Ok se_one) by (vm_compute; reflexivity). rewrite E in A. injection A as <-.
  intros Hy Hz. destruct (se_dearest y Hy) as [Y0 [Y1 Y2]], (se_dearest z Hz) as [Z0 [Z1 Z2]].
  assert (G : forall v, In v (rows_or_nil (m_bids (run (se_ops 50) se_start))) -> y (bv_id v) == z (bv_id v)).
  { intros v Hv. assert (I : In (bv_id v) (map bv_id (rows_or_nil (m_bids (run (se_ops 50) se_start))))) by now apply in_map.
    replace (map bv_id _) with [0; 1; 2]%nat in I by (vm_compute; reflexivity).
    destruct I as [<-|[<-|[<-|[]]]]; [rewrite Y0, Z0|rewrite Y1, Z1|rewrite Y2, Z2]; reflexivity. }
  split; [|split].
  - intros u s d b. apply band_agree. exact G.
  - intros i l. unfold link_flow. replace (rows_or_nil (m_inter (run (se_ops 50) se_start))) with (@nil intervar) by (vm_compute; reflexivity). reflexivity.
  - intros i l. unfold link_loss. replace (rows_or_nil (m_loss (run (se_ops 50) se_start))) with (@nil lossvar) by (vm_compute; reflexivity). reflexivity.
Qed.

Definition se_meets (b : Q) : Prop :=
  new_market se_config = Ok se_start /\ new_market se_other = Ok se_start' /\ sane (se_ops b) se_start /\ sane (se_turned b) se_start'
  /\ accepted (se_ops b) se_start /\ accepted (se_turned b) se_start' /\ one_each (se_ops b)
  /\ (forall o, In o (se_ops b) -> cost_arg o = None /\ in_scope_losses se_config (se_ops b) o)
  /\ same_units se_config se_other /\ same_calls (se_ops b) (se_turned b) /\ sound se_solver /\ sound se_solver'.
Lemma se_scope b o : In o (se_ops b) -> cost_arg o = None /\ in_scope_losses se_config (se_ops b) o.
Proof.
  intros [<-|[<-|[<-|[<-|[]]]]]; (split; [reflexivity|]); cbn [in_scope_losses]; (split; [reflexivity|]); cbn [in_scope]; try exact I.
  - intros d []. - intros r [<-|[]]. discriminate.
Qed.
Lemma se_same b : same_calls (se_ops b) (se_turned b).
Proof.
  exists (OpVolumeBids (BidTable ["1"] (se_bids 40 40 10)) :: OpPriceBids (BidTable ["1"] (se_bids 30 b 2)) :: rev se_needs). split.
  - do 2 apply perm_skip. apply Permutation_rev.
  - constructor; [split; [apply Permutation_rev|reflexivity]|]. constructor; [split; reflexivity|].
    constructor; [|constructor; [split; reflexivity|constructor]]. split; [|split; reflexivity]. intros r q [<-|[]] [<-|[]] _. now split.
Qed.
Lemma se_all : se_meets 30 /\ se_meets 50.
Proof.
  split; (split; [vm_compute; reflexivity|]; split; [vm_compute; reflexivity|]; split; [apply saneb_ok; vm_compute; reflexivity|];
    split; [apply saneb_ok; vm_compute; reflexivity|]; split; [apply acceptedb_ok; vm_compute; reflexivity|];
    split; [apply acceptedb_ok; vm_compute; reflexivity|]; split;
    [|split; [exact (se_scope _)|]; split; [split; [apply Permutation_rev|reflexivity]|]; split; [apply se_same|exact se_sound]]);
    unfold one_each; match goal with |- NoDup ?l => replace l with (nodup string_dec l) by (vm_compute; reflexivity) end; apply NoDup_nodup.
Qed.

Example C90_case :
  (se_meets 30 /\ exists new new',
      dispatch_market se_solver no_limits (run (se_ops 30) se_start) nothing = (new, None)
      /\ dispatch_market se_solver' no_limits (run (se_turned 30) se_start') nothing = (new', None)
      /\ d_objective new = Some 1810 /\ d_objective new' = Some 1810
      /\ ~ same_dispatch (run (se_ops 30) se_start) se_first (run (se_turned 30) se_start') se_second)
  /\ (se_meets 50
      /\ (forall p y z, assemble (run (se_ops 50) se_start) = Ok p -> optimal p y -> optimal p z ->
            same_dispatch (run (se_ops 50) se_start) y (run (se_ops 50) se_start) z)
      /\ assemble (run (se_turned 50) se_start') = Ok se_one' /\ complete_at se_solver' se_one'
      /\ exists new new',
      dispatch_market se_solver no_limits (run (se_ops 50) se_start) nothing = (new, None)
      /\ dispatch_market se_solver' no_limits (run (se_turned 50) se_start') nothing = (new', None)
      /\ d_objective new = Some 2210 /\ d_objective new' = Some 2210).
Proof.
  destruct se_all as [T O]. split.
  - split; [exact T|]. eexists. eexists. split; [vm_compute; reflexivity|]. split; [vm_compute; reflexivity|].
    split; [vm_compute; reflexivity|]. split; [vm_compute; reflexivity|]. intros [E _]. specialize (E "A" "energy" "generator" "1"). revert E. vm_compute. discriminate.
  - split; [exact O|]. split; [exact se_unique|]. split; [vm_compute; reflexivity|]. split.
    { intros N. exfalso. revert N. vm_compute. discriminate. }
    eexists. eexists. split; [vm_compute; reflexivity|]. split; [vm_compute; reflexivity|]. split; vm_compute; reflexivity.
Qed.
