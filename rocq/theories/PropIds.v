(** C01, C02: ids never collide. *)

From Coq Require Import QArith String List Bool Arith Lia.
Import ListNotations.
From Verif Require Import PandasModel TablesModel MarketModel SpecIds Fixtures
  PandasFacts StepFacts InvariantFacts OwnerFacts.
Open Scope string_scope.
Open Scope list_scope.

Theorem C01_variable_ids_never_collide :
  forall c m0 ops,
    new_market c = Ok m0 ->
    NoDup (variable_ids (run ops m0))
    /\ forall i, In i (variable_ids (run ops m0)) -> (i < m_nv (run ops m0))%nat.
Proof. exact run_variable_ids. Qed.
Print Assumptions C01_variable_ids_never_collide.

Example C01_case :
  exists m0, new_market fx_config = Ok m0
    /\ length (variable_ids (run fx_ops m0)) = 22%nat
    /\ m_nv (run fx_ops m0) = 22%nat.
Proof. eexists. split; [reflexivity|]. vm_compute. auto. Qed.

(** C02 holds for histories without an empty generic constraint table.  Missing:
    after such a table the next id is not a number, see [C02_refuted]. *)
Theorem C02_constraint_ids_never_collide_partial :
  forall c m0 ops,
    new_market c = Ok m0 -> no_empty_generic ops ->
    NoDup (constraint_ids (run ops m0))
    /\ exists n, m_nc (run ops m0) = Some n
         /\ forall i, In i (constraint_ids (run ops m0)) -> (i < n)%nat.
Proof. exact run_constraint_ids. Qed.
Print Assumptions C02_constraint_ids_never_collide_partial.

Example C02_case :
  exists m0, new_market fx_config = Ok m0 /\ no_empty_generic fx_ops
    /\ length (constraint_ids (run fx_ops m0)) = 9%nat
    /\ m_nc (run fx_ops m0) = Some 11%nat.
Proof.
  eexists. split; [reflexivity|]. split.
  - intros l v H. unfold fx_ops in H. repeat (destruct H as [H|H]; [try discriminate H; inversion H; discriminate|]).
    destruct H.
  - vm_compute. auto.
Qed.

(** An empty generic constraint table, which is accepted, leaves a market without
    a usable next constraint id. *)
Theorem C02_refuted :
  exists c m0 ops,
    new_market c = Ok m0 /\ (forall o m, In o ops -> snd (step o m) = None)
    /\ constraint_ids (run ops m0) = [] /\ m_nc (run ops m0) = None.
Proof.
  exists fx_config. eexists. exists [OpGeneric [] None].
  split; [reflexivity|]. split; [|vm_compute; auto].
  intros o m [<-|[]]. unfold step, set_generic. cbn. destruct (m_nc m); reflexivity.
Qed.
Print Assumptions C02_refuted.
