(** C99: a term of type G that belongs to no group is passed over. *)

From Coq Require Import QArith Qabs String List Bool Lqa Lia.
Import ListNotations.
From Verif Require Import PandasModel RhsModel SpecRhs RhsFacts RpnFacts GroupFacts HeadFacts LoneFacts PropRhs.
Open Scope string_scope.
Open Scope list_scope.

(** It is if another term follows.  Missing for the full claim: terms at the end, for
    which it is false. *)
Theorem C99_followed_partial :
  forall root d st c ts0 head ts1 x z, dget c (s_rhs st) = Some (ts0 ++ head :: ts1) -> factor head -> ts1 <> [] ->
  (forall t, In t ts0 -> summand None t) -> (forall t, In t ts1 -> summand None t) -> total st ts0 x -> total st ts1 z ->
  exists q, snd (compute_rhs root d st c) = Done q /\ q == x + z.
Proof. exact lone_followed. Qed.
Print Assumptions C99_followed_partial.

(** At the end of an equation it always ends the evaluation with an IndexError. *)
Theorem C99_last_fails :
  forall root d st c ts0 head x, dget c (s_rhs st) = Some (ts0 ++ [head]) -> factor head ->
  (forall t, In t ts0 -> summand None t) -> total st ts0 x -> snd (compute_rhs root d st c) = Fail RIndex.
Proof. exact lone_last. Qed.
Print Assumptions C99_last_fails.

(** 100 + 3 with a term of type G between the two and after them. *)
Definition ln_a : list term := [rx_term "C" "Constant" 100 None].
Definition ln_b : list term := [rx_term "C" "Constant" 3 None].
Definition ln_g : term := rx_term "G" "Group" 2 None.
Definition ln_store : store := Store [] [] [] [] [] [] [("BETWEEN", ln_a ++ ln_g :: ln_b); ("LAST", (ln_a ++ ln_b) ++ [ln_g])].
Example C99_case :
  dget "BETWEEN" (s_rhs ln_store) = Some (ln_a ++ ln_g :: ln_b) /\ factor ln_g /\ ln_b <> []
  /\ (forall t, In t (ln_a ++ ln_b) -> summand None t) /\ total ln_store ln_a (100 + 0) /\ total ln_store ln_b (3 + 0)
  /\ (exists q, snd (compute_rhs Qabs 100 ln_store "BETWEEN") = Done q /\ q == 103)
  /\ dget "LAST" (s_rhs ln_store) = Some ((ln_a ++ ln_b) ++ [ln_g]) /\ total ln_store (ln_a ++ ln_b) (100 + (3 + 0))
  /\ snd (compute_rhs Qabs 100 ln_store "LAST") = Fail RIndex.
Proof.
  assert (K : forall m g st, amount st (rx_term "C" "Constant" m g) m).
  { intros m g st. right. split; [|split; [cbn; intuition discriminate|reflexivity]].
    intros v [[H _]|[[H _]|[[H _]|[[H _]|[H _]]]]]; try discriminate. cbn in H. intuition discriminate. }
  split; [reflexivity|]. split; [repeat split|]. split; [discriminate|].
  split; [intros t [<-|[<-|[]]]; (split; [reflexivity|]; split; [reflexivity|]; unfold simple_type; cbn; intuition discriminate)|].
  split; [apply total_cons; [apply K|apply total_nil]|]. split; [apply total_cons; [apply K|apply total_nil]|].
  split; [eexists; split; vm_compute; reflexivity|]. split; [reflexivity|].
  split; [apply total_cons; [apply K|]; apply total_cons; [apply K|apply total_nil]|]. vm_compute. reflexivity.
Qed.

Theorem C99_refuted :
  exists st c ts0 head ts1 x z, dget c (s_rhs st) = Some (ts0 ++ head :: ts1) /\ factor head
    /\ (forall t, In t ts0 -> summand None t) /\ (forall t, In t ts1 -> summand None t) /\ total st ts0 x /\ total st ts1 z
    /\ ~ exists q, snd (compute_rhs Qabs 100 st c) = Done q /\ q == x + z.
Proof.
  destruct C99_case as [_ [F [_ [S [_ [_ [_ [D [T L]]]]]]]]].
  exists ln_store, "LAST", (ln_a ++ ln_b), ln_g, [], (100 + (3 + 0)), 0.
  split; [exact D|]. split; [exact F|]. split; [exact S|]. split; [intros ? []|]. split; [exact T|]. split; [apply total_nil|].
  intros [q [E _]]. rewrite L in E. discriminate.
Qed.
Print Assumptions C99_refuted.
