(** C98: a term of type G in front of a group adds its factor times the value of the
    group. *)

From Coq Require Import QArith Qabs String List Bool Lqa Lia.
Import ListNotations.
From Verif Require Import PandasModel RhsModel SpecRhs RhsFacts RpnFacts GroupFacts HeadFacts PropRhs.
Open Scope string_scope.
Open Scope list_scope.

(** It does if the term does not carry the id of the group.  Missing for the full
    claim: terms that carry it, for which it is false. *)
Theorem C98_without_id_partial :
  forall root d st c head g ts x, dget c (s_rhs st) = Some (head :: ts) -> factor head -> ts <> [] ->
  (forall t, In t ts -> summand (Some g) t) -> total st ts x ->
  exists q, snd (compute_rhs root d st c) = Done q /\ q == t_mult head * x.
Proof. exact unnamed_head. Qed.
Print Assumptions C98_without_id_partial.

(** A term in front that carries the id adds nothing, whatever the factor and the
    members of the group are. *)
Theorem C98_with_id_lost :
  forall root d st c head g ts q, dget c (s_rhs st) = Some (head :: ts) -> t_type head = "G" ->
  (forall t, In t (head :: ts) -> t_group t = Some g) -> snd (compute_rhs root d st c) = Done q -> q = 0.
Proof. exact headed_lost. Qed.
Print Assumptions C98_with_id_lost.

(** 2 * (5 + 7) in both forms. *)
Definition hd_members : list term := [rx_term "C" "Constant" 5 (Some "1"); rx_term "C" "Constant" 7 (Some "1")].
Definition hd_store : store :=
  Store [] [] [] [] [] [] [("PLAIN", rx_term "G" "Group" 2 None :: hd_members); ("NAMED", rx_term "G" "Group" 2 (Some "1") :: hd_members)].
Lemma hd_total : exists x, total hd_store hd_members x /\ x == 12.
Proof.
  assert (K : forall m g st, amount st (rx_term "C" "Constant" m g) m).
  { intros m g st. right. split; [|split; [cbn; intuition discriminate|reflexivity]].
    intros v [[H _]|[[H _]|[[H _]|[[H _]|[H _]]]]]; try discriminate. cbn in H. intuition discriminate. }
  eexists. split; [eapply total_cons; [apply K|]; eapply total_cons; [apply K|]; apply total_nil|]. vm_compute. reflexivity.
Qed.
Example C98_case :
  dget "PLAIN" (s_rhs hd_store) = Some (rx_term "G" "Group" 2 None :: hd_members) /\ factor (rx_term "G" "Group" 2 None) /\ hd_members <> []
  /\ (forall t, In t hd_members -> summand (Some "1") t) /\ (exists x, total hd_store hd_members x /\ x == 12)
  /\ (exists q, snd (compute_rhs Qabs 100 hd_store "PLAIN") = Done q /\ q == 24)
  /\ dget "NAMED" (s_rhs hd_store) = Some (rx_term "G" "Group" 2 (Some "1") :: hd_members)
  /\ (forall t, In t (rx_term "G" "Group" 2 (Some "1") :: hd_members) -> t_group t = Some "1")
  /\ snd (compute_rhs Qabs 100 hd_store "NAMED") = Done 0.
Proof.
  split; [reflexivity|]. split; [repeat split|]. split; [discriminate|].
  split; [intros t [<-|[<-|[]]]; (split; [reflexivity|]; split; [reflexivity|]; unfold simple_type; cbn; intuition discriminate)|].
  split; [exact hd_total|]. split; [eexists; split; [vm_compute; reflexivity|vm_compute; reflexivity]|].
  split; [reflexivity|]. split; [intros t [<-|[<-|[<-|[]]]]; reflexivity|]. vm_compute. reflexivity.
Qed.

Theorem C98_refuted :
  exists st c head g ts x q, dget c (s_rhs st) = Some (head :: ts) /\ t_type head = "G" /\ t_op head = None /\ t_group head = Some g
    /\ (forall t, In t ts -> summand (Some g) t) /\ total st ts x
    /\ snd (compute_rhs Qabs 100 st c) = Done q /\ ~ q == t_mult head * x.
Proof.
  destruct hd_total as [x [T E]]. exists hd_store, "NAMED", (rx_term "G" "Group" 2 (Some "1")), "1", hd_members, x, 0.
  destruct C98_case as [_ [_ [_ [S [_ [_ [D [_ V]]]]]]]].
  split; [exact D|]. split; [reflexivity|]. split; [reflexivity|]. split; [reflexivity|]. split; [exact S|]. split; [exact T|]. split; [exact V|].
  cbn [t_mult rx_term]. lra.
Qed.
Print Assumptions C98_refuted.

(** Between other terms of a sum such a group is left out as well, so the equation is
    the sum of the other terms. *)
Theorem C98_left_out :
  forall root d st c ts0 head g ts ts1 x y z, dget c (s_rhs st) = Some (ts0 ++ head :: ts ++ ts1) -> t_type head = "G" -> t_op head = None ->
  t_group head = Some g -> ts <> [] -> (forall t, In t ts -> summand (Some g) t) -> (forall t, In t ts0 -> summand None t) -> (forall t, In t ts1 -> summand None t) ->
  total st ts0 x -> total st ts y -> total st ts1 z -> exists q, snd (compute_rhs root d st c) = Done q /\ q == x + z.
Proof. exact lost_between. Qed.
Print Assumptions C98_left_out.

(** 100 + 2 * (5 + 7) + 3 is 103. *)
Definition hd_sum : store :=
  Store [] [] [] [] [] [] [("SUM", [rx_term "C" "Constant" 100 None] ++ rx_term "G" "Group" 2 (Some "1") :: hd_members ++ [rx_term "C" "Constant" 3 None])].
Example C98_left_out_case :
  dget "SUM" (s_rhs hd_sum) = Some ([rx_term "C" "Constant" 100 None] ++ rx_term "G" "Group" 2 (Some "1") :: hd_members ++ [rx_term "C" "Constant" 3 None])
  /\ hd_members <> [] /\ (forall t, In t hd_members -> summand (Some "1") t) /\ (forall t, In t [rx_term "C" "Constant" 100 None] -> summand None t)
  /\ (forall t, In t [rx_term "C" "Constant" 3 None] -> summand None t)
  /\ total hd_sum [rx_term "C" "Constant" 100 None] (100 + 0) /\ total hd_sum hd_members (5 + (7 + 0)) /\ total hd_sum [rx_term "C" "Constant" 3 None] (3 + 0)
  /\ exists q, snd (compute_rhs Qabs 100 hd_sum "SUM") = Done q /\ q == 103.
Proof.
  assert (K : forall m g st, amount st (rx_term "C" "Constant" m g) m).
  { intros m g st. right. split; [|split; [cbn; intuition discriminate|reflexivity]].
    intros v [[H _]|[[H _]|[[H _]|[[H _]|[H _]]]]]; try discriminate. cbn in H. intuition discriminate. }
  assert (S : forall m g, summand g (rx_term "C" "Constant" m g)) by (intros m g; split; [reflexivity|]; split; [reflexivity|]; unfold simple_type; cbn; intuition discriminate).
  split; [reflexivity|]. split; [discriminate|]. split; [intros t [<-|[<-|[]]]; apply S|]. split; [intros t [<-|[]]; apply S|]. split; [intros t [<-|[]]; apply S|].
  split; [apply total_cons; [apply K|apply total_nil]|]. split; [apply total_cons; [apply K|]; apply total_cons; [apply K|apply total_nil]|].
  split; [apply total_cons; [apply K|apply total_nil]|]. eexists; split; vm_compute; reflexivity.
Qed.
