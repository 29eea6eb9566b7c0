(** Lemmas: terms of type G that belong to no group. *)

From Coq Require Import QArith Qabs String List Bool Arith Lqa Lia.
Import ListNotations.
From Verif Require Import PandasModel RhsModel SpecRhs PandasFacts RhsFacts RpnFacts GroupFacts HeadFacts.
Open Scope string_scope.
Open Scope list_scope.

Lemma lone_loop root calc ts0 h ts1 : (forall t, In t (ts0 ++ ts1) -> addend t /\ plain t) ->
  type_is "G" h = true -> t_value h = None -> t_group h = None ->
  match ts1 with
  | [] => snd (rpn_loop root calc (length (ts0 ++ h :: ts1)) 0 (Rpn (ts0 ++ h :: ts1) [0] [] false)) = Fail RIndex
  | _ => exists b, snd (rpn_loop root calc (length (ts0 ++ h :: ts1)) 0 (Rpn (ts0 ++ h :: ts1) [0] [] false)) = Done [b]
           /\ b == qsum (map worth ts0) + qsum (map worth ts1)
  end.
Proof.
  intros A T V G. rewrite app_length.
  destruct (addends_loop root calc ts0 [] (h :: ts1) (length (h :: ts1)) 0 [] false) as [b [E F]];
    [intros; apply A; apply in_app_iff; now left|].
  cbn [app length] in E |- *. rewrite E. clear E. cbn [rpn_loop]. unfold rpn_step. cbn [r_eqn]. rewrite nth_mid.
  unfold open_group. rewrite T, V. unfold ignored. rewrite G. cbn [negb andb r_eqn].
  destruct ts1 as [|t r].
  - assert (N : nth_error (ts0 ++ [h]) (S (length ts0)) = None) by (apply nth_error_None; rewrite app_length; cbn; lia).
    rewrite N. reflexivity.
  - assert (N : nth_error (ts0 ++ h :: t :: r) (S (length ts0)) = Some t).
    { replace (ts0 ++ h :: t :: r) with ((ts0 ++ [h]) ++ t :: r) by (rewrite <- app_assoc; reflexivity).
      replace (S (length ts0)) with (length (ts0 ++ [h])) by (rewrite app_length; cbn; lia). apply nth_mid. }
    rewrite N. assert (Gt : t_group t = None) by (destruct (A t) as [_ [X _]]; [apply in_app_iff; right; now left|exact X]). rewrite Gt.
    replace (ts0 ++ h :: t :: r) with ((ts0 ++ [h]) ++ (t :: r) ++ []) by (rewrite app_nil_r, <- app_assoc; reflexivity).
    replace (S (length ts0)) with (length (ts0 ++ [h])) by (rewrite app_length; cbn; lia).
    destruct (addends_loop root calc (t :: r) (ts0 ++ [h]) [] 0 b [] false) as [b' [E' F']];
      [intros; apply A; apply in_app_iff; now right|].
    rewrite Nat.add_0_r in E'. rewrite E'. exists b'. split; [reflexivity|]. rewrite F', F. lra.
Qed.

Lemma lone_value root d st c ts0 head ts1 x z : dget c (s_rhs st) = Some (ts0 ++ head :: ts1) -> factor head ->
  (forall t, In t ts0 -> summand None t) -> (forall t, In t ts1 -> summand None t) -> total st ts0 x -> total st ts1 z ->
  match ts1 with
  | [] => snd (compute_rhs root d st c) = Fail RIndex
  | _ => exists q, snd (compute_rhs root d st c) = Done q /\ q == x + z
  end.
Proof.
  intros D F S0 S1 X Z.
  destruct (total_settled (compute_generic root d) st None ts0 x S0 X) as [H0 W0].
  destruct (total_settled (compute_generic root d) st None ts1 z S1 Z) as [H1 W1].
  rewrite (settled_eval root d st c _ D).
  2: { intros t Ht. apply in_app_iff in Ht. destruct Ht as [Ht|[<-|Ht]]; [auto|now apply factor_settled|auto]. }
  unfold rpn_calc. cbn [snd]. set (eqn := map (fill st) (ts0 ++ head :: ts1)). cbn [rpn_stack].
  assert (Cl : clear_groups eqn = map (ready st) ts0 ++ ready st head :: map (ready st) ts1).
  { unfold eqn, clear_groups. rewrite map_map. now rewrite map_app. }
  assert (Ln : length eqn = length (clear_groups eqn)) by (unfold clear_groups; now rewrite map_length).
  destruct (factor_ready st head F) as [R _]. destruct F as [_ [G T]].
  rewrite Ln, Cl.
  match goal with |- context [rpn_loop root ?k _ 0 _] => pose proof (lone_loop root k (map (ready st) ts0) (ready st head) (map (ready st) ts1)) as L end.
  assert (A : forall t, In t (map (ready st) ts0 ++ map (ready st) ts1) -> addend t /\ plain t).
  { intros t Ht. rewrite <- map_app in Ht. apply in_map_iff in Ht. destruct Ht as [u [<- Hu]].
    assert (Su : summand None u) by (apply in_app_iff in Hu; destruct Hu; auto).
    destruct (summand_ready st None u Su) as [_ [E1 [E2 E3]]]. split; [exact E3|split; assumption]. }
  specialize (L A). rewrite R in *. specialize (L ltac:(unfold type_is; cbn; now rewrite T) eq_refl G).
  destruct ts1 as [|t r]; cbn [map] in L |- *.
  - rewrite L. reflexivity.
  - destruct L as [b [L E]]. rewrite L. exists b. split; [reflexivity|]. rewrite E, W0. cbn [map] in W1. rewrite W1. reflexivity.
Qed.

Lemma lone_followed root d st c ts0 head ts1 x z : dget c (s_rhs st) = Some (ts0 ++ head :: ts1) -> factor head -> ts1 <> [] ->
  (forall t, In t ts0 -> summand None t) -> (forall t, In t ts1 -> summand None t) -> total st ts0 x -> total st ts1 z ->
  exists q, snd (compute_rhs root d st c) = Done q /\ q == x + z.
Proof.
  intros D F N S0 S1 X Z. pose proof (lone_value root d st c ts0 head ts1 x z D F S0 S1 X Z) as L. destruct ts1; [congruence|exact L].
Qed.
Lemma lone_last root d st c ts0 head x : dget c (s_rhs st) = Some (ts0 ++ [head]) -> factor head ->
  (forall t, In t ts0 -> summand None t) -> total st ts0 x -> snd (compute_rhs root d st c) = Fail RIndex.
Proof.
  intros D F S0 X. apply (lone_value root d st c ts0 head [] x 0 D F S0); [intros ? []|exact X|apply total_nil].
Qed.
