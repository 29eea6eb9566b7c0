(** When a violation cost is accepted. *)

From Coq Require Import QArith String List Bool Arith.
Import ListNotations.
From Verif Require Import PandasModel TablesModel ElasticModel MarketModel SpecElastic SpecCosts PandasFacts FrameFacts ElasticFacts.
Open Scope string_scope.
Open Scope list_scope.

Lemma differ_iff t : ForallOrdPairs (fun a b : string * Q => String.eqb (fst a) (fst b) && Qeq_bool (snd a) (snd b) = false) t <-> rows_differ t.
Proof.
  induction t as [|e t IH]; cbn; [split; [auto|constructor]|]. split.
  - intros H. inversion H as [|? ? H1 H2]; subst. split; [|now apply IH]. intros e' He' [E1 E2].
    rewrite Forall_forall in H1. specialize (H1 e' He'). rewrite E1, String.eqb_refl in H1. cbn in H1.
    apply Qeq_bool_iff in E2. congruence.
  - intros [H1 H2]. constructor; [|now apply IH]. apply Forall_forall. intros e' He'. specialize (H1 e' He').
    apply andb_false_iff. destruct (String.eqb (fst e) (fst e')) eqn:E; [right|now left]. apply String.eqb_eq in E.
    destruct (Qeq_bool (snd e) (snd e')) eqn:F; [|reflexivity]. apply Qeq_bool_iff in F. now elim H1.
Qed.
Lemma check_vcost_cases t : (check_vcost t = None /\ rows_differ t) \/ (check_vcost t = Some ERepeatedRow /\ ~ rows_differ t).
Proof.
  unfold check_vcost, first_err, no_repeats. cbn.
  destruct (Nat.eqb _ _) eqn:E.
  - left. split; [reflexivity|]. apply differ_iff. apply no_repeats_distinct. now apply Nat.eqb_eq.
  - right. split; [reflexivity|]. intros H. apply differ_iff in H. apply distinct_no_repeats in H. rewrite H in E.
    now rewrite Nat.eqb_refl in E.
Qed.
Lemma has_sets_iff k : has_set_column k = true <-> has_sets k.
Proof. unfold has_set_column, has_sets. rewrite orb_true_iff, !String.eqb_eq. reflexivity. Qed.

Lemma some_deficit rows n : rows <> [] -> (forall p, In p rows -> known_type (cr_type (fst p))) -> deficit_rows rows n <> [].
Proof.
  intros N H E. destruct rows as [|p t]; [now elim N|]. specialize (H p (or_introl eq_refl)).
  unfold deficit_rows in E. apply app_eq_nil in E as [E1 E2]. apply app_eq_nil in E2 as [E2 _].
  apply map_eq_nil in E1. apply map_eq_nil in E2.
  assert (Em : forall (l : list (crow * Q)) k, save_index k l = [] -> l = []) by (intros [|a l] k; cbn; [auto|discriminate]).
  apply Em in E1. apply Em in E2. unfold inequalities in E1. unfold equalities in E2. cbn in E1, E2.
  destruct H as [H|[H|H]]; rewrite H in E1, E2; cbn in E1, E2; discriminate.
Qed.
Lemma add_deficits_fine k rows m : (forall p, In p rows -> known_type (cr_type (fst p))) -> snd (add_deficits k rows m) = None.
Proof.
  intros H. unfold add_deficits. destruct rows as [|p t] eqn:E; [reflexivity|]. rewrite <- E in *.
  pose proof (some_deficit rows (m_nv m) ltac:(rewrite E; discriminate) H) as N.
  destruct (next_id _) eqn:X; [reflexivity|]. unfold next_id in X. destruct (map df_id _) eqn:Y; [|discriminate].
  apply map_eq_nil in Y. unfold deficit_variables in Y. apply map_eq_nil in Y. now elim N.
Qed.

Lemma cost_answer m k v g : group m k = Some g -> g <> [] -> (forall r, In r g -> known_type (cr_type r)) ->
  (usable k v -> snd (step (OpElastic k v) m) = None)
  /\ (~ usable k v -> step (OpElastic k v) m =
        (m, Some (match v with VTable t => if has_set_column k then ERepeatedRow else match check_vcost t with Some e => e | None => EKey end | _ => EKey end))).
Proof.
  intros G N T. cbn [step]. unfold make_elastic. change (group_rows k m) with (group m k). rewrite G. destruct v as [q|t|]; cbn [usable].
  - split; [|intros H; now elim H]. intros _. apply add_deficits_fine. intros p Hp. apply in_map_iff in Hp as [r [<- Hr]]. now apply T.
  - destruct (check_vcost_cases t) as [[C D]|[C D]]; rewrite C; cbn [guard].
    + destruct (has_set_column k) eqn:S.
      * split.
        2:{ intros H. elim H. split; [exact D|]. now apply has_sets_iff. }
        intros _. apply add_deficits_fine. intros p Hp. apply in_map_iff in Hp as [[r e] [<- Hr]]. cbn. apply T.
        unfold merge in Hr. apply in_flat_map in Hr as [r' [Hr' Hm]]. apply in_map_iff in Hm as [e' [Em _]]. now injection Em as <- _.
      * split; [|reflexivity]. intros [_ H]. apply has_sets_iff in H. congruence.
    + split; [intros [H _]; now elim D|]. intros _. destruct (has_set_column k); reflexivity.
  - split; [intros []|]. intros _. destruct g; [now elim N|reflexivity].
Qed.

Theorem accepted_exactly m k v g : group m k = Some g -> g <> [] -> (forall r, In r g -> known_type (cr_type r)) ->
  (snd (step (OpElastic k v) m) = None <-> usable k v).
Proof.
  intros G N T. destruct (cost_answer m k v g G N T) as [A B]. split; [|exact A]. intros H.
  assert (D : usable k v \/ ~ usable k v).
  { destruct v as [q|t|]; cbn; auto. destruct (check_vcost_cases t) as [[_ X]|[_ X]]; [|right; tauto].
    destruct (has_set_column k) eqn:S; [left; split; [exact X|now apply has_sets_iff]|right]. intros [_ Y]. apply has_sets_iff in Y. congruence. }
  destruct D as [D|D]; [exact D|]. rewrite (B D) in H. discriminate.
Qed.
Theorem refused_alone m k v g : group m k = Some g -> g <> [] -> (forall r, In r g -> known_type (cr_type r)) -> ~ usable k v ->
  exists e, step (OpElastic k v) m = (m, Some e)
    /\ (e = ERepeatedRow <-> exists t, v = VTable t /\ ~ rows_differ t) /\ (e = EKey \/ e = ERepeatedRow).
Proof.
  intros G N T U. destruct (cost_answer m k v g G N T) as [_ B]. rewrite (B U). eexists. split; [reflexivity|].
  destruct v as [q|t|]; cbn [usable] in U; [now elim U| |].
  - destruct (check_vcost_cases t) as [[C D]|[C D]]; rewrite C; destruct (has_set_column k) eqn:S.
    + elim U. split; [exact D|now apply has_sets_iff].
    + split; [|now left]. split; [discriminate|]. intros [t' [E F]]. injection E as <-. now elim F.
    + split; [|now right]. split; [|reflexivity]. intros _. now exists t.
    + split; [|now right]. split; [|reflexivity]. intros _. now exists t.
  - split; [|now left]. split; [discriminate|]. intros [t [E _]]. discriminate.
Qed.
Theorem unknown_group m k v : group m k = None -> step (OpElastic k v) m = (m, Some EModelBuild).
Proof. intros G. cbn [step]. unfold make_elastic. change (group_rows k m) with (group m k). now rewrite G. Qed.
