(** Lemmas: when slopes and costs are numbers. *)

From Coq Require Import QArith Lqa String List Bool.
Import ListNotations.
From Verif Require Import PandasModel TablesModel VariableIdsModel FcasModel OffersModel UnitsModel UnitDataModel TargetsModel DivisionModel
  SpecOffers SpecUnitData SpecDivision PandasFacts UnitTrapFacts TargetsFacts.
Open Scope string_scope.
Open Scope list_scope.

Lemma over_is a b q : column_over a b = Some q -> q = a / b /\ ~ b == 0.
Proof.
  unfold column_over. destruct (Qeq_bool b 0) eqn:E; [discriminate|]. intros X. injection X as <-. split; [reflexivity|].
  intros Z. apply Qeq_bool_iff in Z. congruence.
Qed.

Lemma slopes_missing t : slopes_of t = None <-> tz_max t == 0.
Proof.
  unfold slopes_of, column_over. destruct (Qeq_bool (tz_max t) 0) eqn:E; split; try discriminate; try reflexivity.
  - intros _. now apply Qeq_bool_iff.
  - intros Z. apply Qeq_bool_iff in Z. congruence.
Qed.

Lemma slopes_are t a b : slopes_of t = Some (a, b) -> a = upper_slope t /\ b = lower_slope t.
Proof. unfold slopes_of, column_over. destruct (Qeq_bool _ 0); [discriminate|]. intros X. injection X as <- <-. split; reflexivity. Qed.

Section Maps.
  Variable l : list trap_row.
  Hypothesis H_max : forall t, In t l -> ~ tz_max t == 0.
  Lemma some_slopes t : In t l -> exists a b, slopes_of t = Some (a, b).
  Proof.
    intros H. destruct (slopes_of t) as [[a b]|] eqn:E; [eauto|]. apply slopes_missing in E. destruct (H_max t H E).
  Qed.
  Lemma upper_number i n t : In (i, t) (save_index n l) -> a_number l (UC i (tz_unit t) (tz_service t) (tz_dt t) (upper_slope t)).
  Proof.
    intros H. apply in_save_index in H. destruct H as [_ H]. destruct (some_slopes t H) as [a [b E]]. right. right. exists t, a, b.
    destruct (slopes_are _ _ _ E) as [-> ->]. cbn. repeat (split; [assumption || reflexivity|]). left. reflexivity.
  Qed.
  Lemma lower_number i n t : In (i, t) (save_index n l) -> a_number l (UC i (tz_unit t) (tz_service t) (tz_dt t) (-(1) * lower_slope t)).
  Proof.
    intros H. apply in_save_index in H. destruct H as [_ H]. destruct (some_slopes t H) as [a [b E]]. right. right. exists t, a, b.
    destruct (slopes_are _ _ _ E) as [-> ->]. cbn [uc_unit uc_service uc_coef]. repeat (split; [assumption || reflexivity|]). right. ring.
  Qed.

  Ltac plain := match goal with H : In _ (map _ _) |- _ => apply in_map_iff in H; destruct H as [[? ?] [<- H]] end;
    first [left; reflexivity | right; left; reflexivity | eapply upper_number; eassumption | eapply lower_number; eassumption].

  Lemma joint_numbers bdu n w : In w (joint_capacity_map l bdu n) -> a_number l w.
  Proof.
    unfold joint_capacity_map, jc_upper_map, jc_lower_map. rewrite !in_app_iff.
    intros H. repeat match goal with H : _ \/ _ |- _ => destruct H as [H|H] end; plain.
  Qed.
  Lemma reg_numbers n w : In w (energy_reg_map l n) -> a_number l w.
  Proof.
    unfold energy_reg_map. cbv zeta. rewrite !in_app_iff.
    intros H. repeat match goal with H : _ \/ _ |- _ => destruct H as [H|H] end; plain.
  Qed.
End Maps.

Lemma file_slopes i v p cs rs ks r : inputs_ok i -> rates_ok (in_initials i) -> processed_offers i = Ok (v, p) ->
  regulation_traps (after_calls i cs) = Gives rs -> contingency_traps (after_calls i cs) = Gives ks -> In r (rs ++ ks) ->
  exists a b, slopes_of r = Some (a, b).
Proof.
  intros H1 H2 H3 H4 H5 H6. destruct (traps_from_file i v p cs rs ks r H1 H2 H3 H4 H5 H6) as [w [q [o [o' [_ [_ [_ [_ [_ [_ [P _]]]]]]]]]]].
  destruct (slopes_of r) as [[a b]|] eqn:E; [eauto|]. apply slopes_missing in E. exfalso. lra.
Qed.

Lemma costs_missing o u : cost_over o u = None <-> ob_service o = "energy" /\ ui_lf u == 0.
Proof.
  unfold cost_over, column_over. destruct (String.eqb_spec (ob_service o) "energy") as [E|E].
  - destruct (Qeq_bool (ui_lf u) 0) eqn:Z; split; try discriminate; try tauto.
    + intros _. split; [exact E|now apply Qeq_bool_iff].
    + intros [_ X]. apply Qeq_bool_iff in X. congruence.
  - split; [discriminate|tauto].
Qed.

Lemma costs_are obj ui w : In w (scale_by_loss_factors obj ui) ->
  exists o u, In o obj /\ In u ui /\ ob_unit o = ui_unit u /\ ob_dt o = ui_dt u /\ ob_var w = ob_var o
    /\ forall q, cost_over o u = Some q -> ob_cost w == q.
Proof.
  unfold scale_by_loss_factors. intros H. apply in_map_iff in H. destruct H as [[o u] [<- H]]. apply in_merge in H. destruct H as [Ho [Hu E]].
  apply andb_true_iff in E. destruct E as [E1 E2]. apply String.eqb_eq in E1, E2. exists o, u. repeat (split; [assumption || reflexivity|]).
  intros q. unfold cost_over. cbn [ob_cost]. destruct (String.eqb _ "energy").
  - intros X. apply over_is in X. destruct X as [-> _]. reflexivity.
  - intros X. injection X as <-. reflexivity.
Qed.
