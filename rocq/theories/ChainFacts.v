(** Lemmas about intervals dispatched one after the other. *)

From Coq Require Import QArith Lqa String List Bool Lia.
Import ListNotations.
From Verif Require Import PandasModel TablesModel MarketModel ReportsModel SequenceModel FrameModel CallModel
  SpecLp SpecHistory SpecDispatch SpecRamp SpecSequence SpecChain PandasFacts ReportFacts RampFacts SequenceFacts.
Open Scope string_scope.
Open Scope list_scope.

Lemma reported_report m x rep u d : unit_dispatch m x = Ok rep -> (forall d', offers m u "energy" d' -> d' = d) ->
  exists q, reported rep u d q /\ q == dispatch m x u "energy" d.
Proof.
  intros H O. destruct (unit_dispatch_rows m x rep H) as [_ [D E]].
  assert (X : (exists q, In ((u, d, "energy"), q) rep) \/ ~ exists q, In ((u, d, "energy"), q) rep).
  { clear. induction rep as [|[[[u' d'] s'] q'] t IH]; [right; intros [q []]|].
    destruct (string_dec u' u) as [->|Nu], (string_dec d' d) as [->|Nd], (string_dec s' "energy") as [->|Ns];
      try (destruct IH as [[q IH]|IH]; [left; exists q; now right|right; intros [q [Q|Q]]; [congruence|apply IH; eauto]]).
    left. exists q'. now left. }
  destruct X as [[q X]|X].
  - exists q. split; [|exact (proj2 (D _ _ _ _ X))]. split; [intros d' y Y; apply O; exact (proj1 (D _ _ _ _ Y))|].
    left. split; [exact X|]. intros y Y. rewrite (proj2 (D _ _ _ _ Y)), (proj2 (D _ _ _ _ X)). reflexivity.
  - exists 0. split.
    + split; [intros d' y Y; apply O; exact (proj1 (D _ _ _ _ Y))|]. right. split; [intros y Y; apply X; eauto|reflexivity].
    + symmetry. apply no_dispatch. intros Of. destruct (E _ _ _ Of) as [q Q]. apply X. eauto.
Qed.

Lemma reported_same rep u d q q' : reported rep u d q -> q == q' -> forall x, In ((u, d, "energy"), x) rep -> x == q'.
Proof. intros [_ [[_ H]|[H _]]] E x X; [rewrite (H x X); exact E|exfalso; exact (H x X)]. Qed.

(** The ramp details have a row that starts at the report. *)
Lemma next_row rep rates r o u d bu bd q : reported rep u d q -> In (r, o) rates -> ra_unit r = u ->
  ra_up r = Some bu -> ra_down r = Some bd ->
  exists i, i == q /\ In (Ramp u (match o with Some x => x | None => "generator" end) i bu bd) (map ri_row (rt_rows (next_table rep rates))).
Proof.
  intros [R1 R2] Hr Eu Up Dn. unfold next_table. cbn [rt_rows].
  assert (G : forall i, In (Param u i bu bd) (ramp_parameters rep [r]) ->
    In (Ramp u (match o with Some x => x | None => "generator" end) i bu bd) (map ri_row (rt_rows (next_table rep rates)))).
  { intros i Hi. apply in_map_iff. eexists. split; [|unfold next_table; cbn [rt_rows]; apply in_flat_map; exists (r, o); split; [exact Hr|];
      apply in_map_iff; exists (Param u i bu bd); split; [reflexivity|exact Hi]]. reflexivity. }
  assert (P : ramp_parameters rep [r]
     = map (fun p => Param (ra_unit (snd p)) (SequenceModel.fill (option_map snd (fst p))) (SequenceModel.fill (ra_up (snd p))) (SequenceModel.fill (ra_down (snd p))))
         (match filter (fun a : string * Q => String.eqb (fst a) (ra_unit r)) (energy_rows rep) with
          | [] => [(None, r)] | as_ => map (fun a => (Some a, r)) as_ end)).
  { unfold ramp_parameters, merge_right. cbn [flat_map]. rewrite app_nil_r. reflexivity. }
  destruct (filter (fun a : string * Q => String.eqb (fst a) (ra_unit r)) (energy_rows rep)) as [|[v y] t] eqn:F.
  - exists 0. split.
    + destruct R2 as [[H _]|[_ H]]; [|symmetry; exact H]. exfalso.
      assert (I : In (u, q) (filter (fun a : string * Q => String.eqb (fst a) (ra_unit r)) (energy_rows rep))).
      { apply filter_In. split; [apply in_energy_rows; eauto|]. cbn. rewrite Eu. apply String.eqb_refl. }
      rewrite F in I. destruct I.
    + apply G. rewrite P. left. cbn. rewrite Eu, Up, Dn. reflexivity.
  - assert (I : In (v, y) (filter (fun a : string * Q => String.eqb (fst a) (ra_unit r)) (energy_rows rep))) by (rewrite F; now left).
    apply filter_In in I. destruct I as [I Ev]. apply String.eqb_eq in Ev. cbn in Ev. rewrite Eu in Ev. subst v.
    apply in_energy_rows in I. destruct I as [dt I]. pose proof (R1 dt y I) as ->.
    exists y. split; [destruct R2 as [[_ H]|[H _]]; [exact (H y I)|destruct (H y I)]|].
    apply G. rewrite P. left. cbn. rewrite Eu, Up, Dn. reflexivity.
Qed.

Lemma stage_moves rep s u d q up down : follows rep s -> reported rep u d q -> ordinary u d s up down ->
  q - down * c_interval (sg_config s) / 60 <= level u d s /\ level u d s <= q + up * c_interval (sg_config s) / 60.
Proof.
  intros [F S] R [Rg [NT [O [r [o [bu [bd [Hr [Eu [Up [Dn [Ed [Su Sd]]]]]]]]]]]]].
  destruct (next_row rep (sg_rates s) r o u d bu bd q R Hr Eu Up Dn) as [i [Ei Hi]]. rewrite Ed in Hi.
  destruct (ramp_respected _ _ _ _ _ _ F S eq_refl eq_refl _ Hi Rg NT (proj2 (O d) eq_refl)) as [up' [dn' [A [B [C D]]]]].
  cbn [rr_unit rr_dt rr_init rr_up rr_down] in *.
  assert (U : up' == up).
  { destruct (scada_up (sg_scada s) u) as [z|]; cbn in A, Su; [destruct A as [A1 [A2 A3]], Su as [B1 [B2 B3]]; destruct A3, B3; lra|lra]. }
  assert (V : dn' == down).
  { destruct (scada_down (sg_scada s) u) as [z|]; cbn in B, Sd; [destruct B as [A1 [A2 A3]], Sd as [B1 [B2 B3]]; destruct A3, B3; lra|lra]. }
  unfold level. rewrite <- Ei, <- U, <- V. split; assumption.
Qed.

Lemma chain_app rep pre s post : chain rep (pre ++ s :: post) -> exists rep', chain rep' (s :: post)
  /\ (pre = [] /\ rep' = rep \/ exists pre' a, pre = pre' ++ [a] /\ unit_dispatch (sg_market a) (sg_dispatch a) = Ok rep').
Proof.
  revert rep. induction pre as [|a pre IH]; intros rep H; [exists rep; auto|].
  cbn [app chain] in H. destruct H as [_ [rep1 [E H]]]. destruct (IH rep1 H) as [rep' [C [[-> ->]|[pre' [b [-> B]]]]]].
  - exists rep1. split; [exact C|]. right. exists [], a. auto.
  - exists rep'. split; [exact C|]. right. exists (a :: pre'), b. auto.
Qed.

Lemma chain_between rep pre a b post u d up down : chain rep (pre ++ a :: b :: post) ->
  (forall d', offers (sg_market a) u "energy" d' -> d' = d) -> ordinary u d b up down ->
  level u d a - down * c_interval (sg_config b) / 60 <= level u d b
  /\ level u d b <= level u d a + up * c_interval (sg_config b) / 60.
Proof.
  intros H Oa Ob. destruct (chain_app rep (pre ++ [a]) b post) as [rep' [[F _] X]]; [now rewrite <- app_assoc|].
  destruct X as [[X _]|[pre' [a' [X U]]]]; [destruct pre; discriminate|].
  apply app_inj_tail in X. destruct X as [_ <-].
  destruct (reported_report _ _ _ u d U Oa) as [q [R E]]. pose proof (stage_moves rep' b u d q up down F R Ob) as M.
  unfold level at 1 4. rewrite E in M. exact M.
Qed.

Lemma chain_overall h up down l : (forall s, h s = c_interval (sg_config s)) -> forall rep u d q pre s post,
  chain rep l -> reported rep u d q -> (forall s, In s l -> ordinary u d s (up s) (down s)) -> l = pre ++ s :: post ->
  q - reach h down (pre ++ [s]) <= level u d s /\ level u d s <= q + reach h up (pre ++ [s]).
Proof.
  intros Hh. induction l as [|a l IH]; intros rep u d q pre s post C R O E; [destruct pre; discriminate|].
  destruct C as [F [rep' [U C]]]. pose proof (stage_moves rep a u d q (up a) (down a) F R (O a (or_introl eq_refl))) as M.
  rewrite <- Hh in M. destruct pre as [|a' pre]; cbn [app] in E; inversion E; subst.
  - cbn [app reach]. lra.
  - cbn [app reach]. destruct (O a' (or_introl eq_refl)) as [_ [_ [Oa _]]].
    destruct (reported_report _ _ _ u d U (fun d' => proj1 (Oa d'))) as [q' [R' E']].
    destruct (IH rep' u d q' pre s post C R' (fun s H => O s (or_intror H)) eq_refl) as [A B].
    unfold level in M. rewrite <- E' in M. lra.
Qed.

(** ** The columns *)

Lemma fitting_names rates : ~ In "initial_output" rates -> In "unit" rates ->
  parameter_names rates = "unit" :: "initial_output" :: filter (fun n => negb (String.eqb n "unit")) rates.
Proof.
  intros N U. unfold parameter_names, merged_names.
  assert (M : mem_str "initial_output" rates = false).
  { apply not_true_is_false. rewrite mem_str_in. exact N. }
  cbn [map app]. change (negb ("unit" =? "unit")%string) with false. change (negb ("initial_output" =? "unit")%string) with true.
  rewrite M. cbn [andb]. f_equal. f_equal.
  transitivity (map (fun n => n) (filter (fun n => negb (String.eqb n "unit")) rates)); [|apply map_id].
  apply map_ext_in. intros n Hn. apply filter_In in Hn. destruct Hn as [Hn Ne].
  destruct (mem_str n ["unit"; "initial_output"]) eqn:E; [|reflexivity]. exfalso.
  apply mem_str_in in E. destruct E as [<-|[<-|[]]]; [rewrite String.eqb_refl in Ne; discriminate|exact (N Hn)].
Qed.

Lemma clashing_names rates f req m : In "initial_output" rates -> names f = parameter_names rates ->
  validate (ramp_schema req m) f = Some EUnexpectedColumn.
Proof.
  intros I E. unfold validate. rewrite E. unfold parameter_names, merged_names.
  apply mem_str_in in I. cbn [map app forallb]. change (negb ("initial_output" =? "unit")%string) with true.
  rewrite I. cbn [andb]. change ("initial_output" ++ "_x")%string with "initial_output_x".
  replace (dhas "initial_output_x" (sc_columns (ramp_schema req m))) with false; [|destruct req; reflexivity].
  rewrite andb_false_r. reflexivity.
Qed.

Lemma both_names rates : In "initial_output" rates ->
  In "initial_output_x" (parameter_names rates) /\ In "initial_output_y" (parameter_names rates)
  /\ ~ In "initial_output" (parameter_names rates).
Proof.
  intros I. unfold parameter_names, merged_names. pose proof (proj2 (mem_str_in _ _) I) as M.
  split; [|split].
  - apply in_or_app. left. cbn [map]. change (negb ("initial_output" =? "unit")%string) with true. rewrite M. right. now left.
  - apply in_or_app. right. apply in_map_iff. exists "initial_output". split; [reflexivity|]. apply filter_In. now split.
  - rewrite in_app_iff. intros [H|H].
    + cbn [map] in H. change (negb ("initial_output" =? "unit")%string) with true in H. rewrite M in H.
      destruct H as [H|[H|[]]]; discriminate H.
    + apply in_map_iff in H. destruct H as [n [E H]]. apply filter_In in H. destruct H as [_ Ne].
      destruct (mem_str n ["unit"; "initial_output"]) eqn:Q.
      * apply mem_str_in in Q. destruct Q as [<-|[<-|[]]]; discriminate.
      * subst n. discriminate Q.
Qed.
