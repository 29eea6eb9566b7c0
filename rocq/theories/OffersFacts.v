(** Lemmas about scaling and enabling of FCAS offers. *)

From Coq Require Import QArith Qabs Qround Qminmax Qfield Lqa String List Bool ZArith Lia.
Import ListNotations.
From Verif Require Import PandasModel TablesModel MarketModel ReportsModel OffersModel SpecOffers PandasFacts ReportFacts.
Open Scope string_scope.
Open Scope list_scope.

Lemma qlt_true : forall a b, Qlt_bool a b = true <-> a < b.
Proof.
  intros a b. unfold Qlt_bool. rewrite negb_true_iff. split; intros H.
  - apply Qnot_le_lt. intros C. apply Qle_bool_iff in C. congruence.
  - destruct (Qle_bool b a) eqn:E; [|reflexivity]. apply Qle_bool_iff in E. lra.
Qed.
Lemma qlt_false : forall a b, Qlt_bool a b = false <-> b <= a.
Proof.
  intros a b. unfold Qlt_bool. rewrite negb_false_iff. apply Qle_bool_iff.
Qed.
Lemma mem_str_in : forall s l, mem_str s l = true <-> In s l.
Proof.
  intros s l. unfold mem_str. rewrite existsb_exists. split.
  - intros [x [H E]]. apply String.eqb_eq in E. now subst.
  - intros H. exists s. split; [exact H|apply String.eqb_refl].
Qed.

(** ** Scaling of one offer *)

Lemma agc_one : forall mn mx o, tightens o (agc_scaled mn mx o) /\ keeps_limits mn mx o (agc_scaled mn mx o)
  /\ of_max (agc_scaled mn mx o) = of_max o.
Proof.
  intros mn mx o. unfold tightens, keeps_limits, agc_scaled, same_offer. cbn.
  assert (A : tighter_min mn (of_emin o) = true -> exists l, mn = Some l /\ of_emin o < l /\ 0 < l).
  { destruct mn as [l|]; [|discriminate]. cbn. rewrite andb_true_iff, !qlt_true. eauto. }
  assert (A' : tighter_min mn (of_emin o) = false -> forall l, mn = Some l -> 0 < l -> l <= of_emin o).
  { intros F l -> P. cbn in F. apply andb_false_iff in F. rewrite !qlt_false in F. destruct F; lra. }
  assert (B : tighter_max mx (of_emax o) = true -> exists l, mx = Some l /\ l < of_emax o /\ 0 < l).
  { destruct mx as [l|]; [|discriminate]. cbn. rewrite andb_true_iff, !qlt_true. eauto. }
  assert (B' : tighter_max mx (of_emax o) = false -> forall l, mx = Some l -> 0 < l -> of_emax o <= l).
  { intros F l -> P. cbn in F. apply andb_false_iff in F. rewrite !qlt_false in F. destruct F; lra. }
  destruct (tighter_min mn (of_emin o)); [destruct (A eq_refl) as [l [-> [L1 L2]]]|];
    (destruct (tighter_max mx (of_emax o)); [destruct (B eq_refl) as [h [-> [H1 H2]]]|]); cbn.
  - repeat split; try lra; try (intros ? E; injection E as <-; lra); auto.
  - repeat split; try lra; try (intros ? E; injection E as <-; lra); auto.
  - repeat split; try lra; try (intros ? E; injection E as <-; lra); auto.
  - repeat split; try lra; auto.
Qed.

Lemma low_slope : forall mx ramp low emin, 0 <= ramp -> (new_low mx ramp low emin - emin) * mx == (low - emin) * (if Qlt_bool ramp mx then ramp else mx).
Proof.
  intros mx ramp low emin R. unfold new_low. destruct (Qlt_bool ramp mx) eqn:L; cbn [andb]; [|ring].
  apply qlt_true in L. destruct (Qeq_bool (low - emin) 0) eqn:Z; cbn [negb].
  - apply Qeq_bool_iff in Z. rewrite Z. ring.
  - assert (N : ~ low - emin == 0) by (intros C; apply Qeq_bool_iff in C; congruence).
    assert (M : ~ mx == 0) by lra. field. split; assumption.
Qed.
Lemma high_slope : forall mx ramp high emax, 0 <= ramp -> (emax - new_high mx ramp high emax) * mx == (emax - high) * (if Qlt_bool ramp mx then ramp else mx).
Proof.
  intros mx ramp high emax R. unfold new_high. destruct (Qlt_bool ramp mx) eqn:L; cbn [andb]; [|ring].
  apply qlt_true in L. destruct (Qeq_bool (emax - high) 0) eqn:Z; cbn [negb].
  - apply Qeq_bool_iff in Z. rewrite Z. ring.
  - assert (N : ~ emax - high == 0) by (intros C; apply Qeq_bool_iff in C; congruence).
    assert (M : ~ mx == 0) by lra. field. split; assumption.
Qed.

Lemma ramp_one : forall rate o, (forall r, rate = Some r -> 0 <= r) ->
  tightens o (ramp_scaled rate o)
  /\ of_emin (ramp_scaled rate o) = of_emin o /\ of_emax (ramp_scaled rate o) = of_emax o
  /\ (forall r, rate = Some r -> of_max (ramp_scaled rate o) <= r / 12)
  /\ (of_max (ramp_scaled rate o) = of_max o \/ exists r, rate = Some r /\ of_max (ramp_scaled rate o) == r / 12).
Proof.
  intros rate o P. unfold ramp_scaled. destruct rate as [r|].
  - specialize (P r eq_refl). assert (R : 0 <= r * (5 # 60)) by lra.
    assert (E12 : r * (5 # 60) == r / 12) by field.
    unfold tightens, same_offer. cbn [set_of_trap of_max of_emin of_low of_high of_emax of_duid of_dir of_type of_bands].
    pose proof (low_slope (of_max o) (r * (5 # 60)) (of_low o) (of_emin o) R) as S1.
    pose proof (high_slope (of_max o) (r * (5 # 60)) (of_high o) (of_emax o) R) as S2.
    split; [|split; [reflexivity|split; [reflexivity|]]].
    + split; [auto|]. destruct (Qlt_bool (r * (5 # 60)) (of_max o)) eqn:L.
      * apply qlt_true in L. repeat split; lra.
      * repeat split; lra.
    + destruct (Qlt_bool (r * (5 # 60)) (of_max o)) eqn:L.
      * split; [|right; exists r; split; [reflexivity|exact E12]]. intros r' E. injection E as <-. lra.
      * apply qlt_false in L. split; [|left; reflexivity]. intros r' E. injection E as <-. lra.
  - unfold tightens, same_offer. repeat split; try lra; try discriminate; auto.
Qed.

Lemma uigf_one : forall f o, tightens o (uigf_scaled f o)
  /\ of_max (uigf_scaled f o) = of_max o /\ of_emin (uigf_scaled f o) = of_emin o
  /\ of_emax (uigf_scaled f o) <= f
  /\ (of_emax (uigf_scaled f o) = of_emax o \/ of_emax (uigf_scaled f o) = f).
Proof.
  intros f o. unfold tightens, same_offer, uigf_scaled. cbn. destruct (Qlt_bool f (of_emax o)) eqn:L.
  - apply qlt_true in L. repeat split; try lra; auto.
  - apply qlt_false in L. repeat split; try lra; auto.
Qed.

Lemma tightens_refl : forall o, tightens o o.
Proof. intros o. unfold tightens, same_offer. repeat split; lra. Qed.

Lemma tightens_trans : forall a b c, tightens a b -> tightens b c -> 0 < of_max b -> tightens a c.
Proof.
  intros a b c [[S1 [S2 [S3 S4]]] [A1 [A2 [A3 [A4 A5]]]]] [[T1 [T2 [T3 T4]]] [B1 [B2 [B3 [B4 B5]]]]] P.
  unfold tightens, same_offer. repeat split; try congruence; try lra.
  - apply (Qmult_inj_r _ _ (of_max b)); [lra|].
    setoid_replace ((of_low c - of_emin c) * of_max a * of_max b) with ((of_low c - of_emin c) * of_max b * of_max a) by ring.
    rewrite B4. setoid_replace ((of_low b - of_emin b) * of_max c * of_max a) with ((of_low b - of_emin b) * of_max a * of_max c) by ring.
    rewrite A4. ring.
  - apply (Qmult_inj_r _ _ (of_max b)); [lra|].
    setoid_replace ((of_emax c - of_high c) * of_max a * of_max b) with ((of_emax c - of_high c) * of_max b * of_max a) by ring.
    rewrite B5. setoid_replace ((of_emax b - of_high b) * of_max c * of_max a) with ((of_emax b - of_high b) * of_max a * of_max c) by ring.
    rewrite A5. ring.
Qed.

(** ** Scaling of the tables *)

Lemma is_reg_iff : forall o, is_reg o = true <-> regulation (of_type o).
Proof. intros o. unfold is_reg, of_type_is, regulation. rewrite orb_true_iff, !String.eqb_eq. tauto. Qed.
Lemma is_reg_no : forall o, negb (is_reg o) = true <-> ~ regulation (of_type o).
Proof. intros o. rewrite <- is_reg_iff, negb_true_iff. destruct (is_reg o); intuition congruence. Qed.

Lemma scale_agc_rows : forall offers agc o', In o' (scale_agc offers agc) <->
  (In o' offers /\ ~ regulation (of_type o'))
  \/ exists o a, In o offers /\ regulation (of_type o) /\ In a agc /\ ag_duid a = of_duid o
       /\ o' = agc_scaled (agc_min a (of_type o)) (agc_max a (of_type o)) o.
Proof.
  intros offers agc o'. unfold scale_agc. rewrite !in_app_iff, filter_In, is_reg_no, !in_map_iff.
  split.
  - intros [H|[[[o a] [E H]]|[[o a] [E H]]]]; [left; exact H| |]; right; exists o, a; cbn [fst snd] in E;
      apply in_merge in H; cbn [fst snd] in H; rewrite filter_In in H; unfold of_type_is in H; rewrite !String.eqb_eq in H;
      destruct H as [[H T] [Ha D]]; unfold agc_min, agc_max, regulation; rewrite T; cbn; auto 10.
  - intros [H|[o [a [H [[T|T] [Ha [D ->]]]]]]]; [left; exact H| |].
    + right. right. exists (o, a). unfold agc_min, agc_max. rewrite T. cbn [fst snd String.eqb]. split; [reflexivity|].
      apply in_merge. cbn [fst snd]. rewrite filter_In. unfold of_type_is. rewrite !String.eqb_eq. auto.
    + right. left. exists (o, a). unfold agc_min, agc_max. rewrite T. cbn. split; [reflexivity|].
      apply in_merge. cbn [fst snd]. rewrite filter_In. unfold of_type_is. rewrite !String.eqb_eq. auto.
Qed.

Lemma agc_sound : forall offers agc o', In o' (scale_agc offers agc) ->
  exists o, In o offers /\ tightens o o' /\ of_max o' = of_max o
    /\ (~ regulation (of_type o) -> o' = o)
    /\ (regulation (of_type o) -> exists a, In a agc /\ ag_duid a = of_duid o
          /\ keeps_limits (agc_min a (of_type o)) (agc_max a (of_type o)) o o').
Proof.
  intros offers agc o' H. apply scale_agc_rows in H. destruct H as [[H N]|[o [a [H [R [Ha [D ->]]]]]]].
  - exists o'. split; [exact H|]. split; [apply tightens_refl|]. split; [reflexivity|]. split; [reflexivity|]. intros C. contradiction.
  - exists o. destruct (agc_one (agc_min a (of_type o)) (agc_max a (of_type o)) o) as [A1 [A2 A3]].
    split; [exact H|]. split; [exact A1|]. split; [exact A3|]. split; [intros C; contradiction|]. intros _. exists a. auto.
Qed.

Lemma agc_complete : forall offers agc o, In o offers ->
  (regulation (of_type o) -> exists a, In a agc /\ ag_duid a = of_duid o) ->
  exists o', In o' (scale_agc offers agc) /\ tightens o o'.
Proof.
  intros offers agc o H R. destruct (is_reg o) eqn:E.
  - apply is_reg_iff in E. destruct (R E) as [a [Ha D]]. eexists. split; [apply scale_agc_rows; right; exists o, a; repeat split; auto|].
    apply agc_one.
  - exists o. split; [|apply tightens_refl]. apply scale_agc_rows. left. split; [exact H|]. apply is_reg_no. now rewrite E.
Qed.

Lemma in_units_with : forall rate ics u, In u (units_with rate ics) <->
  exists i q, In i ics /\ ic_duid i = u /\ rate i = Some q /\ ~ q == 0.
Proof.
  intros rate ics u. unfold units_with. rewrite in_map_iff. split.
  - intros [i [E H]]. apply filter_In in H. destruct H as [H R]. unfold has_rate in R. destruct (rate i) as [q|] eqn:Q; [|discriminate].
    exists i, q. repeat split; auto. intros C. apply Qeq_bool_iff in C. rewrite C in R. discriminate.
  - intros [i [q [H [E [R N]]]]]. exists i. split; [exact E|]. apply filter_In. split; [exact H|]. unfold has_rate. rewrite R.
    destruct (Qeq_bool q 0) eqn:Z; [|reflexivity]. apply Qeq_bool_iff in Z. contradiction.
Qed.

Lemma in_units_without : forall rate ics u, In u (units_without rate ics) <->
  (exists i, In i ics /\ ic_duid i = u) /\ ~ In u (units_with rate ics).
Proof.
  intros rate ics u. unfold units_without. rewrite filter_In, in_map_iff, negb_true_iff. rewrite <- mem_str_in.
  destruct (mem_str u (units_with rate ics)); split; intros [[i [A B]] C]; try discriminate; try (exfalso; apply C; reflexivity);
    (split; [exists i; auto|]); auto; discriminate.
Qed.

Definition rate_of (s : string) : initial -> option Q := if String.eqb s "RAISEREG" then ic_up else ic_down.

Lemma scale_ramp_rows : forall offers ics out, scale_ramp offers ics = Ok out -> forall o', In o' out <->
  (In o' offers /\ ~ regulation (of_type o'))
  \/ (In o' offers /\ regulation (of_type o') /\ In (of_duid o') (units_without (rate_of (of_type o')) ics))
  \/ exists o i, In o offers /\ regulation (of_type o) /\ In (of_duid o) (units_with (rate_of (of_type o)) ics)
       /\ In i ics /\ ic_duid i = of_duid o /\ o' = ramp_scaled (reg_rate i (of_type o)) o.
Proof.
  intros offers ics out. unfold scale_ramp, bind. destruct (apply_rows _ _) as [scaled|e] eqn:A; [|discriminate].
  apply apply_rows_ok in A. intros H; injection H as <-. intros o'. rewrite !in_app_iff, !filter_In, is_reg_no, !andb_true_iff, !mem_str_in.
  rewrite A, map_app, !map_map, in_app_iff, !in_map_iff. unfold of_type_is. rewrite !String.eqb_eq. split.
  - intros [H|[[H [T M]]|[[H [T M]]|[[[o i] [E H]]|[[o i] [E H]]]]]].
    + left. exact H.
    + right. left. unfold regulation, rate_of. rewrite T. cbn. auto.
    + right. left. unfold regulation, rate_of. rewrite T. cbn. auto.
    + right. right. cbn [fst snd] in E. apply in_merge in H. cbn [fst snd] in H. rewrite !filter_In, andb_true_iff, !mem_str_in, !String.eqb_eq in H.
      destruct H as [[H [T M]] [[Hi L] D]]. exists o, i. unfold regulation, rate_of, reg_rate. rewrite T. cbn. auto 10.
    + right. right. cbn [fst snd] in E. apply in_merge in H. cbn [fst snd] in H. rewrite !filter_In, andb_true_iff, !mem_str_in, !String.eqb_eq in H.
      destruct H as [[H [T M]] [[Hi L] D]]. exists o, i. unfold regulation, rate_of, reg_rate. rewrite T. cbn. auto 10.
  - intros [H|[[H [[T|T] M]]|[o [i [H [[T|T] [M [Hi [D ->]]]]]]]]].
    + left. exact H.
    + right. left. unfold rate_of in M. rewrite T in M. auto.
    + right. right. left. unfold rate_of in M. rewrite T in M. auto.
    + do 4 right. exists (o, i). unfold reg_rate, rate_of in *. rewrite T in *. cbn [fst snd String.eqb Ascii.eqb Bool.eqb] in *. split; [reflexivity|].
      apply in_merge. cbn [fst snd]. rewrite !filter_In, andb_true_iff, !mem_str_in, !String.eqb_eq, in_app_iff.
      repeat split; auto. left. now rewrite D.
    + do 3 right. left. exists (o, i). unfold reg_rate, rate_of in *. rewrite T in *. cbn in *. split; [reflexivity|].
      apply in_merge. cbn [fst snd]. rewrite !filter_In, andb_true_iff, !mem_str_in, !String.eqb_eq, in_app_iff.
      repeat split; auto. right. now rewrite D.
Qed.

Lemma ramp_sound : forall offers ics out o', rates_ok ics -> scale_ramp offers ics = Ok out -> In o' out ->
  exists o, In o offers /\ tightens o o' /\ of_emin o' = of_emin o /\ of_emax o' = of_emax o
    /\ (~ regulation (of_type o) -> o' = o)
    /\ (regulation (of_type o) -> exists i, In i ics /\ ic_duid i = of_duid o
          /\ (forall r, reg_rate i (of_type o) = Some r -> ~ r == 0 -> initials_ok ics -> of_max o' <= r / 12)
          /\ (of_max o' = of_max o \/ exists r, reg_rate i (of_type o) = Some r /\ of_max o' == r / 12)).
Proof.
  intros offers ics out o' P H Ho. apply (scale_ramp_rows _ _ _ H) in Ho.
  destruct Ho as [[Ho N]|[[Ho [R M]]|[o [i [Ho [R [M [Hi [D ->]]]]]]]]].
  - exists o'. split; [exact Ho|]. split; [apply tightens_refl|]. repeat split; auto. intros C. contradiction.
  - exists o'. split; [exact Ho|]. split; [apply tightens_refl|]. split; [reflexivity|]. split; [reflexivity|]. split; [intros C; contradiction|].
    intros _. apply in_units_without in M. destruct M as [[i [Hi D]] M]. exists i. split; [exact Hi|]. split; [exact D|]. split; [|auto].
    intros r E Z U. exfalso. apply M. apply in_units_with. exists i, r. repeat split; auto.
    revert E. unfold reg_rate, rate_of. destruct R as [-> | ->]; cbn; auto.
  - exists o. assert (G : forall r, reg_rate i (of_type o) = Some r -> 0 <= r).
    { intros r E. apply (P i r Hi). unfold reg_rate in E. destruct R as [T|T]; rewrite T in E; cbn in E; auto. }
    destruct (ramp_one (reg_rate i (of_type o)) o G) as [A1 [A2 [A3 [A4 A5]]]].
    split; [exact Ho|]. split; [exact A1|]. split; [exact A2|]. split; [exact A3|]. split; [intros C; contradiction|].
    intros _. exists i. split; [exact Hi|]. split; [exact D|]. split; [|exact A5]. intros r E _ _. exact (A4 r E).
Qed.

Lemma ramp_complete : forall offers ics out o, rates_ok ics -> scale_ramp offers ics = Ok out -> In o offers ->
  (regulation (of_type o) -> exists i, In i ics /\ ic_duid i = of_duid o) ->
  exists o', In o' out /\ tightens o o'.
Proof.
  intros offers ics out o P H Ho R. destruct (is_reg o) eqn:E.
  - apply is_reg_iff in E. destruct (R E) as [i [Hi D]].
    destruct (mem_str (of_duid o) (units_with (rate_of (of_type o)) ics)) eqn:M.
    + apply mem_str_in in M. eexists. split; [apply (scale_ramp_rows _ _ _ H); right; right; exists o, i; repeat split; auto|].
      apply ramp_one. intros r Er. apply (P i r Hi). unfold reg_rate in Er. destruct E as [T|T]; rewrite T in Er; cbn in Er; auto.
    + exists o. split; [|apply tightens_refl]. apply (scale_ramp_rows _ _ _ H). right. left. split; [exact Ho|]. split; [exact E|].
      apply in_units_without. split; [eauto|]. rewrite <- mem_str_in. congruence.
  - exists o. split; [|apply tightens_refl]. apply (scale_ramp_rows _ _ _ H). left. split; [exact Ho|]. apply is_reg_no. now rewrite E.
Qed.

Lemma scale_uigf_rows : forall offers uigf o', In o' (scale_uigf offers uigf) <->
  (In o' offers /\ (of_type o' = "ENERGY" \/ ~ In (of_duid o') (map ug_unit uigf)))
  \/ exists o f, In o offers /\ of_type o <> "ENERGY" /\ In f uigf /\ ug_unit f = of_duid o /\ o' = uigf_scaled (ug_cap f) o.
Proof.
  intros offers uigf o'. unfold scale_uigf. rewrite !in_app_iff, !filter_In, in_map_iff. unfold of_type_is.
  rewrite !negb_true_iff, !String.eqb_eq, String.eqb_neq. split.
  - intros [[H T]|[[[H T] M]|[[o f] [E H]]]].
    + auto.
    + left. split; [exact H|]. right. rewrite <- mem_str_in. congruence.
    + right. cbn [fst snd] in E. apply in_merge in H. cbn [fst snd] in H. rewrite !filter_In, negb_true_iff, mem_str_in, String.eqb_neq, String.eqb_eq in H.
      destruct H as [[[H T] M] [Hf D]]. exists o, f. auto 10.
  - intros [[H [T|T]]|[o [f [H [T [Hf [D ->]]]]]]].
    + auto.
    + destruct (String.eqb_spec (of_type o') "ENERGY") as [E|E]; [auto|]. right. left. split; [auto|]. rewrite <- mem_str_in in T.
      destruct (mem_str (of_duid o') (map ug_unit uigf)); congruence.
    + right. right. exists (o, f). cbn [fst snd]. split; [reflexivity|]. apply in_merge. cbn [fst snd].
      rewrite !filter_In, negb_true_iff, mem_str_in, String.eqb_neq, String.eqb_eq, in_map_iff. repeat split; auto. eauto.
Qed.

Lemma uigf_sound : forall offers uigf o', In o' (scale_uigf offers uigf) ->
  exists o, In o offers /\ tightens o o' /\ of_max o' = of_max o /\ of_emin o' = of_emin o
    /\ (of_type o = "ENERGY" \/ (forall f, In f uigf -> ug_unit f <> of_duid o) -> o' = o)
    /\ (of_type o <> "ENERGY" -> In (of_duid o) (map ug_unit uigf) -> exists f, In f uigf /\ ug_unit f = of_duid o
          /\ of_emax o' <= ug_cap f /\ (of_emax o' = of_emax o \/ of_emax o' = ug_cap f)).
Proof.
  intros offers uigf o' H. apply scale_uigf_rows in H. destruct H as [[H T]|[o [f [H [T [Hf [D ->]]]]]]].
  - exists o'. split; [exact H|]. split; [apply tightens_refl|]. split; [reflexivity|]. split; [reflexivity|]. split; [reflexivity|].
    intros N M. destruct T; contradiction.
  - exists o. destruct (uigf_one (ug_cap f) o) as [A1 [A2 [A3 [A4 A5]]]].
    split; [exact H|]. split; [exact A1|]. split; [exact A2|]. split; [exact A3|]. split.
    + intros [C|C]; [contradiction|]. destruct (C f Hf D).
    + intros _ _. exists f. auto.
Qed.

Lemma uigf_complete : forall offers uigf o, In o offers -> exists o', In o' (scale_uigf offers uigf) /\ tightens o o'.
Proof.
  intros offers uigf o H. destruct (String.eqb_spec (of_type o) "ENERGY") as [E|E].
  - exists o. split; [apply scale_uigf_rows; auto|apply tightens_refl].
  - destruct (mem_str (of_duid o) (map ug_unit uigf)) eqn:M.
    + apply mem_str_in in M. apply in_map_iff in M. destruct M as [f [D Hf]].
      eexists. split; [apply scale_uigf_rows; right; exists o, f; repeat split; auto|apply uigf_one].
    + exists o. split; [apply scale_uigf_rows; left; split; [exact H|right; rewrite <- mem_str_in; congruence]|apply tightens_refl].
Qed.
