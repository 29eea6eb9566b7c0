(** Weights of two neighbouring break points: they interpolate, and every interpolated
    loss has such weights. *)

From Coq Require Import QArith Qfield Qabs Lqa String List Bool Arith Lia ZArith Permutation Sorted.
Import ListNotations.
From Verif Require Import PandasModel TablesModel VariableIdsModel MarketConstraintsModel
  UnitConstraintsModel RampModel FcasModel InterModel ElasticModel MarketModel SolverModel
  SpecLp SpecHistory SpecIds SpecDispatch SpecNetwork PandasFacts StepFacts InvariantFacts OwnerFacts SolverFacts
  MeaningFacts LimitFacts TableFacts BidFacts JointRampFacts BalanceFacts LossFacts GenericFacts LossExactFacts.
Open Scope string_scope.
Open Scope list_scope.

Lemma sorted_nth {A} (R : A -> A -> Prop) l : StronglySorted R l -> forall i j a b, (i < j)%nat ->
  nth_error l i = Some a -> nth_error l j = Some b -> R a b.
Proof.
  induction 1 as [|c t H IH F]; intros i j a b L Ea Eb; [destruct i; discriminate Ea|].
  destruct j as [|j]; [lia|]. cbn in Eb. destruct i as [|i]; cbn in Ea.
  - inversion Ea; subst. rewrite Forall_forall in F. apply F. now apply nth_error_In in Eb.
  - apply (IH i j); auto; lia.
Qed.

Lemma by_seg_sorted l : StronglySorted (fun a b => by_seg a b = true) (sort_rows by_seg l).
Proof.
  apply sort_rows_sorted; unfold by_seg.
  - intros a b H. apply Z.leb_gt in H. apply Z.leb_le. lia.
  - intros a b c0 H1 H2. apply Z.leb_le in H1, H2. apply Z.leb_le. lia.
Qed.

Section Weights.
Variables (bps : list bp_row) (nw : nat) (d : inter_row) (f : lossfn_row).
Hypothesis UB : ForallOrdPairs (fun a b => same_link (bp_inter a) (bp_link a) (bp_inter b) (bp_link b)
                             && Z.eqb (bp_seg a) (bp_seg b) = false) bps.
Let ws := weight_variables bps nw.
Let fl := filter (of_link d) ws.
Let l := sort_rows by_seg fl.

Lemma ws_ids : NoDup (map wv_id ws).
Proof.
  unfold ws, weight_variables. rewrite map_map. rewrite (map_ext _ fst); [rewrite save_index_fst; apply seq_NoDup|]. intros [? ?]; reflexivity.
Qed.
Lemma ws_NoDup : NoDup ws.
Proof. apply (NoDup_map_inv wv_id), ws_ids. Qed.
Lemma fl_NoDup : NoDup fl.
Proof. apply NoDup_filter, ws_NoDup. Qed.
Lemma fl_perm : Permutation fl l.
Proof. apply sort_rows_perm. Qed.

Lemma point_there b : In b bps -> at_link d b = true -> exists w, In w fl /\ wv_seg w = bp_seg b /\ wv_point w = bp_point b.
Proof.
  intros Hb Lb. destruct (save_index_in nw _ _ Hb) as [j Hj].
  exists (WeightVar (bp_inter b) (bp_link b) (bp_seg b) (bp_point b) j 0 1). split; [|split; reflexivity].
  apply filter_In. split; [|exact Lb]. unfold ws, weight_variables. apply in_map_iff. exists (j, b). auto.
Qed.
Lemma weight_there w : In w fl -> exists b, In b bps /\ at_link d b = true /\ wv_seg w = bp_seg b /\ wv_point w = bp_point b.
Proof.
  intros Hw. apply filter_In in Hw. destruct Hw as [Hw Lw]. unfold ws, weight_variables in Hw.
  apply in_map_iff in Hw. destruct Hw as [[j b] [<- Hw]]. apply in_save_index in Hw. exists b. cbn in *. intuition.
Qed.

Lemma seg_inj wa wb : In wa fl -> In wb fl -> wv_seg wa = wv_seg wb -> wa = wb.
Proof.
  intros Ha Hb E. apply filter_In in Ha, Hb. destruct Ha as [Ha La], Hb as [Hb Lb].
  unfold ws, weight_variables in Ha, Hb. apply in_map_iff in Ha, Hb.
  destruct Ha as [[ja ba] [Ewa Hja]], Hb as [[jb bb] [Ewb Hjb]].
  assert (ba = bb).
  { apply (FOP_unique (fun a b => same_link (bp_inter a) (bp_link a) (bp_inter b) (bp_link b) && Z.eqb (bp_seg a) (bp_seg b)) bps); auto.
    - intros u v. rewrite same_link_sym, Z.eqb_sym. reflexivity.
    - apply in_save_index in Hja. tauto.
    - apply in_save_index in Hjb. tauto.
    - rewrite <- Ewa in La, E. rewrite <- Ewb in Lb, E. unfold of_link in La, Lb. cbn in La, Lb, E. apply same_link_eq in La, Lb.
      apply andb_true_iff. split; [apply same_link_eq; intuition congruence|]. now apply Z.eqb_eq. }
  subst bb. assert (ja = jb); [|congruence].
  assert (NB : NoDup bps).
  { apply (FOP_NoDup (fun a b => same_link (bp_inter a) (bp_link a) (bp_inter b) (bp_link b) && Z.eqb (bp_seg a) (bp_seg b))); auto.
    intros u. apply andb_true_iff. split; [now apply same_link_eq|apply Z.eqb_refl]. }
  clear -NB Hja Hjb. revert nw Hja Hjb. induction bps as [|c t IH]; intros k H1 H2; [destruct H1|].
  inversion NB as [|? ? M1 M2]; subst. rewrite save_index_cons in H1, H2.
  destruct H1 as [H1|H1], H2 as [H2|H2]; try congruence.
  - inversion H1; subst. apply in_save_index in H2. exfalso. apply M1. tauto.
  - inversion H2; subst. apply in_save_index in H1. exfalso. apply M1. tauto.
  - now apply (IH M2 (S k)).
Qed.

Lemma id_inj wa wb : In wa fl -> In wb fl -> wv_id wa = wv_id wb -> wa = wb.
Proof. intros Ha Hb E. apply filter_In in Ha, Hb. apply (NoDup_map_inj wv_id ws); try tauto. apply ws_ids. Qed.

(** The two weights that are not zero interpolate. *)
Lemma carries_interpolate q e y : carries ws d f q e y ->
  (exists b1 b2, In b1 bps /\ In b2 bps /\ at_link d b1 = true /\ at_link d b2 = true /\ bp_seg b1 <> bp_seg b2) ->
  rising d bps ->
  exists a b, adjacent d bps a b
    /\ interpolates (bp_point a) (lf_fun f (bp_point a)) (bp_point b) (lf_fun f (bp_point b)) q e.
Proof.
  intros [Bd [S1 [S2 [S3 So2]]]] [b1 [b2 [Hb1 [Hb2 [L1 [L2 D]]]]]] Ri. fold fl in Bd, S1, S2, S3, So2. fold l in So2.
  pose proof fl_perm as PL.
  assert (Ln : (2 <= length l)%nat).
  { destruct (point_there b1 Hb1 L1) as [w1 [W1 [E1 _]]]. destruct (point_there b2 Hb2 L2) as [w2 [W2 [E2 _]]].
    apply (two_in l w1 w2); try (now apply (Permutation_in _ PL)). intros E. congruence. }
  destruct (sos2_pair y l Ln So2) as [l1 [wa [wb [l2 [El [Z1 Z2]]]]]].
  pose proof (by_seg_sorted fl) as SS. fold l in SS.
  rewrite El in SS. apply sorted_split in SS. destruct SS as [R1 [R2 R3]].
  assert (Ha : In wa fl) by (apply (Permutation_in _ (Permutation_sym PL)); rewrite El; apply in_or_app; right; now left).
  assert (Hb : In wb fl) by (apply (Permutation_in _ (Permutation_sym PL)); rewrite El; apply in_or_app; right; right; now left).
  destruct (weight_there wa Ha) as [a [A1 [A2 [A3 A4]]]]. destruct (weight_there wb Hb) as [b [B1 [B2 [B3 B4]]]].
  assert (NS : wv_seg wa <> wv_seg wb).
  { intros E. assert (ND : NoDup l) by (apply (Permutation_NoDup PL), fl_NoDup).
    rewrite El in ND. apply NoDup_app_iff in ND. destruct ND as [_ [ND _]]. inversion ND as [|? ? N1 _]; subst.
    apply N1. left. symmetry. now apply seg_inj. }
  assert (Ls : (bp_seg a < bp_seg b)%Z) by (unfold by_seg in R1; apply Z.leb_le in R1; lia).
  exists a, b. split.
  { split; [exact A1|]. split; [exact B1|]. split; [exact A2|]. split; [exact B2|]. split; [exact Ls|].
    intros c Hc Le [I1 I2]. destruct (point_there c Hc Le) as [we [Hwe [Ewe _]]].
    apply (Permutation_in _ PL) in Hwe. rewrite El in Hwe. apply in_app_or in Hwe. unfold by_seg in *.
    destruct Hwe as [Hwe|[<-|[<-|Hwe]]]; try lia.
    - apply R2 in Hwe. apply Z.leb_le in Hwe. lia.
    - apply R3 in Hwe. apply Z.leb_le in Hwe. lia. }
  assert (Sum : forall g : weightvar -> Q, sumQ (fun w => g w * y (wv_id w)) fl == g wa * y (wv_id wa) + g wb * y (wv_id wb)).
  { intros g. rewrite (sumQ_permutation _ _ _ PL). now apply (sum_pair g y l l1 wa wb l2). }
  rewrite Sum in S2, S3. rewrite (sumQ_ext _ (fun w => 1 * y (wv_id w))) in S1 by (intros; ring). rewrite Sum in S1.
  destruct (Bd wa Ha) as [X1 _]. destruct (Bd wb Hb) as [Y1 _]. rewrite A4, B4 in S2, S3.
  pose proof (Ri a b A1 B1 A2 B2 Ls) as Lt.
  set (u := y (wv_id wa)) in *. set (v := y (wv_id wb)) in *. set (pa := bp_point a) in *. set (pb := bp_point b) in *.
  unfold interpolates. rewrite <- S2, <- S3.
  assert (Ev : v == 1 - u) by lra. rewrite Ev in *. clear Ev. clear -Lt X1 Y1. split; [nra|]. split; [nra|]. ring.
Qed.

(** The weights of an interpolated loss. *)
Lemma interpolate_carries q e a b : adjacent d bps a b -> bp_point a < bp_point b ->
  interpolates (bp_point a) (lf_fun f (bp_point a)) (bp_point b) (lf_fun f (bp_point b)) q e ->
  exists h : assignment, forall y : assignment, (forall w, In w fl -> y (wv_id w) == h (wv_id w)) -> carries ws d f q e y.
Proof.
  intros [Ha [Hb [La [Lb [Ls Bt]]]]] Lt [I1 [I2 I3]].
  destruct (point_there a Ha La) as [wa [Wa [Sa Pa]]]. destruct (point_there b Hb Lb) as [wb [Wb [Sb Pb]]].
  set (pa := bp_point a) in *. set (pb := bp_point b) in *.
  assert (Nz : ~ pb - pa == 0) by lra.
  set (u := (pb - q) / (pb - pa)). set (v := (q - pa) / (pb - pa)).
  assert (Eu : u * (pb - pa) == pb - q) by (unfold u; field; exact Nz).
  assert (Ev : v * (pb - pa) == q - pa) by (unfold v; field; exact Nz).
  assert (Uv : u + v == 1) by (unfold u, v; field; exact Nz).
  assert (U0 : 0 <= u) by (unfold u; apply Qle_shift_div_l; lra).
  assert (V0 : 0 <= v) by (unfold v; apply Qle_shift_div_l; lra).
  clearbody u v.
  assert (Nab : wv_id wa <> wv_id wb).
  { intros E. apply (id_inj wa wb Wa Wb) in E. subst wb. lia. }
  exists (fun i => if Nat.eqb i (wv_id wa) then u else if Nat.eqb i (wv_id wb) then v else 0). intros y Hy.
  assert (Ya : y (wv_id wa) == u) by (rewrite (Hy wa Wa), Nat.eqb_refl; reflexivity).
  assert (Yb : y (wv_id wb) == v).
  { rewrite (Hy wb Wb), Nat.eqb_refl. destruct (Nat.eqb_spec (wv_id wb) (wv_id wa)); [congruence|reflexivity]. }
  assert (Y0 : forall w, In w fl -> w <> wa -> w <> wb -> y (wv_id w) == 0).
  { intros w Hw N1 N2. rewrite (Hy w Hw). destruct (Nat.eqb_spec (wv_id w) (wv_id wa)) as [E|_]; [apply id_inj in E; auto; contradiction|].
    destruct (Nat.eqb_spec (wv_id w) (wv_id wb)) as [E|_]; [apply id_inj in E; auto; contradiction|]. reflexivity. }
  assert (Wd : forall w, In w fl -> w = wa \/ w = wb \/ (w <> wa /\ w <> wb)).
  { intros w Hw. destruct (Nat.eq_dec (wv_id w) (wv_id wa)) as [E|E]; [left; now apply id_inj|].
    destruct (Nat.eq_dec (wv_id w) (wv_id wb)) as [E'|E']; [right; left; now apply id_inj|]. right. right. split; congruence. }
  assert (Sum : forall g : weightvar -> Q, sumQ (fun w => g w * y (wv_id w)) fl == g wa * u + g wb * v).
  { intros g. rewrite (sumQ_ext_in _ (fun w => (if Nat.eqb (wv_id w) (wv_id wa) then g wa * u else 0) + (if Nat.eqb (wv_id w) (wv_id wb) then g wb * v else 0))).
    - rewrite sumQ_plus. apply Qplus_comp.
      + rewrite (sumQ_pick (fun _ => g wa * u) (fun w => Nat.eqb (wv_id w) (wv_id wa)) wa); [reflexivity|exact Wa|apply Nat.eqb_refl| |apply fl_NoDup].
        intros w Hw E. apply Nat.eqb_eq in E. now apply id_inj.
      + rewrite (sumQ_pick (fun _ => g wb * v) (fun w => Nat.eqb (wv_id w) (wv_id wb)) wb); [reflexivity|exact Wb|apply Nat.eqb_refl| |apply fl_NoDup].
        intros w Hw E. apply Nat.eqb_eq in E. now apply id_inj.
    - intros w Hw. destruct (Wd w Hw) as [->|[->|[N1 N2]]].
      + rewrite Ya, Nat.eqb_refl. destruct (Nat.eqb_spec (wv_id wa) (wv_id wb)); [congruence|]. ring.
      + rewrite Yb, Nat.eqb_refl. destruct (Nat.eqb_spec (wv_id wb) (wv_id wa)); [congruence|]. ring.
      + rewrite (Y0 w Hw N1 N2). destruct (Nat.eqb_spec (wv_id w) (wv_id wa)) as [E|_]; [apply id_inj in E; auto; contradiction|].
        destruct (Nat.eqb_spec (wv_id w) (wv_id wb)) as [E|_]; [apply id_inj in E; auto; contradiction|]. ring. }
  unfold carries. fold fl. split; [|split; [|split; [|split]]].
  - intros w Hw. destruct (Wd w Hw) as [->|[->|[N1 N2]]]; rewrite ?Ya, ?Yb; [split; lra|split; lra|]. rewrite (Y0 w Hw N1 N2). split; lra.
  - rewrite (sumQ_ext _ (fun w => 1 * y (wv_id w))) by (intros; ring). rewrite Sum. lra.
  - rewrite Sum, Pa, Pb. fold pa pb. assert (E : (pa * u + pb * v - q) * (pb - pa) == 0).
    { setoid_replace ((pa * u + pb * v - q) * (pb - pa)) with (pa * (u * (pb - pa)) + pb * (v * (pb - pa)) - q * (pb - pa)) by ring.
      rewrite Eu, Ev. ring. }
    apply Qmult_integral in E. destruct E as [E|E]; [lra|contradiction].
  - rewrite Sum, Pa, Pb. fold pa pb. set (fa := lf_fun f pa) in *. set (fb := lf_fun f pb) in *.
    assert (E : (fa * u + fb * v - e) * (pb - pa) == 0).
    { setoid_replace ((fa * u + fb * v - e) * (pb - pa)) with (fa * (u * (pb - pa)) + fb * (v * (pb - pa)) - e * (pb - pa)) by ring.
      rewrite Eu, Ev, I3. ring. }
    apply Qmult_integral in E. destruct E as [E|E]; [lra|contradiction].
  - fold l. intros i j ia ib L Pi Pj Ni Nj. rewrite nth_error_map in Pi, Pj.
    destruct (nth_error l i) as [wi|] eqn:Ei; [|discriminate Pi]. destruct (nth_error l j) as [wj|] eqn:Ej; [|discriminate Pj].
    inversion Pi; subst ia. inversion Pj; subst ib. clear Pi Pj.
    pose proof (by_seg_sorted fl) as SS. fold l in SS.
    assert (Inl : forall w n, nth_error l n = Some w -> In w fl).
    { intros w n E. apply (Permutation_in _ (Permutation_sym fl_perm)). now apply nth_error_In in E. }
    pose proof (Inl _ _ Ei) as Hwi. pose proof (Inl _ _ Ej) as Hwj.
    pose proof (sorted_nth _ _ SS i j wi wj L Ei Ej) as Rij. unfold by_seg in Rij. apply Z.leb_le in Rij.
    assert (ND : NoDup l) by (apply (Permutation_NoDup fl_perm), fl_NoDup).
    assert (Nth : forall n n' w, nth_error l n = Some w -> nth_error l n' = Some w -> n = n').
    { intros n n' w E E'. rewrite NoDup_nth_error in ND. apply ND; [|congruence]. apply nth_error_Some. congruence. }
    assert (Pw : wi = wa /\ wj = wb).
    { destruct (Wd wi Hwi) as [->|[->|[N1 N2]]]; [| |elim Ni; now apply Y0].
      - destruct (Wd wj Hwj) as [->|[->|[N1 N2]]]; [|split; reflexivity|elim Nj; now apply Y0].
        specialize (Nth _ _ _ Ei Ej). lia.
      - destruct (Wd wj Hwj) as [->|[->|[N1 N2]]]; [lia| |elim Nj; now apply Y0].
        specialize (Nth _ _ _ Ei Ej). lia. }
    destruct Pw as [-> ->]. destruct (Nat.eq_dec j (S i)) as [E|E]; [exact E|exfalso].
    destruct (nth_error l (S i)) as [wc|] eqn:Ec.
    2:{ apply nth_error_None in Ec. assert (j < length l)%nat by (apply nth_error_Some; congruence). lia. }
    pose proof (Inl _ _ Ec) as Hwc.
    pose proof (sorted_nth _ _ SS i (S i) wa wc ltac:(lia) Ei Ec) as Q1. pose proof (sorted_nth _ _ SS (S i) j wc wb ltac:(lia) Ec Ej) as Q2.
    unfold by_seg in Q1, Q2. apply Z.leb_le in Q1, Q2.
    assert (wc <> wa) by (intros ->; specialize (Nth _ _ _ Ei Ec); lia).
    assert (wc <> wb) by (intros ->; specialize (Nth _ _ _ Ej Ec); lia).
    assert (wv_seg wc <> wv_seg wa) by (intros X; apply seg_inj in X; auto).
    assert (wv_seg wc <> wv_seg wb) by (intros X; apply seg_inj in X; auto).
    destruct (weight_there wc Hwc) as [c [Hc [Lc [Sc _]]]]. apply (Bt c Hc Lc). lia.
Qed.

End Weights.
