(** Lemmas about the ramp rate parameters of consecutive intervals. *)

From Coq Require Import QArith Lqa String List Bool Lia.
Import ListNotations.
From Verif Require Import PandasModel TablesModel MarketModel ReportsModel SequenceModel SpecDispatch SpecSequence PandasFacts InvariantFacts ReportFacts MeaningFacts.
Open Scope string_scope.
Open Scope list_scope.

Definition energy_rows (rep : list (ukey * Q)) : list (string * Q) :=
  map (fun r : ukey * Q => (fst (fst (fst r)), snd r)) (filter (fun r : ukey * Q => String.eqb (snd (fst r)) "energy") rep).

Lemma in_energy_rows : forall rep u q, In (u, q) (energy_rows rep) <-> exists dt, In ((u, dt, "energy"), q) rep.
Proof.
  intros rep u q. unfold energy_rows. rewrite in_map_iff. split.
  - intros [[[[u' dt] s] q'] [E H]]. cbn in E. injection E as -> ->. apply filter_In in H. cbn [fst snd] in H.
    destruct H as [H E]. apply String.eqb_eq in E. subst. eauto.
  - intros [dt H]. exists ((u, dt, "energy"), q). split; [reflexivity|]. apply filter_In. split; [exact H|reflexivity].
Qed.

(** At most one row of energy dispatch for every unit. *)
Definition one_row (rep : list (ukey * Q)) (u : string) : Prop :=
  (length (filter (fun r : ukey * Q => String.eqb (fst (fst (fst r))) u && String.eqb (snd (fst r)) "energy") rep) <= 1)%nat.

Lemma energy_filter : forall rep u,
  length (filter (fun a : string * Q => String.eqb (fst a) u) (energy_rows rep))
  = length (filter (fun r : ukey * Q => String.eqb (fst (fst (fst r))) u && String.eqb (snd (fst r)) "energy") rep).
Proof.
  intros rep u. unfold energy_rows. induction rep as [|[[[u' dt] s] q] rep IH]; [reflexivity|].
  cbn [filter fst snd]. destruct (String.eqb s "energy"); cbn [map filter fst snd]; [rewrite andb_true_r|rewrite andb_false_r; exact IH].
  destruct (String.eqb u' u); cbn [length]; [f_equal|]; exact IH.
Qed.

Lemma parameters_rows : forall rep rates, rated rates -> (forall r, In r rates -> one_row rep (ra_unit r)) ->
  Forall2 (fun r p => exists q, was_dispatched rep (ra_unit r) q /\ starts_at r q p) rates (ramp_parameters rep rates).
Proof.
  intros rep rates. unfold ramp_parameters. fold (energy_rows rep). induction rates as [|r rates IH]; intros R O; [constructor|].
  unfold merge_right. cbn [flat_map]. fold (merge_right (fun (a : string * Q) b => String.eqb (fst a) (ra_unit b)) (energy_rows rep) rates).
  specialize (IH (fun r' H => R r' (or_intror H)) (fun r' H => O r' (or_intror H))).
  specialize (O r (or_introl eq_refl)). unfold one_row in O. rewrite <- energy_filter in O.
  destruct (R r (or_introl eq_refl)) as [U D].
  assert (X : starts_at r 0 (Param (ra_unit r) 0 (fill (ra_up r)) (fill (ra_down r)))
              /\ forall q, starts_at r q (Param (ra_unit r) q (fill (ra_up r)) (fill (ra_down r)))).
  { unfold starts_at. cbn. destruct (ra_up r), (ra_down r); try congruence. cbn. repeat split; reflexivity. }
  destruct (filter (fun a : string * Q => String.eqb (fst a) (ra_unit r)) (energy_rows rep)) as [|[u q] [|b l]] eqn:E.
  - cbn [app map fst snd option_map fill]. constructor; [|exact IH]. exists 0. split; [|apply X].
    right. split; [|reflexivity]. intros dt d H.
    assert (Z : In (ra_unit r, d) (energy_rows rep)) by (apply in_energy_rows; eauto).
    assert (Y : In (ra_unit r, d) []) by (rewrite <- E; apply filter_In; split; [exact Z|apply String.eqb_refl]). exact Y.
  - cbn [app map fst snd option_map fill]. constructor; [|exact IH]. exists q. split; [|apply X]. left.
    assert (Y : In (u, q) (filter (fun a : string * Q => String.eqb (fst a) (ra_unit r)) (energy_rows rep))) by (rewrite E; now left).
    apply filter_In in Y. cbn [fst] in Y. destruct Y as [Y Z]. apply String.eqb_eq in Z. subst u. now apply in_energy_rows.
  - cbn [length] in O. lia.
Qed.

Lemma NoDup_count : forall (A : Type) (f : A -> bool) (k : A) l, NoDup l -> (forall a, In a l -> f a = true -> a = k) ->
  (length (filter f l) <= 1)%nat.
Proof.
  intros A f k l N H. induction N as [|a l Ha N IH]; [cbn; lia|]. cbn [filter]. destruct (f a) eqn:E.
  - assert (a = k) by (apply H; [now left|exact E]). subst a.
    assert (Z : filter f l = []).
    { destruct (filter f l) as [|b t] eqn:F; [reflexivity|]. exfalso.
      assert (I : In b (filter f l)) by (rewrite F; now left). apply filter_In in I.
      assert (b = k) by (apply H; [right; apply I|apply I]). subst b. apply Ha. apply I. }
    rewrite Z. cbn. lia.
  - apply IH. intros b Hb. apply H. now right.
Qed.

Lemma no_dispatch : forall m x u s d, ~ offers m u s d -> dispatch m x u s d == 0.
Proof.
  intros m x u s d N. unfold dispatch.
  assert (E : filter (fun v => String.eqb u (bv_unit v) && String.eqb s (bv_service v) && String.eqb d (bv_dt v)) (rows_or_nil (m_bids m)) = []).
  { destruct (filter _ _) as [|v l] eqn:F; [reflexivity|]. exfalso. apply N. exists v.
    assert (I : In v (filter (fun v => String.eqb u (bv_unit v) && String.eqb s (bv_service v) && String.eqb d (bv_dt v)) (rows_or_nil (m_bids m))))
      by (rewrite F; now left).
    apply filter_In in I. rewrite !andb_true_iff, !String.eqb_eq in I. intuition. }
  rewrite E. reflexivity.
Qed.

Lemma parameters_of_market : forall m x rep rates (side : string -> string), unit_dispatch m x = Ok rep -> rated rates ->
  (forall r, In r rates -> one_sided m (ra_unit r) (side (ra_unit r))) ->
  Forall2 (fun r p => starts_at r (dispatch m x (ra_unit r) "energy" (side (ra_unit r))) p) rates (ramp_parameters rep rates).
Proof.
  intros m x rep rates side H R O. destruct (unit_dispatch_rows m x rep H) as [N [D C]].
  assert (P : Forall2 (fun r p => exists q, was_dispatched rep (ra_unit r) q /\ starts_at r q p) rates (ramp_parameters rep rates)).
  { apply parameters_rows; [exact R|]. intros r Hr. unfold one_row.
    rewrite <- (map_length fst).
    assert (E : map fst (filter (fun r0 : ukey * Q => String.eqb (fst (fst (fst r0))) (ra_unit r) && String.eqb (snd (fst r0)) "energy") rep)
      = filter (fun k : ukey => String.eqb (fst (fst k)) (ra_unit r) && String.eqb (snd k) "energy") (map fst rep)).
    { clear. induction rep as [|a rep IH]; [reflexivity|]. cbn [filter map].
      destruct (String.eqb (fst (fst (fst a))) (ra_unit r) && String.eqb (snd (fst a)) "energy"); cbn [map]; [f_equal|]; exact IH. }
    rewrite E. apply (NoDup_count ukey _ (ra_unit r, side (ra_unit r), "energy")); [exact N|].
    intros [[u dt] s] Hin B. cbn [fst snd] in B. apply andb_true_iff in B. rewrite !String.eqb_eq in B. destruct B as [-> ->].
    apply in_map_iff in Hin. destruct Hin as [[k q] [Ek Hin]]. cbn in Ek. subst k.
    destruct (D _ _ _ _ Hin) as [Of _]. rewrite (O r Hr dt Of). reflexivity. }
  assert (G : forall l l', (forall r, In r l -> In r rates) ->
    Forall2 (fun r p => exists q, was_dispatched rep (ra_unit r) q /\ starts_at r q p) l l' ->
    Forall2 (fun r p => starts_at r (dispatch m x (ra_unit r) "energy" (side (ra_unit r))) p) l l').
  { intros l l' I F. induction F as [|r p l l' [q [W S]] F IH]; constructor; [|apply IH; intros a Ha; apply I; now right].
    assert (E : q == dispatch m x (ra_unit r) "energy" (side (ra_unit r))).
    { destruct W as [[dt W]|[W ->]].
      - destruct (D _ _ _ _ W) as [Of E]. rewrite (O r (I r (or_introl eq_refl)) dt Of) in E. exact E.
      - symmetry. apply no_dispatch. intros Of. destruct (C _ _ _ Of) as [q' Hq]. exact (W _ _ Hq). }
    destruct S as [S1 [S2 [S3 S4]]]. repeat split; auto. lra. }
  apply (G rates _ (fun r H => H) P).
Qed.

Lemma seed_rows : forall hist rates u q r, In (u, q, r) (seed_parameters hist rates) <-> In (u, q) hist /\ In r rates /\ ra_unit r = u.
Proof.
  intros hist rates u q r. unfold seed_parameters. rewrite in_map_iff. split.
  - intros [[[u' q'] r'] [E H]]. cbn in E. injection E as -> -> ->. apply in_merge in H. cbn [fst snd] in H.
    destruct H as [H1 [H2 H3]]. apply String.eqb_eq in H3. auto.
  - intros [H1 [H2 <-]]. exists ((ra_unit r, q), r). split; [reflexivity|]. apply in_merge. cbn [fst snd]. rewrite String.eqb_refl. auto.
Qed.

Lemma seed_units : forall hist rates, NoDup (map fst hist) -> NoDup (map ra_unit rates) ->
  NoDup (map (fun p => fst (fst p)) (seed_parameters hist rates)).
Proof.
  intros hist rates N1 N2. unfold seed_parameters. rewrite map_map. cbn [fst].
  induction hist as [|[u q] hist IH]; [constructor|]. cbn [map] in N1. inversion N1 as [|? ? Hu N1']; subst.
  unfold merge. cbn [flat_map]. fold (merge (fun (a : string * Q) b => String.eqb (fst a) (ra_unit b)) hist rates).
  rewrite map_app. apply NoDup_app_iff. split; [|split; [apply IH; exact N1'|]].
  - rewrite map_map. cbn [fst].
    assert (L : (length (filter (fun b => String.eqb u (ra_unit b)) rates) <= 1)%nat).
    { rewrite <- (map_length ra_unit).
      assert (E : map ra_unit (filter (fun b => String.eqb u (ra_unit b)) rates) = filter (String.eqb u) (map ra_unit rates)).
      { clear. induction rates as [|a l IH]; [reflexivity|]. cbn. destruct (String.eqb u (ra_unit a)); cbn; [f_equal|]; exact IH. }
      rewrite E. apply (NoDup_count string _ u); [exact N2|]. intros a _ H. apply String.eqb_eq in H. auto. }
    cbn [fst] in *. destruct (filter (fun b => String.eqb u (ra_unit b)) rates) as [|a [|b l]]; cbn in *; [constructor|repeat constructor; auto|lia].
  - intros a H1 H2. apply in_map_iff in H1. destruct H1 as [p [<- H1]]. apply in_map_iff in H1. destruct H1 as [b [<- _]].
    cbn [fst] in H2. apply in_map_iff in H2. destruct H2 as [[[u' q'] b'] [E H2]]. cbn in E. subst u'.
    apply in_merge in H2. cbn [fst snd] in H2. apply Hu. apply in_map_iff. exists (u, q'). split; [reflexivity|apply H2].
Qed.
