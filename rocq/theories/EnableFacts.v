(** Lemmas about the conditions for enabling FCAS offers. *)

From Coq Require Import QArith Qabs Qround Qminmax Qfield Lqa String List Bool ZArith Lia.
Import ListNotations.
From Verif Require Import PandasModel TablesModel MarketModel ReportsModel OffersModel SpecOffers PandasFacts ReportFacts OffersFacts.
Open Scope string_scope.
Open Scope list_scope.

(** ** Rounding *)

Lemma round_even_near : forall q, Qabs (q - inject_Z (round_even q)) <= 1 # 2.
Proof.
  intros q. unfold round_even. pose proof (Qfloor_le q) as L. pose proof (Qlt_floor q) as U.
  rewrite inject_Z_plus in U. change (inject_Z 1) with 1 in U.
  assert (S : inject_Z (Qfloor q + 1) == inject_Z (Qfloor q) + 1) by (rewrite inject_Z_plus; reflexivity).
  apply Qabs_case; intros C; destruct (Qlt_bool (q - inject_Z (Qfloor q)) (1 # 2)) eqn:A;
    [apply qlt_true in A; lra| |apply qlt_true in A; lra|]; apply qlt_false in A;
    (destruct (Qlt_bool (1 # 2) (q - inject_Z (Qfloor q))) eqn:B; [apply qlt_true in B; lra|apply qlt_false in B]);
    destruct (Z.even (Qfloor q)); lra.
Qed.

Lemma round5_nearest : forall q, nearest5 q (round5 q).
Proof.
  intros q. split; [exists (round_even (q * 100000)); reflexivity|].
  unfold round5. pose proof (round_even_near (q * 100000)) as H. revert H.
  generalize (inject_Z (round_even (q * 100000))). intros z.
  assert (E : q - z / 100000 == (q * 100000 - z) * (1 # 100000)) by field.
  intros H. rewrite E, Qabs_Qmult. change (Qabs (1 # 100000)) with (1 # 100000). lra.
Qed.

Lemma round_even_same : forall a b, a == b -> round_even a = round_even b.
Proof.
  intros a b E. unfold round_even. rewrite (Qfloor_comp a b E).
  assert (D : a - inject_Z (Qfloor b) == b - inject_Z (Qfloor b)) by lra.
  assert (L : forall x y, Qlt_bool (a - inject_Z (Qfloor b)) x = Qlt_bool (b - inject_Z (Qfloor b)) x
    /\ Qlt_bool y (a - inject_Z (Qfloor b)) = Qlt_bool y (b - inject_Z (Qfloor b))).
  { intros x y. split; apply eq_true_iff_eq; rewrite !qlt_true; rewrite D; tauto. }
  destruct (L (1 # 2) (1 # 2)) as [-> ->]. reflexivity.
Qed.
Lemma round5_same : forall a b, a == b -> round5 a = round5 b.
Proof. intros a b E. unfold round5. rewrite (round_even_same (a * 100000) (b * 100000)); [reflexivity|lra]. Qed.

Lemma starts_iff : forall lo hi mw, starts_within lo hi mw = true <-> inside lo hi mw.
Proof.
  intros lo hi mw. unfold starts_within, inside. destruct mw as [q|].
  - rewrite andb_true_iff, !Qle_bool_iff. split; [intros [A B]; eauto|]. intros [q' [E [A B]]]. injection E as <-. auto.
  - split; [discriminate|]. intros [q [E _]]. discriminate.
Qed.
Lemma starts_not_negative : forall lo hi mw,
  starts_within lo hi (match mw with Some q => Some (if Qlt_bool q 0 then 0 else q) | None => None end) = true
  <-> inside lo hi (not_negative mw).
Proof.
  intros lo hi mw. rewrite starts_iff. unfold not_negative, inside. destruct mw as [q|].
  - assert (E : (if Qlt_bool q 0 then 0 else q) == Qmax 0 q).
    { destruct (Qlt_bool q 0) eqn:L; [apply qlt_true in L|apply qlt_false in L].
      - symmetry. apply Q.max_l. lra.
      - symmetry. apply Q.max_r. lra. }
    apply round5_same in E. split; intros [x [H [A B]]]; injection H as <-; eexists; (split; [reflexivity|]);
      [rewrite E in A, B|rewrite E]; auto.
  - split; intros [x [H _]]; discriminate.
Qed.

(** ** Capacities *)

Lemma upper_side : forall x d, x = "generator" \/ x = "load" -> d = "GENERATOR" \/ d = "LOAD" ->
  String.eqb d (upper x) = true <-> x = side d.
Proof. intros x d [-> | ->] [-> | ->]; vm_compute; split; congruence. Qed.

Lemma cap_on_iff : forall caps u d c, caps_ok caps -> d = "GENERATOR" \/ d = "LOAD" -> In c caps ->
  cap_on u d c = true <-> cp_unit c = u /\ cp_dir c = Some (side d).
Proof.
  intros caps u d c [N _] D Hc. unfold cap_on. rewrite andb_true_iff, String.eqb_eq. destruct (cp_dir c) as [x|] eqn:X.
  - rewrite (upper_side x d (N c x Hc X) D). intuition congruence.
  - intuition congruence.
Qed.

(** What a merge with the capacities says about one unit and side. *)
Lemma cap_merged : forall A (f : A -> string) d caps (l : list A) p,
  caps_ok caps -> (d (fst p) = "GENERATOR" \/ d (fst p) = "LOAD") ->
  In p (merge_left (fun a c => cap_on (f a) (d a) c) l caps) ->
  In (fst p) l /\ forall q, capacity caps (f (fst p)) (d (fst p)) q <-> option_map cp_cap (snd p) = Some q.
Proof.
  intros A f d caps l [a o] K D H. cbn [fst snd] in *. apply in_merge_left in H. cbn [fst snd] in H. destruct H as [Ha Ho].
  split; [exact Ha|]. intros q. unfold capacity. destruct o as [c|]; cbn [option_map].
  - destruct Ho as [Hc On]. apply (cap_on_iff caps) in On; auto. destruct On as [U S]. split.
    + intros [c' [Hc' [U' [S' <-]]]]. destruct K as [_ K]. rewrite (K c' c); auto; try congruence.
    + intros E. injection E as <-. exists c. auto.
  - split; [|discriminate]. intros [c [Hc [U [S _]]]]. specialize (Ho c Hc).
    assert (T : cap_on (f a) (d a) c = true) by (apply (cap_on_iff caps); auto). congruence.
Qed.
Lemma merge_left_has : forall A B (on : A -> B -> bool) l r a, In a l -> exists o, In (a, o) (merge_left on l r).
Proof.
  intros A B on l r a Ha. unfold merge_left. destruct (filter (on a) r) as [|c t] eqn:F.
  - exists None. apply in_flat_map. exists a. split; [exact Ha|]. rewrite F. now left.
  - exists (Some c). apply in_flat_map. exists a. split; [exact Ha|]. rewrite F. now left.
Qed.
Lemma cap_merge_has : forall A (f : A -> string) d caps (l : list A) a, In a l ->
  exists o, In (a, o) (merge_left (fun a c => cap_on (f a) (d a) c) l caps).
Proof. intros A f d caps l a Ha. now apply merge_left_has. Qed.

Lemma reaches_iff : forall cap q, reaches cap q = true <-> forall c, cap = Some c -> q <= c.
Proof.
  intros [c|] q; cbn; [rewrite Qle_bool_iff|]; (split; [intros H c' E|intros H]).
  - injection E as <-. exact H.
  - now apply H.
  - discriminate.
  - reflexivity.
Qed.
Lemma charges_iff : forall cap q, charges cap q = true <-> forall c, cap = Some c -> - c <= q.
Proof.
  intros [c|] q; cbn [charges]; [rewrite Qle_bool_iff|]; (split; [intros H c' E|intros H]).
  - injection E as <-. lra.
  - specialize (H c eq_refl). lra.
  - discriminate.
  - reflexivity.
Qed.

(** ** The rows *)

Definition row_of (offers : list offer) (ics : list initial) (caps : list cap_row) (r : fcas_row) : Prop :=
  In (fc_offer r) offers /\ of_type (fc_offer r) <> "ENERGY" /\ offered caps (fc_offer r)
  /\ In (fc_init r) ics /\ ic_duid (fc_init r) = of_duid (fc_offer r)
  /\ forall q, capacity caps (of_duid (fc_offer r)) (of_dir (fc_offer r)) q <-> fc_cap r = Some q.

Lemma rows_sound : forall offers ics caps r, offers_ok offers -> caps_ok caps ->
  In r (fcas_rows offers ics caps) -> row_of offers ics caps r.
Proof.
  intros offers ics caps r [_ [Dir _]] K H. unfold fcas_rows in H. apply in_map_iff in H. destruct H as [[[o cap] i] [<- H]].
  apply in_merge in H. cbn [fst snd] in H. destruct H as [H [Hi D]]. apply filter_In in H. destruct H as [H R]. cbn [fst snd] in R.
  apply in_map_iff in H. destruct H as [p [E H]]. injection E as <- <-.
  pose proof H as Hm. apply in_merge_left in Hm. destruct Hm as [Hm _]. rewrite !filter_In in Hm. destruct Hm as [[[Ho T] M] B].
  apply (cap_merged offer of_duid of_dir caps) in H; [|exact K|auto]. destruct H as [_ C].
  unfold row_of. cbn [fc_offer fc_cap fc_init fst snd]. apply String.eqb_eq in D. apply qlt_true in M.
  unfold of_type_is in T. rewrite negb_true_iff, String.eqb_neq in T.
  apply existsb_exists in B. destruct B as [v [Hv B]]. apply qlt_true in B.
  split; [exact Ho|]. split; [exact T|]. split; [|split; [exact Hi|split; [auto|exact C]]].
  split; [exact M|]. split; [eauto|]. intros q Hq. apply C in Hq. rewrite reaches_iff in R. auto.
Qed.

Lemma rows_complete : forall offers ics caps o i, offers_ok offers -> caps_ok caps ->
  In o offers -> of_type o <> "ENERGY" -> offered caps o -> In i ics -> ic_duid i = of_duid o ->
  exists c, In (Fcas o c i) (fcas_rows offers ics caps).
Proof.
  intros offers ics caps o i [_ [Dir _]] K Ho T [M [[v [Hv B]] L]] Hi D.
  assert (F : In o (filter (fun o => existsb (Qlt_bool 0) (of_bands o)) (filter (fun o => Qlt_bool 0 (of_max o)) (filter (fun o => negb (of_type_is "ENERGY" o)) offers)))).
  { rewrite !filter_In. unfold of_type_is. rewrite negb_true_iff, String.eqb_neq, qlt_true, existsb_exists. repeat split; auto.
    exists v. rewrite qlt_true. auto. }
  destruct (cap_merge_has offer of_duid of_dir caps _ o F) as [c Hc]. exists (option_map cp_cap c).
  unfold fcas_rows. apply in_map_iff. exists ((o, option_map cp_cap c), i). split; [reflexivity|].
  apply in_merge. cbn [fst snd]. split; [|split; [exact Hi|now apply String.eqb_eq]].
  apply filter_In. cbn [fst snd]. split; [apply in_map_iff; exists (o, c); auto|].
  apply (cap_merged offer of_duid of_dir caps) in Hc; [|exact K|cbn [fst]; auto]. destruct Hc as [_ Hc]. cbn [fst snd] in Hc.
  apply reaches_iff. intros q Hq. apply L. now apply Hc.
Qed.

Lemma reg_iff : forall r offers, offers_ok offers -> In (fc_offer r) offers -> of_type (fc_offer r) <> "ENERGY" ->
  reg_row r = true <-> regulation (of_type (fc_offer r)).
Proof.
  intros r offers [N _] H T. destruct (N _ H) as [C|C]; [contradiction|]. unfold reg_row, regulation.
  repeat (destruct C as [<-|C]; [vm_compute; intuition congruence|]). destruct C.
Qed.
Lemma not_reg_iff : forall r offers, offers_ok offers -> In (fc_offer r) offers -> of_type (fc_offer r) <> "ENERGY" ->
  negb (reg_row r) = true <-> ~ regulation (of_type (fc_offer r)).
Proof.
  intros r offers K H T. rewrite <- (reg_iff r offers K H T), negb_true_iff. destruct (reg_row r); intuition congruence.
Qed.

Lemma bdu_iff : forall r, is_bdu r = true <-> two_way (fc_init r).
Proof. intros r. unfold is_bdu, two_way. apply String.eqb_eq. Qed.
Lemma not_bdu_iff : forall r, negb (is_bdu r) = true <-> ~ two_way (fc_init r).
Proof. intros r. rewrite <- bdu_iff, negb_true_iff. destruct (is_bdu r); intuition congruence. Qed.

Lemma agc_iff : forall r, agc_on r = true <-> (regulation (of_type (fc_offer r)) -> forall q, ic_agc (fc_init r) = Some q -> ~ q == 0).
Proof.
  intros r. unfold agc_on. rewrite negb_true_iff, andb_false_iff, <- is_reg_iff. destruct (ic_agc (fc_init r)) as [a|].
  - split.
    + intros [H|H] R q E; [|congruence]. injection E as <-. intros Z. apply Qeq_bool_iff in Z. congruence.
    + intros H. destruct (is_reg (fc_offer r)); [|auto]. left. destruct (Qeq_bool a 0) eqn:Z; [|reflexivity].
      apply Qeq_bool_iff in Z. destruct (H eq_refl a eq_refl Z).
  - split; [intros _ _ q E; discriminate|auto].
Qed.

Section Rows.
Variables (offers : list offer) (ics : list initial) (caps : list cap_row).
Hypotheses (Ko : offers_ok offers) (Kc : caps_ok caps).

Let rows := fcas_rows offers ics caps.

Lemma row_ok : forall r, In r rows -> row_of offers ics caps r.
Proof. intros r H. now apply rows_sound. Qed.

Definition side_rows (d : string) : list fcas_row := filter reg_row (filter (dir_is d) (filter is_bdu rows)).

Lemma in_side : forall d r, In r (side_rows d) <->
  In r rows /\ two_way (fc_init r) /\ of_dir (fc_offer r) = d /\ regulation (of_type (fc_offer r)).
Proof.
  intros d r. unfold side_rows. rewrite !filter_In. unfold dir_is. rewrite String.eqb_eq, bdu_iff. split.
  - intros [[[H B] D] R]. destruct (row_ok r H) as [A [T _]]. rewrite (reg_iff r offers Ko A T) in R. auto.
  - intros [H [B [D R]]]. destruct (row_ok r H) as [A [T _]]. rewrite (reg_iff r offers Ko A T). auto.
Qed.

(** The other side of a regulation row. *)
Lemma in_other : forall d d' r, In r (side_rows d) -> d <> d' -> (d' = "GENERATOR" \/ d' = "LOAD") ->
  (forall l, In l (side_rows d') -> other_side r l = true -> mirror offers caps (fc_offer r) (fc_offer l))
  /\ (forall o', mirror offers caps (fc_offer r) o' -> exists l, In l (side_rows d') /\ other_side r l = true /\ fc_offer l = o').
Proof.
  intros d d' r Hr N D'. apply in_side in Hr. destruct Hr as [Hr [B [D R]]]. destruct (row_ok r Hr) as [A [T [Of [Hi [Du _]]]]]. split.
  - intros l Hl O. apply in_side in Hl. destruct Hl as [Hl [B' [Dl Rl]]]. destruct (row_ok l Hl) as [A' [T' [Of' _]]].
    unfold other_side in O. rewrite andb_true_iff, !String.eqb_eq in O. destruct O as [O1 O2].
    unfold mirror. repeat split; auto; try congruence; apply Of'.
  - intros o' [Ho' [U [Ty [Di Of']]]].
    destruct (rows_complete offers ics caps o' (fc_init r) Ko Kc Ho') as [c Hc]; auto; try congruence.
    exists (Fcas o' c (fc_init r)). split; [|split; [|reflexivity]].
    + apply in_side. cbn [fc_offer fc_init]. repeat split; auto.
      * destruct Ko as [_ [Dir _]]. destruct (Dir _ Ho') as [X|X], D' as [Y|Y], (Dir _ A) as [Z|Z]; congruence.
      * now rewrite Ty.
    + unfold other_side. cbn [fc_offer]. rewrite andb_true_iff, !String.eqb_eq. auto.
Qed.

Lemma mirror_one : forall o a b, In o offers -> mirror offers caps o a -> mirror offers caps o b -> a = b.
Proof.
  intros o a b Ho [A1 [A2 [A3 [A4 _]]]] [B1 [B2 [B3 [B4 _]]]]. destruct Ko as [_ [Dir U]]. apply U; auto; try congruence.
  destruct (Dir _ A1) as [X|X], (Dir _ B1) as [Y|Y], (Dir _ Ho) as [Z|Z]; congruence.
Qed.

(** The limit of a regulation row after the merge with the other side. *)
Lemma merged_other : forall d d' r m (f : offer -> Q), In r (side_rows d) -> d <> d' -> (d' = "GENERATOR" \/ d' = "LOAD") ->
  In (r, m) (merge_left other_side (side_rows d) (side_rows d')) ->
  (exists o', mirror offers caps (fc_offer r) o' /\ or_else (option_map (fun l => f (fc_offer l)) m) (f (fc_offer r)) = f o')
  \/ ((forall o', ~ mirror offers caps (fc_offer r) o') /\ or_else (option_map (fun l => f (fc_offer l)) m) (f (fc_offer r)) = f (fc_offer r)).
Proof.
  intros d d' r m f Hr N D' H. destruct (in_other d d' r Hr N D') as [S C].
  apply in_merge_left in H. cbn [fst snd] in H. destruct H as [_ H]. destruct m as [l|]; cbn [option_map or_else].
  - left. destruct H as [Hl O]. exists (fc_offer l). auto.
  - right. split; [|reflexivity]. intros o' M. destruct (C o' M) as [l [Hl [O _]]]. rewrite (H l Hl) in O. discriminate.
Qed.
Lemma merged_has : forall d d' r, In r (side_rows d) -> exists m, In (r, m) (merge_left other_side (side_rows d) (side_rows d')).
Proof.
  intros d d' r Hr. unfold merge_left. destruct (filter (other_side r) (side_rows d')) as [|l t] eqn:F.
  - exists None. apply in_flat_map. exists r. split; [exact Hr|]. rewrite F. now left.
  - exists (Some l). apply in_flat_map. exists r. split; [exact Hr|]. rewrite F. now left.
Qed.

Lemma gen_reg_iff : forall o,
  (exists r lo hi, In (r, lo, hi) (gen_reg_rows (side_rows "GENERATOR") (side_rows "LOAD")) /\ starts_within lo hi (ic_mw (fc_init r)) = true
     /\ agc_on r = true /\ fc_offer r = o)
  <-> In o offers /\ of_type o <> "ENERGY" /\ offered caps o /\ exists i, In i ics /\ ic_duid i = of_duid o
     /\ (regulation (of_type o) -> forall q, ic_agc i = Some q -> ~ q == 0)
     /\ two_way i /\ regulation (of_type o) /\ of_dir o = "GENERATOR" /\ 0 <= of_emax o
     /\ exists lo hi, lower_limit offers caps o lo /\ upper_limit offers caps o hi /\ inside lo hi (ic_mw i).
Proof.
  intros o. unfold gen_reg_rows. split.
  - intros [r [lo [hi [H [W [G <-]]]]]]. apply filter_In in H. cbn [fst snd] in H. destruct H as [H C].
    apply andb_true_iff in C. destruct C as [C _]. apply Qle_bool_iff in C.
    apply in_map_iff in H. destruct H as [[r' m] [E H]]. cbn [fst snd] in E. injection E as -> <- <-.
    pose proof H as Hr. apply in_merge_left in Hr. destruct Hr as [Hr _]. cbn [fst] in Hr.
    pose proof (merged_other "GENERATOR" "LOAD" _ _ of_emin Hr ltac:(discriminate) ltac:(auto) H) as L.
    apply in_side in Hr. destruct Hr as [Hr [B [D R]]]. destruct (row_ok r Hr) as [A [T [Of [Hi [Du _]]]]].
    repeat (split; [assumption|]). exists (fc_init r). split; [exact Hi|]. split; [exact Du|]. split; [now apply agc_iff|].
    repeat (split; [assumption|]). eexists _, _. split; [|split; [|apply starts_iff, W]].
    + unfold lower_limit. destruct L as [[o' [M E]]|[M E]]; rewrite E; [left; eauto|right; auto].
    + right. auto.
  - intros [Ho [T [Of [i [Hi [Du [G [B [R [D [C [lo [hi [L [U W]]]]]]]]]]]]]]].
    destruct (rows_complete offers ics caps o i Ko Kc Ho T Of Hi Du) as [c Hr].
    assert (Hs : In (Fcas o c i) (side_rows "GENERATOR")) by (apply in_side; auto).
    destruct (merged_has "GENERATOR" "LOAD" _ Hs) as [m Hm].
    pose proof (merged_other "GENERATOR" "LOAD" _ _ of_emin Hs ltac:(discriminate) ltac:(auto) Hm) as L'. cbn [fc_offer] in L'.
    exists (Fcas o c i). eexists _, _. split; [|split; [|split; [apply agc_iff; exact G|reflexivity]]].
    + apply filter_In. split; [apply in_map_iff; exists (Fcas o c i, m); split; [reflexivity|exact Hm]|].
      cbn [fst snd fc_offer fc_cap]. rewrite andb_true_iff, Qle_bool_iff. split; [exact C|].
      apply reaches_iff. intros q Hq. destruct (row_ok _ Hr) as [_ [_ [_ [_ [_ K]]]]]. cbn [fc_offer fc_cap] in K. apply K in Hq. now apply Of.
    + cbn [fst snd fc_offer fc_init]. apply starts_iff.
      assert (EL : lo = or_else (option_map (fun l => of_emin (fc_offer l)) m) (of_emin o)).
      { destruct L as [[_ [o' [M ->]]]|[[M| M] ->]]; [|congruence|].
        - destruct L' as [[o2 [M2 ->]]|[N _]]; [|destruct (N o' M)]. now rewrite (mirror_one o o' o2).
        - destruct L' as [[o2 [M2 _]]|[_ ->]]; [destruct (M o2 M2)|reflexivity]. }
      assert (EU : hi = of_emax o). { destruct U as [[X _]|[_ ->]]; [congruence|reflexivity]. }
      rewrite <- EL, <- EU. exact W.
Qed.

Lemma load_reg_iff : forall o,
  (exists r lo hi, In (r, lo, hi) (load_reg_rows (side_rows "GENERATOR") (side_rows "LOAD")) /\ starts_within lo hi (ic_mw (fc_init r)) = true
     /\ agc_on r = true /\ fc_offer r = o)
  <-> In o offers /\ of_type o <> "ENERGY" /\ offered caps o /\ exists i, In i ics /\ ic_duid i = of_duid o
     /\ (regulation (of_type o) -> forall q, ic_agc i = Some q -> ~ q == 0)
     /\ two_way i /\ regulation (of_type o) /\ of_dir o = "LOAD" /\ of_emin o <= 0 /\ load_fits caps o
     /\ exists lo hi, lower_limit offers caps o lo /\ upper_limit offers caps o hi /\ inside lo hi (ic_mw i).
Proof.
  intros o. unfold load_reg_rows. split.
  - intros [r [lo [hi [H [W [G <-]]]]]]. apply filter_In in H. cbn [fst snd] in H. destruct H as [H C].
    apply andb_true_iff in C. destruct C as [C F]. apply Qle_bool_iff in C.
    apply in_map_iff in H. destruct H as [[r' m] [E H]]. cbn [fst snd] in E. injection E as -> <- <-.
    pose proof H as Hr. apply in_merge_left in Hr. destruct Hr as [Hr _]. cbn [fst] in Hr.
    pose proof (merged_other "LOAD" "GENERATOR" _ _ of_emax Hr ltac:(discriminate) ltac:(auto) H) as L.
    apply in_side in Hr. destruct Hr as [Hr [B [D R]]]. destruct (row_ok r Hr) as [A [T [Of [Hi [Du K]]]]].
    repeat (split; [assumption|]). exists (fc_init r). split; [exact Hi|]. split; [exact Du|]. split; [now apply agc_iff|].
    repeat (split; [assumption|]). split.
    + intros q Hq. rewrite <- D in Hq. apply K in Hq. now apply (proj1 (charges_iff _ _) F).
    + eexists _, _. split; [|split; [|apply starts_iff, W]].
      * right. auto.
      * unfold upper_limit. destruct L as [[o' [M E]]|[M E]]; rewrite E; [left; eauto|right; auto].
  - intros [Ho [T [Of [i [Hi [Du [G [B [R [D [C [F [lo [hi [L [U W]]]]]]]]]]]]]]]].
    destruct (rows_complete offers ics caps o i Ko Kc Ho T Of Hi Du) as [c Hr].
    assert (Hs : In (Fcas o c i) (side_rows "LOAD")) by (apply in_side; auto).
    destruct (merged_has "LOAD" "GENERATOR" _ Hs) as [m Hm].
    pose proof (merged_other "LOAD" "GENERATOR" _ _ of_emax Hs ltac:(discriminate) ltac:(auto) Hm) as L'. cbn [fc_offer] in L'.
    exists (Fcas o c i). eexists _, _. split; [|split; [|split; [apply agc_iff; exact G|reflexivity]]].
    + apply filter_In. split; [apply in_map_iff; exists (Fcas o c i, m); split; [reflexivity|exact Hm]|].
      cbn [fst snd fc_offer fc_cap]. rewrite andb_true_iff, Qle_bool_iff. split; [exact C|].
      apply charges_iff. intros q Hq. destruct (row_ok _ Hr) as [_ [_ [_ [_ [_ K]]]]]. cbn [fc_offer fc_cap] in K. apply K in Hq.
      apply F. now rewrite D in Hq.
    + cbn [fst snd fc_offer fc_init]. apply starts_iff.
      assert (EU : hi = or_else (option_map (fun l => of_emax (fc_offer l)) m) (of_emax o)).
      { destruct U as [[_ [o' [M ->]]]|[[M| M] ->]]; [|congruence|].
        - destruct L' as [[o2 [M2 ->]]|[N _]]; [|destruct (N o' M)]. now rewrite (mirror_one o o' o2).
        - destruct L' as [[o2 [M2 _]]|[_ ->]]; [destruct (M o2 M2)|reflexivity]. }
      assert (EL : lo = of_emin o). { destruct L as [[X _]|[_ ->]]; [congruence|reflexivity]. }
      rewrite <- EL, <- EU. exact W.
Qed.

Definition con_rows (d : string) : list fcas_row := filter (fun r => negb (reg_row r)) (filter (dir_is d) (filter is_bdu rows)).
Lemma in_con : forall d r, In r (con_rows d) <->
  In r rows /\ two_way (fc_init r) /\ of_dir (fc_offer r) = d /\ ~ regulation (of_type (fc_offer r)).
Proof.
  intros d r. unfold con_rows. rewrite !filter_In. unfold dir_is. rewrite String.eqb_eq, bdu_iff. split.
  - intros [[[H B] D] R]. destruct (row_ok r H) as [A [T _]]. rewrite (not_reg_iff r offers Ko A T) in R. auto.
  - intros [H [B [D R]]]. destruct (row_ok r H) as [A [T _]]. rewrite (not_reg_iff r offers Ko A T). auto.
Qed.

Lemma gen_con_iff : forall o,
  (exists r, In r (gen_con_rows (con_rows "GENERATOR") caps) /\ within_own r = true /\ agc_on r = true /\ fc_offer r = o)
  <-> In o offers /\ of_type o <> "ENERGY" /\ offered caps o /\ exists i, In i ics /\ ic_duid i = of_duid o
     /\ (regulation (of_type o) -> forall q, ic_agc i = Some q -> ~ q == 0)
     /\ two_way i /\ ~ regulation (of_type o) /\ of_dir o = "GENERATOR" /\ 0 <= of_emax o /\ load_fits caps o
     /\ inside (of_emin o) (of_emax o) (ic_mw i).
Proof.
  intros o. unfold gen_con_rows. split.
  - intros [r0 [H [W [G <-]]]]. apply in_map_iff in H. destruct H as [[r c] [<- H]]. cbn [fst snd fc_offer fc_init] in *.
    apply filter_In in H. cbn [fst snd] in H. destruct H as [H F].
    apply (cap_merged _ (fun r => of_duid (fc_offer r)) (fun _ => "LOAD") caps) in H; [|exact Kc|auto]. cbn [fst snd] in H.
    destruct H as [H K]. apply filter_In in H. destruct H as [H C]. apply andb_true_iff in C. destruct C as [C _]. apply Qle_bool_iff in C.
    apply in_con in H. destruct H as [Hr [B [D R]]]. destruct (row_ok r Hr) as [A [T [Of [Hi [Du _]]]]].
    repeat (split; [assumption|]). exists (fc_init r). split; [exact Hi|]. split; [exact Du|]. split; [intros X; contradiction|].
    repeat (split; [assumption|]). split; [|now apply starts_iff].
    intros q Hq. apply K in Hq. now apply (proj1 (charges_iff _ _) F).
  - intros [Ho [T [Of [i [Hi [Du [G [B [R [D [C [F W]]]]]]]]]]]].
    destruct (rows_complete offers ics caps o i Ko Kc Ho T Of Hi Du) as [c Hr].
    assert (Hs : In (Fcas o c i) (filter keep_gen_con (con_rows "GENERATOR"))).
    { apply filter_In. split; [apply in_con; auto|]. unfold keep_gen_con. cbn [fc_offer fc_cap]. rewrite andb_true_iff, Qle_bool_iff. split; [exact C|].
      apply reaches_iff. intros q Hq. destruct (row_ok _ Hr) as [_ [_ [_ [_ [_ K]]]]]. cbn [fc_offer fc_cap] in K. apply K in Hq. now apply Of. }
    destruct (cap_merge_has _ (fun r => of_duid (fc_offer r)) (fun _ => "LOAD") caps _ _ Hs) as [m Hm].
    exists (Fcas o (option_map cp_cap m) i). split; [|split; [apply starts_iff; exact W|split; [apply agc_iff; exact G|reflexivity]]].
    apply in_map_iff. exists (Fcas o c i, m). split; [reflexivity|]. apply filter_In. split; [exact Hm|]. cbn [fst snd fc_offer].
    apply (cap_merged _ (fun r => of_duid (fc_offer r)) (fun _ => "LOAD") caps) in Hm; [|exact Kc|auto]. cbn [fst snd fc_offer] in Hm. destruct Hm as [_ K].
    apply charges_iff. intros q Hq. apply K in Hq. now apply F.
Qed.

Lemma load_con_iff : forall o,
  (exists r, In r (filter keep_load_con (con_rows "LOAD")) /\ within_own r = true /\ agc_on r = true /\ fc_offer r = o)
  <-> In o offers /\ of_type o <> "ENERGY" /\ offered caps o /\ exists i, In i ics /\ ic_duid i = of_duid o
     /\ (regulation (of_type o) -> forall q, ic_agc i = Some q -> ~ q == 0)
     /\ two_way i /\ ~ regulation (of_type o) /\ of_dir o = "LOAD" /\ of_emin o <= 0
     /\ inside (of_emin o) (of_emax o) (ic_mw i).
Proof.
  intros o. split.
  - intros [r [H [W [G <-]]]]. apply filter_In in H. destruct H as [H C]. apply Qle_bool_iff in C.
    apply in_con in H. destruct H as [Hr [B [D R]]]. destruct (row_ok r Hr) as [A [T [Of [Hi [Du _]]]]].
    repeat (split; [assumption|]). exists (fc_init r). split; [exact Hi|]. split; [exact Du|]. split; [intros X; contradiction|].
    repeat (split; [assumption|]). now apply starts_iff.
  - intros [Ho [T [Of [i [Hi [Du [G [B [R [D [C W]]]]]]]]]]].
    destruct (rows_complete offers ics caps o i Ko Kc Ho T Of Hi Du) as [c Hr].
    exists (Fcas o c i). split; [|split; [apply starts_iff; exact W|split; [apply agc_iff; exact G|reflexivity]]].
    apply filter_In. split; [apply in_con; auto|]. now apply Qle_bool_iff.
Qed.

Lemma plain_iff : forall o,
  (exists r, In r (filter keep_plain (filter (fun r => negb (is_bdu r)) rows)) /\ agc_on r = true /\ fc_offer r = o)
  <-> In o offers /\ of_type o <> "ENERGY" /\ offered caps o /\ exists i, In i ics /\ ic_duid i = of_duid o
     /\ (regulation (of_type o) -> forall q, ic_agc i = Some q -> ~ q == 0)
     /\ ~ two_way i /\ 0 <= of_emax o /\ inside (of_emin o) (of_emax o) (not_negative (ic_mw i)).
Proof.
  intros o. split.
  - intros [r [H [G <-]]]. rewrite !filter_In, not_bdu_iff in H. destruct H as [[Hr B] C]. unfold keep_plain in C.
    rewrite !andb_true_iff, Qle_bool_iff, starts_not_negative in C. destruct C as [[C _] W].
    destruct (row_ok r Hr) as [A [T [Of [Hi [Du _]]]]].
    repeat (split; [assumption|]). exists (fc_init r). split; [exact Hi|]. split; [exact Du|]. split; [now apply agc_iff|]. auto.
  - intros [Ho [T [Of [i [Hi [Du [G [B [C W]]]]]]]]].
    destruct (rows_complete offers ics caps o i Ko Kc Ho T Of Hi Du) as [c Hr].
    exists (Fcas o c i). split; [|split; [apply agc_iff; exact G|reflexivity]].
    rewrite !filter_In, not_bdu_iff. split; [auto|]. unfold keep_plain. cbn [fc_offer fc_cap fc_init].
    rewrite !andb_true_iff, Qle_bool_iff, starts_not_negative. repeat split; auto.
    apply reaches_iff. intros q Hq. destruct (row_ok _ Hr) as [_ [_ [_ [_ [_ K]]]]]. cbn [fc_offer fc_cap] in K. apply K in Hq. now apply Of.
Qed.

Lemma enabled_iff : forall o, In o (map fc_offer (enabled_rows offers ics caps)) <->
  In o offers /\ of_type o <> "ENERGY" /\ enabled offers ics caps o.
Proof.
  intros o. unfold enabled_rows. fold rows. fold (side_rows "GENERATOR"). fold (side_rows "LOAD").
  fold (con_rows "GENERATOR"). fold (con_rows "LOAD").
  assert (E : In o (map fc_offer (filter agc_on
    (filter within_own (filter keep_load_con (con_rows "LOAD")) ++ filter within_own (gen_con_rows (con_rows "GENERATOR") caps)
     ++ filter keep_plain (filter (fun r => negb (is_bdu r)) rows)
     ++ map (fun p => fst (fst p))
          (filter (fun p => starts_within (snd (fst p)) (snd p) (ic_mw (fc_init (fst (fst p)))))
             (gen_reg_rows (side_rows "GENERATOR") (side_rows "LOAD") ++ load_reg_rows (side_rows "GENERATOR") (side_rows "LOAD"))))))
   <-> (exists r, In r (filter keep_load_con (con_rows "LOAD")) /\ within_own r = true /\ agc_on r = true /\ fc_offer r = o)
    \/ (exists r, In r (gen_con_rows (con_rows "GENERATOR") caps) /\ within_own r = true /\ agc_on r = true /\ fc_offer r = o)
    \/ (exists r, In r (filter keep_plain (filter (fun r => negb (is_bdu r)) rows)) /\ agc_on r = true /\ fc_offer r = o)
    \/ (exists r lo hi, In (r, lo, hi) (gen_reg_rows (side_rows "GENERATOR") (side_rows "LOAD")) /\ starts_within lo hi (ic_mw (fc_init r)) = true
         /\ agc_on r = true /\ fc_offer r = o)
    \/ (exists r lo hi, In (r, lo, hi) (load_reg_rows (side_rows "GENERATOR") (side_rows "LOAD")) /\ starts_within lo hi (ic_mw (fc_init r)) = true
         /\ agc_on r = true /\ fc_offer r = o)).
  { rewrite in_map_iff. split.
    - intros [r [<- H]]. apply filter_In in H. destruct H as [H G]. rewrite !in_app_iff in H. destruct H as [H|[H|[H|H]]].
      + apply filter_In in H. destruct H as [H W]. left. eauto.
      + apply filter_In in H. destruct H as [H W]. right; left. eauto.
      + right; right; left. eauto.
      + apply in_map_iff in H. destruct H as [[[r' lo] hi] [<- H]]. apply filter_In in H. cbn [fst snd] in *. destruct H as [H W].
        apply in_app_iff in H. destruct H as [H|H]; [right; right; right; left|right; right; right; right]; exists r', lo, hi; auto.
    - intros H.
      assert (K : exists r, agc_on r = true /\ fc_offer r = o /\ (In r (filter within_own (filter keep_load_con (con_rows "LOAD")))
         \/ In r (filter within_own (gen_con_rows (con_rows "GENERATOR") caps)) \/ In r (filter keep_plain (filter (fun r => negb (is_bdu r)) rows))
         \/ In r (map (fun p => fst (fst p))
          (filter (fun p => starts_within (snd (fst p)) (snd p) (ic_mw (fc_init (fst (fst p)))))
             (gen_reg_rows (side_rows "GENERATOR") (side_rows "LOAD") ++ load_reg_rows (side_rows "GENERATOR") (side_rows "LOAD")))))).
      { destruct H as [[r [H [W [G E]]]]|[[r [H [W [G E]]]]|[[r [H [G E]]]|[[r [lo [hi [H [W [G E]]]]]]|[r [lo [hi [H [W [G E]]]]]]]]]];
          exists r; (split; [exact G|split; [exact E|]]).
        - left. now apply filter_In.
        - right; left. now apply filter_In.
        - right; right; left. exact H.
        - right; right; right. apply in_map_iff. exists (r, lo, hi). split; [reflexivity|]. apply filter_In. cbn [fst snd]. split; [apply in_app_iff; auto|exact W].
        - right; right; right. apply in_map_iff. exists (r, lo, hi). split; [reflexivity|]. apply filter_In. cbn [fst snd]. split; [apply in_app_iff; auto|exact W]. }
      destruct K as [r [G [E K]]]. exists r. split; [exact E|]. apply filter_In. split; [|exact G]. rewrite !in_app_iff. exact K. }
  rewrite E, load_con_iff, gen_con_iff, plain_iff, gen_reg_iff, load_reg_iff. unfold enabled. clear E. split.
  - intros [H|[H|[H|[H|H]]]]; destruct H as [Ho [T [Of [i [Hi [Du [G H]]]]]]];
      (split; [exact Ho|split; [exact T|split; [exact Of|exists i; split; [exact Hi|split; [exact Du|split; [exact G|]]]]]]); tauto.
  - intros [Ho [T [Of [i [Hi [Du [G H]]]]]]].
    destruct H as [H|[H|[H|[H|H]]]]; [right; right; left|right; left|left|right; right; right; left|right; right; right; right];
      (split; [exact Ho|split; [exact T|split; [exact Of|exists i; split; [exact Hi|split; [exact Du|split; [exact G|exact H]]]]]]).
Qed.
End Rows.

(** ** The whole step *)

Lemma enforce_volumes : forall offers prices ics caps o, offers_ok offers -> caps_ok caps ->
  In o (fst (enforce offers prices ics caps)) <-> In o offers /\ (of_type o = "ENERGY" \/ enabled offers ics caps o).
Proof.
  intros offers prices ics caps o Ko Kc. unfold enforce. cbn [fst]. rewrite in_app_iff, filter_In.
  rewrite (enabled_iff offers ics caps Ko Kc). unfold of_type_is. rewrite String.eqb_eq.
  destruct (string_dec (of_type o) "ENERGY"); tauto.
Qed.

Lemma enforce_prices : forall offers prices ics caps p, offers_ok offers -> caps_ok caps ->
  In p (snd (enforce offers prices ics caps)) <-> In p prices /\ (po_type p = "ENERGY"
     \/ (po_type p <> "ENERGY" /\ exists o, In o (fst (enforce offers prices ics caps)) /\ same_key p o)).
Proof.
  intros offers prices ics caps p Ko Kc. unfold enforce. cbn [fst snd]. rewrite in_app_iff, filter_In, String.eqb_eq, in_map_iff. split.
  - intros [[H T]|[[p' o] [E H]]]; [auto|]. cbn [fst] in E. subst p'. apply in_merge in H. cbn [fst snd] in H. destruct H as [H [Ho K]].
    apply filter_In in H. destruct H as [H T]. rewrite negb_true_iff, String.eqb_neq in T. split; [exact H|]. right. split; [exact T|].
    exists o. split; [apply in_app_iff; auto|]. rewrite !andb_true_iff, !String.eqb_eq in K. unfold same_key. tauto.
  - intros [H [T|[T [o [Ho [K1 [K2 K3]]]]]]]; [auto|]. right. exists (p, o). split; [reflexivity|]. apply in_merge. cbn [fst snd].
    rewrite filter_In, negb_true_iff, String.eqb_neq. rewrite !andb_true_iff, !String.eqb_eq.
    apply in_app_iff in Ho. destruct Ho as [Ho|Ho]; [apply filter_In in Ho; destruct Ho as [_ Ho]; unfold of_type_is in Ho; apply String.eqb_eq in Ho; congruence|].
    auto 10.
Qed.

Lemma rows_positive : forall offers ics caps o, In o (map fc_offer (enabled_rows offers ics caps)) ->
  In o offers /\ of_type o <> "ENERGY" /\ 0 < of_max o.
Proof.
  intros offers ics caps o H. apply in_map_iff in H. destruct H as [r [<- H]].
  assert (R : exists r', In r' (fcas_rows offers ics caps) /\ fc_offer r' = fc_offer r).
  { unfold enabled_rows in H. apply filter_In in H. destruct H as [H _]. rewrite !in_app_iff in H. destruct H as [H|[H|[H|H]]].
    - rewrite !filter_In in H. destruct H as [[[[[H _] _] _] _] _]. eauto.
    - apply filter_In in H. destruct H as [H _]. unfold gen_con_rows in H. apply in_map_iff in H. destruct H as [[r' c] [<- H]].
      apply filter_In in H. destruct H as [H _]. apply in_merge_left in H. destruct H as [H _]. cbn [fst] in H. rewrite !filter_In in H.
      exists r'. cbn. tauto.
    - rewrite !filter_In in H. exists r. tauto.
    - apply in_map_iff in H. destruct H as [[[r' lo] hi] [<- H]]. apply filter_In in H. destruct H as [H _]. apply in_app_iff in H.
      unfold gen_reg_rows, load_reg_rows in H. rewrite !filter_In in H. exists r'. split; [|reflexivity].
      destruct H as [[H _]|[H _]]; apply in_map_iff in H; destruct H as [[r2 m] [E H]]; injection E as -> _ _;
        apply in_merge_left in H; destruct H as [H _]; cbn [fst] in H; rewrite !filter_In in H; tauto. }
  destruct R as [r' [H' <-]]. unfold fcas_rows in H'. apply in_map_iff in H'. destruct H' as [[[a c] i] [<- H']].
  apply in_merge in H'. cbn [fst snd] in H'. destruct H' as [H' _]. apply filter_In in H'. destruct H' as [H' _].
  apply in_map_iff in H'. destruct H' as [[a' c'] [E H']]. injection E as -> _. apply in_merge_left in H'. destruct H' as [H' _].
  cbn [fst] in H'. rewrite !filter_In in H'. unfold of_type_is in H'. rewrite negb_true_iff, String.eqb_neq, qlt_true in H'. cbn. tauto.
Qed.

(** ** All the steps *)

Lemma process_inv : forall old offers prices agc ics uigf v p, process_offers old offers prices agc ics uigf = Ok (v, p) ->
  exists scaled, scale_ramp (scale_agc offers agc) ics = Ok scaled
    /\ (v, p) = enforce (scale_uigf scaled uigf) prices ics (unit_availability old offers uigf).
Proof.
  intros old offers prices agc ics uigf v p. unfold process_offers, bind. destruct (scale_ramp _ _) as [s|e]; [|discriminate].
  intros H. exists s. split; [reflexivity|]. congruence.
Qed.

Lemma tightens_same : forall a b, tightens a b -> of_duid b = of_duid a /\ of_dir b = of_dir a /\ of_type b = of_type a /\ of_bands b = of_bands a.
Proof. intros a b [[A [B [C D]]] _]. auto. Qed.

Lemma process_final : forall old offers prices agc ics uigf v p o', rates_ok ics -> initials_ok ics ->
  process_offers old offers prices agc ics uigf = Ok (v, p) -> In o' v -> of_type o' <> "ENERGY" ->
  exists o, In o offers /\ tightens o o' /\ 0 < of_max o'
    /\ (regulation (of_type o) -> exists a, In a agc /\ ag_duid a = of_duid o
         /\ (forall l, agc_min a (of_type o) = Some l -> 0 < l -> l <= of_emin o')
         /\ (forall h, agc_max a (of_type o) = Some h -> 0 < h -> of_emax o' <= h))
    /\ (forall i r, In i ics -> ic_duid i = of_duid o -> reg_rate i (of_type o) = Some r -> ~ r == 0 -> of_max o' <= r / 12)
    /\ (In (of_duid o) (map ug_unit uigf) -> exists f, In f uigf /\ ug_unit f = of_duid o /\ of_emax o' <= ug_cap f).
Proof.
  intros old offers prices agc ics uigf v p o' P U H Ho' T. apply process_inv in H. destruct H as [scaled [S E]].
  unfold enforce in E. injection E as -> _. apply in_app_iff in Ho'. destruct Ho' as [Ho'|Ho'].
  { apply filter_In in Ho'. destruct Ho' as [_ C]. unfold of_type_is in C. apply String.eqb_eq in C. contradiction. }
  apply rows_positive in Ho'. destruct Ho' as [Ho' [_ M]].
  destruct (uigf_sound _ _ _ Ho') as [o2 [H2 [T2 [M2 [E2 [_ F2]]]]]].
  destruct (ramp_sound _ _ _ _ P S H2) as [o1 [H1 [T1 [E1 [X1 [_ F1]]]]]].
  destruct (agc_sound _ _ _ H1) as [o [H0 [T0 [M0 [_ F0]]]]].
  destruct (tightens_same _ _ T0) as [D0 [I0 [Y0 _]]]. destruct (tightens_same _ _ T1) as [D1 [I1 [Y1 _]]].
  destruct (tightens_same _ _ T2) as [D2 [I2 [Y2 _]]].
  assert (P2 : 0 < of_max o2) by (rewrite <- M2; exact M).
  assert (P1 : 0 < of_max o1) by (destruct T1 as [_ [L _]]; lra).
  exists o. split; [exact H0|]. split; [exact (tightens_trans _ _ _ (tightens_trans _ _ _ T0 T1 P1) T2 P2)|]. split; [exact M|].
  split; [|split].
  - intros R. destruct (F0 R) as [a [Ha [Da [K1 [K2 _]]]]]. exists a. split; [exact Ha|]. split; [exact Da|].
    destruct T2 as [_ [_ [L1 [L2 _]]]]. split; intros l El Pl.
    + specialize (K1 l El Pl). rewrite <- E1 in K1. lra.
    + specialize (K2 l El Pl). rewrite <- X1 in K2. lra.
  - intros i r Hi Di Er Z. assert (R : regulation (of_type o1)).
    { unfold reg_rate in Er. rewrite Y0. unfold regulation. destruct (String.eqb_spec (of_type o) "RAISEREG"); [auto|].
      destruct (String.eqb_spec (of_type o) "LOWERREG"); [auto|discriminate]. }
    destruct (F1 R) as [i' [Hi' [Di' [K _]]]]. assert (i' = i) by (apply U; auto; congruence). subst i'.
    rewrite M2. apply K; auto. now rewrite Y0.
  - intros F. destruct F2 as [f [Hf [Df [K _]]]]; [congruence|congruence|]. exists f. split; [exact Hf|]. split; [congruence|exact K].
Qed.

Lemma scaled_ok : forall offers agc ics uigf scaled, offers_ok offers -> agc_ok agc -> initials_ok ics -> uigf_ok uigf ->
  scale_ramp (scale_agc offers agc) ics = Ok scaled -> offers_ok (scale_uigf scaled uigf).
Proof.
  intros offers agc ics uigf scaled [N [D U]] Ka Ki Ku S.
  assert (A : offers_ok (scale_agc offers agc)).
  { split; [|split].
    - intros o H. apply scale_agc_rows in H. destruct H as [[H _]|[o1 [a [H [_ [_ [_ ->]]]]]]]; [exact (N o H)|exact (N o1 H)].
    - intros o H. apply scale_agc_rows in H. destruct H as [[H _]|[o1 [a [H [_ [_ [_ ->]]]]]]]; [exact (D o H)|exact (D o1 H)].
    - intros x y Hx Hy. apply scale_agc_rows in Hx. apply scale_agc_rows in Hy.
      destruct Hx as [[Hx Rx]|[x1 [a [Hx [Rx [Ha [Da ->]]]]]]], Hy as [[Hy Ry]|[y1 [b [Hy [Ry [Hb [Db ->]]]]]]];
        cbn [agc_scaled set_of_trap of_duid of_dir of_type]; intros E1 E2 E3.
      + now apply U.
      + rewrite E3 in Rx. contradiction.
      + rewrite <- E3 in Ry. contradiction.
      + assert (x1 = y1) by (apply U; auto). subst y1. rewrite (Ka a b); auto. congruence. }
  clear N D U. destruct A as [N [D U]].
  assert (B : offers_ok scaled).
  { pose proof (scale_ramp_rows _ _ _ S) as R.
    assert (W : forall t o i, of_duid (ramp_scaled (reg_rate i t) o) = of_duid o /\ of_dir (ramp_scaled (reg_rate i t) o) = of_dir o /\ of_type (ramp_scaled (reg_rate i t) o) = of_type o).
    { intros t o i. unfold ramp_scaled. destruct (reg_rate i t); auto. }
    split; [|split].
    - intros o H. apply R in H. destruct H as [[H _]|[[H _]|[o1 [i [H [_ [_ [_ [_ ->]]]]]]]]]; auto. destruct (W (of_type o1) o1 i) as [_ [_ ->]]. auto.
    - intros o H. apply R in H. destruct H as [[H _]|[[H _]|[o1 [i [H [_ [_ [_ [_ ->]]]]]]]]]; auto. destruct (W (of_type o1) o1 i) as [_ [-> _]]. auto.
    - intros x y Hx Hy. apply R in Hx. apply R in Hy.
      destruct Hx as [[Hx Rx]|[[Hx [Rx Mx]]|[x1 [i [Hx [Rx [Mx [Hi [Di ->]]]]]]]]], Hy as [[Hy Ry]|[[Hy [Ry My]]|[y1 [j [Hy [Ry [My [Hj [Dj ->]]]]]]]]];
        try (destruct (W (of_type x1) x1 i) as [-> [-> ->]]); try (destruct (W (of_type y1) y1 j) as [-> [-> ->]]); intros E1 E2 E3;
        try (now apply U); try (exfalso; rewrite E3 in *; contradiction).
      + exfalso. apply in_units_without in Mx. destruct Mx as [_ Mx]. apply Mx. now rewrite E1, E3.
      + exfalso. apply in_units_without in My. destruct My as [_ My]. apply My. now rewrite <- E1, <- E3.
      + assert (x1 = y1) by (apply U; auto). subst y1. rewrite (Ki i j); auto. congruence. }
  clear N D U. destruct B as [N [D U]]. split; [|split].
  - intros o H. apply scale_uigf_rows in H. destruct H as [[H _]|[o1 [f [H [_ [_ [_ ->]]]]]]]; [exact (N o H)|exact (N o1 H)].
  - intros o H. apply scale_uigf_rows in H. destruct H as [[H _]|[o1 [f [H [_ [_ [_ ->]]]]]]]; [exact (D o H)|exact (D o1 H)].
  - intros x y Hx Hy. apply scale_uigf_rows in Hx. apply scale_uigf_rows in Hy.
    destruct Hx as [[Hx Rx]|[x1 [f [Hx [Rx [Hf [Df ->]]]]]]], Hy as [[Hy Ry]|[y1 [g [Hy [Ry [Hg [Dg ->]]]]]]];
      cbn [uigf_scaled set_of_trap of_duid of_dir of_type]; intros E1 E2 E3.
    + now apply U.
    + exfalso. destruct Rx as [Rx|Rx]; [congruence|]. apply Rx. rewrite E1. apply in_map_iff. eauto.
    + exfalso. destruct Ry as [Ry|Ry]; [congruence|]. apply Ry. rewrite <- E1. apply in_map_iff. eauto.
    + assert (x1 = y1) by (apply U; auto). subst y1. rewrite (Ku f g); auto. congruence.
Qed.

Lemma availability_ok : forall old offers uigf, offers_ok offers -> caps_ok (unit_availability old offers uigf).
Proof.
  intros old offers uigf [N [D U]]. unfold unit_availability. split.
  - intros c d H. apply in_app_iff in H. destruct H as [H|H]; apply in_map_iff in H; destruct H as [o [<- H]]; cbn; [|discriminate].
    intros E. injection E as <-. rewrite !filter_In in H. destruct (D o) as [->| ->]; [tauto| |]; cbn; auto.
  - intros a b Ha Hb E1 E2 Z. apply in_app_iff in Ha. apply in_app_iff in Hb.
    destruct Ha as [Ha|Ha]; apply in_map_iff in Ha; destruct Ha as [x [<- Ha]]; [|destruct (Z eq_refl)].
    destruct Hb as [Hb|Hb]; apply in_map_iff in Hb; destruct Hb as [y [<- Hb]]; [|discriminate].
    cbn in E1, E2. injection E2 as E2. rewrite !filter_In in Ha, Hb. destruct Ha as [[Ha Ta] _], Hb as [[Hb Tb] _].
    unfold of_type_is in Ta, Tb. apply String.eqb_eq in Ta, Tb. rewrite (U x y); auto; [|congruence].
    destruct (D x Ha) as [Dx|Dx], (D y Hb) as [Dy|Dy]; rewrite Dx, Dy in E2 |- *; vm_compute in E2; congruence.
Qed.

Lemma process_enabled : forall old offers prices agc ics uigf v p, offers_ok offers -> agc_ok agc -> initials_ok ics -> uigf_ok uigf ->
  process_offers old offers prices agc ics uigf = Ok (v, p) ->
  exists scaled, scale_ramp (scale_agc offers agc) ics = Ok scaled
    /\ (forall o, In o v <-> In o (scale_uigf scaled uigf)
          /\ (of_type o = "ENERGY" \/ enabled (scale_uigf scaled uigf) ics (unit_availability old offers uigf) o))
    /\ (forall q, In q p <-> In q prices /\ (po_type q = "ENERGY" \/ (po_type q <> "ENERGY" /\ exists o, In o v /\ same_key q o))).
Proof.
  intros old offers prices agc ics uigf v p Ko Ka Ki Ku H. apply process_inv in H. destruct H as [scaled [S E]].
  exists scaled. split; [exact S|]. assert (Ks := scaled_ok _ _ _ _ _ Ko Ka Ki Ku S). assert (Kc := availability_ok old offers uigf Ko).
  assert (V : v = fst (enforce (scale_uigf scaled uigf) prices ics (unit_availability old offers uigf))) by (rewrite <- E; reflexivity).
  assert (Pq : p = snd (enforce (scale_uigf scaled uigf) prices ics (unit_availability old offers uigf))) by (rewrite <- E; reflexivity).
  rewrite V, Pq. split; [intros o; now apply enforce_volumes|intros q; now apply enforce_prices].
Qed.

Lemma process_energy : forall old offers prices agc ics uigf v p, process_offers old offers prices agc ics uigf = Ok (v, p) ->
  filter (of_type_is "ENERGY") v = filter (of_type_is "ENERGY") offers
  /\ filter (fun q => String.eqb (po_type q) "ENERGY") p = filter (fun q => String.eqb (po_type q) "ENERGY") prices.
Proof.
  intros old offers prices agc ics uigf v p H. apply process_inv in H. destruct H as [scaled [S E]]. unfold enforce in E. injection E as -> ->.
  assert (None : forall A (f : A -> bool) l, (forall a, In a l -> f a = false) -> filter f l = []).
  { intros A f l. induction l as [|a t IH]; [reflexivity|]. intros H. cbn. rewrite (H a) by now left. apply IH. intros b Hb. apply H. now right. }
  assert (Twice : forall A (f : A -> bool) l, filter f (filter f l) = filter f l).
  { intros A f l. induction l as [|a t IH]; [reflexivity|]. cbn. destruct (f a) eqn:F; [cbn; rewrite F; now f_equal|exact IH]. }
  assert (Weak : forall A (f g : A -> bool) l, (forall a, f a = true -> g a = true) -> filter f (filter g l) = filter f l).
  { intros A f g l W. induction l as [|a t IH]; [reflexivity|]. cbn. destruct (g a) eqn:Ga; cbn; destruct (f a) eqn:F; rewrite ?IH; auto.
    rewrite (W a F) in Ga. discriminate. }
  split.
  - rewrite filter_app, Twice, (None _ _ (map fc_offer _)), app_nil_r.
    2:{ intros o Ho. apply rows_positive in Ho. destruct Ho as [_ [T _]]. now apply String.eqb_neq. }
    transitivity (filter (of_type_is "ENERGY") scaled).
    { unfold scale_uigf. rewrite !filter_app, Twice, (None _ _ (filter _ (filter _ scaled))), (None _ _ (map _ _)), !app_nil_r; [reflexivity| |].
      - intros o Ho. apply in_map_iff in Ho. destruct Ho as [[x f] [<- Ho]]. apply in_merge in Ho. destruct Ho as [Ho _]. cbn [fst] in Ho. rewrite !filter_In in Ho.
        destruct Ho as [[_ Ho] _]. now apply negb_true_iff in Ho.
      - intros o Ho. rewrite !filter_In in Ho. destruct Ho as [[_ Ho] _]. now apply negb_true_iff in Ho. }
    transitivity (filter (of_type_is "ENERGY") (scale_agc offers agc)).
    { assert (R := scale_ramp_rows _ _ _ S). revert S. unfold scale_ramp, bind. destruct (apply_rows _ _) as [z|e] eqn:Z; [|discriminate].
      intros X. injection X as X. rewrite <- X. rewrite !filter_app, Weak.
      2:{ intros o Ho. unfold is_reg, of_type_is in *. apply String.eqb_eq in Ho. now rewrite Ho. }
      rewrite (None _ _ (filter _ (scale_agc offers agc))), (None _ _ (filter _ (scale_agc offers agc))), (None _ _ z), !app_nil_r; [reflexivity| | |].
      - intros o Ho. apply apply_rows_ok in Z. rewrite Z in Ho. rewrite map_app, !map_map in Ho.
        apply in_app_iff in Ho. destruct Ho as [Ho|Ho]; apply in_map_iff in Ho; destruct Ho as [[x i] [<- Ho]]; apply in_merge in Ho;
          destruct Ho as [Ho _]; cbn [fst snd] in *; rewrite filter_In, andb_true_iff in Ho; destruct Ho as [_ [Ho _]]; unfold of_type_is in *;
          apply String.eqb_eq in Ho; unfold ramp_scaled; [destruct (ic_down i)|destruct (ic_up i)]; cbn; rewrite Ho; reflexivity.
      - intros o Ho. rewrite filter_In, andb_true_iff in Ho. destruct Ho as [_ [Ho _]]. unfold of_type_is in *. apply String.eqb_eq in Ho. now rewrite Ho.
      - intros o Ho. rewrite filter_In, andb_true_iff in Ho. destruct Ho as [_ [Ho _]]. unfold of_type_is in *. apply String.eqb_eq in Ho. now rewrite Ho. }
    unfold scale_agc. rewrite !filter_app, Weak, (None _ _ (map _ _)), (None _ _ (map _ _)), !app_nil_r; [reflexivity| | |].
    + intros o Ho. apply in_map_iff in Ho. destruct Ho as [[x i] [<- Ho]]. apply in_merge in Ho. destruct Ho as [Ho _]. cbn [fst snd] in *.
      apply filter_In in Ho. destruct Ho as [_ Ho]. unfold of_type_is in *. apply String.eqb_eq in Ho. cbn. now rewrite Ho.
    + intros o Ho. apply in_map_iff in Ho. destruct Ho as [[x i] [<- Ho]]. apply in_merge in Ho. destruct Ho as [Ho _]. cbn [fst snd] in *.
      apply filter_In in Ho. destruct Ho as [_ Ho]. unfold of_type_is in *. apply String.eqb_eq in Ho. cbn. now rewrite Ho.
    + intros o Ho. unfold is_reg, of_type_is in *. apply String.eqb_eq in Ho. now rewrite Ho.
  - rewrite filter_app, Twice, (None _ _ (map _ _)), app_nil_r; [reflexivity|].
    intros q Hq. apply in_map_iff in Hq. destruct Hq as [[x o] [<- Hq]]. apply in_merge in Hq. destruct Hq as [Hq _]. cbn [fst] in *.
    apply filter_In in Hq. destruct Hq as [_ Hq]. now apply negb_true_iff in Hq.
Qed.

Lemma process_forecast : forall old offers prices agc ics uigf v p o f,
  offers_ok offers -> agc_ok agc -> initials_ok ics -> uigf_ok uigf -> rates_ok ics ->
  process_offers old offers prices agc ics uigf = Ok (v, p) -> In o v -> of_type o <> "ENERGY" ->
  (forall i, In i ics -> ic_duid i = of_duid o -> ~ two_way i) ->
  In f uigf -> ug_unit f = of_duid o -> of_emin o <= ug_cap f.
Proof.
  intros old offers prices agc ics uigf v p o f Ko Ka Ki Ku P H Ho T N Hf D.
  destruct (process_final _ _ _ _ _ _ _ _ _ P Ki H Ho T) as [o0 [_ [Tg [_ [_ [_ F]]]]]]. destruct (tightens_same _ _ Tg) as [D0 _].
  destruct F as [f' [Hf' [Df' L]]]; [rewrite <- D0, <- D; now apply in_map|]. assert (f' = f) by (apply Ku; auto; congruence). subst f'.
  destruct (process_enabled _ _ _ _ _ _ _ _ Ko Ka Ki Ku H) as [s [_ [V _]]]. apply V in Ho. destruct Ho as [_ [C|E]]; [contradiction|].
  destruct E as [_ [i [Hi [Du [_ E]]]]]. specialize (N i Hi Du).
  destruct E as [[_ [_ [q [_ [A B]]]]]|[[C _]|[[C _]|[[C _]|[C _]]]]]; try contradiction. lra.
Qed.
