(** Theorems about prices, in terms of the bid tables. *)

From Coq Require Import QArith Qminmax Lqa String List Bool Arith Lia ZArith Permutation.
Import ListNotations.
From Verif Require Import PandasModel TablesModel VariableIdsModel MarketModel SolverModel UnitsModel
  SpecLp PandasFacts SpecHistory SpecIds SpecDispatch SpecPrices StepFacts InvariantFacts OwnerFacts SolverFacts
  MeaningFacts LimitFacts TableFacts BidFacts BalanceFacts DeficitFacts PriceStateFacts PriceFacts ExchangeFacts MeritFacts.
Open Scope string_scope.
Open Scope list_scope.

Lemma offered_row pos m t u s d b q r : check_bids pos m t = None -> offered t u s d b q ->
  In r (bt_rows t) -> br_unit r = u -> br_service r = s -> br_dt r = d -> In b (bt_bands t) /\ q = br_val r b.
Proof.
  intros Ck [r' [Hr' [E1 [E2 [E3 [Hb ->]]]]]] Hr F1 F2 F3. split; [exact Hb|].
  assert (r' = r) by (apply (same_row pos m t r r' Ck); congruence). now subst.
Qed.

Lemma price_order c tv tp m p x u s d b b' ui v v' q q' : priced c tv tp m -> untied m -> assemble m = Ok p -> optimal p x ->
  offered tv u s d b v -> offered tv u s d b' v' -> 1#10000 <= v -> 1#10000 <= v' ->
  offered tp u s d b q -> offered tp u s d b' q' ->
  In ui (c_ui c) -> ui_unit ui = u -> ui_dt ui = d -> (s = "energy" -> 0 < ui_lf ui) ->
  (if String.eqb s "energy" && String.eqb d "load" then q' < q else q < q') ->
  0 < band_dispatch m x u s d b' -> band_dispatch m x u s d b == v.
Proof.
  intros P Un A Op [r [Hr [E1 [E2 [E3 [Hb Ev]]]]]] Ov' L L' [rp [Hp [F1 [F2 [F3 [Tb Eq]]]]]] Oq' Hu U1 U2 Lf Lt Pos.
  destruct (priced_inv c tv tp m P) as [R [I [[W O] [C [n [m1 [m2 [Bs [K1 [K2 Ob]]]]]]]]]].
  destruct (offered_row true m1 tv u s d b' v' r K1 Ov' Hr E1 E2 E3) as [Hb' ->].
  destruct (offered_row false m2 tp u s d b' q' rp K2 Oq' Hp F1 F2 F3) as [Tb' ->]. subst v q.
  rewrite <- E1, <- E2, <- E3 in *.
  apply (unit_order c tv tp m p x r rp ui b b'); auto.
  unfold mw_cost. destruct (String.eqb (br_service r) "energy") eqn:Es; [|exact Lt].
  apply String.eqb_eq in Es. specialize (Lf Es). cbn [andb] in Lt.
  assert (X : forall a b : Q, a < b -> a / ui_lf ui < b / ui_lf ui).
  { intros a0 b0 H. unfold Qdiv. apply Qmult_lt_compat_r; [now apply Qinv_lt_0_compat|exact H]. }
  destruct (String.eqb (br_dt r) "load"); [|now apply X]. specialize (X _ _ Lt). lra.
Qed.

Lemma merit_order c tv tp m p x s d u u' b b' ui ui' v v' q q' : priced c tv tp m -> no_unit_limits m -> assemble m = Ok p -> optimal p x ->
  offered tv u s d b v -> offered tv u' s d b' v' -> 1#10000 <= v -> 1#10000 <= v' ->
  offered tp u s d b q -> offered tp u' s d b' q' ->
  In ui (c_ui c) -> ui_unit ui = u -> ui_dt ui = d -> In ui' (c_ui c) -> ui_unit ui' = u' -> ui_dt ui' = d ->
  ui_region ui' = ui_region ui ->
  mw_cost (ui_lf ui) s d q < mw_cost (ui_lf ui') s d q' ->
  0 < band_dispatch m x u' s d b' -> band_dispatch m x u s d b == v.
Proof.
  intros P Un A Op [r [Hr [E1 [E2 [E3 [Hb Ev]]]]]] [r' [Hr' [E1' [E2' [E3' [Hb' Ev']]]]]] L L'
    [rp [Hp [F1 [F2 [F3 [Tb Eq]]]]]] [rp' [Hp' [F1' [F2' [F3' [Tb' Eq']]]]]] Hu U1 U2 Hu' U1' U2' Ur Lt Pos.
  subst v v' q q'. subst u u' s d. rewrite <- E2', <- E3' in Pos.
  apply (region_order c tv tp m p x r r' rp rp' ui ui' b b'); auto; try congruence.
Qed.

Lemma merit_order_energy c tv tp m p x u u' b b' ui ui' v v' q q' : priced c tv tp m -> no_unit_limits m -> assemble m = Ok p -> optimal p x ->
  offered tv u "energy" "generator" b v -> offered tv u' "energy" "generator" b' v' -> 1#10000 <= v -> 1#10000 <= v' ->
  offered tp u "energy" "generator" b q -> offered tp u' "energy" "generator" b' q' ->
  In ui (c_ui c) -> ui_unit ui = u -> ui_dt ui = "generator" -> In ui' (c_ui c) -> ui_unit ui' = u' -> ui_dt ui' = "generator" ->
  ui_region ui' = ui_region ui ->
  q / ui_lf ui < q' / ui_lf ui' ->
  0 < band_dispatch m x u' "energy" "generator" b' -> band_dispatch m x u "energy" "generator" b == v.
Proof. exact (merit_order c tv tp m p x "energy" "generator" u u' b b' ui ui' v v' q q'). Qed.

Lemma priced_and_located c tv tp m p u s d b v q ui : priced c tv tp m -> assemble m = Ok p ->
  offered tv u s d b v -> 1#10000 <= v -> offered tp u s d b q ->
  In ui (c_ui c) -> ui_unit ui = u -> ui_dt ui = d ->
  exists w k, band_vars m u s d b = [w] /\ only_cost p (bv_id w) k /\ k == mw_cost (ui_lf ui) s d q
    /\ places m (bv_id w) = [RV (bv_id w) (ui_region ui) s (if String.eqb d "load" && String.eqb s "energy" then -(1) else 1)].
Proof.
  intros P A [r [Hr [E1 [E2 [E3 [Hb Ev]]]]]] L [rp [Hp [F1 [F2 [F3 [Tb Eq]]]]]] Hu U1 U2. subst v q u s d.
  destruct (priced_inv c tv tp m P) as [R [I [[W O] [C _]]]].
  destruct (band_var c tv tp m r b P Hr Hb L) as [w [W0 [Hw [W1 [W2 [W3 [W4 [W5 W6]]]]]]]].
  destruct (cost_of_var c tv tp m p w rp ui) as [k [Ok Ek]]; auto; try congruence.
  exists w, k. rewrite W2, W3, W4 in Ek. repeat split; auto.
  rewrite (place_rows m w ui); auto; try congruence.
  - rewrite W2, W3. reflexivity.
  - now apply (reached_tidy c).
Qed.

Lemma unscale_offered t ui tp u s d b q r : unscale_price_bids t ui = Ok tp -> offered t u s d b q -> In b ten_bands ->
  In r ui -> ui_unit r = u -> ui_dt r = d ->
  offered tp u s d b (if String.eqb s "energy" then q * ui_lf r else q).
Proof.
  intros H [row [Hr [E1 [E2 [E3 [Hb ->]]]]]] Hten Hu U1 U2. unfold unscale_price_bids in H. destruct (forallb _ _); [|discriminate].
  assert (X : tp = BidTable (bt_bands t) (map (fun p => unscale_row (fst p) (snd p))
    (merge (fun r u => String.eqb (br_unit r) (ui_unit u) && String.eqb (br_dt r) (ui_dt u)) (bt_rows t) ui))) by congruence.
  subst tp. exists (unscale_row row r). cbn [bt_rows bt_bands unscale_row br_unit br_service br_dt br_val].
  repeat split; auto.
  - apply in_map_iff. exists (row, r). split; [reflexivity|]. apply in_merge. repeat split; auto.
    now rewrite U1, U2, E1, E3, !String.eqb_refl.
  - assert (Y : mem_str b ten_bands = true).
    { unfold mem_str. apply existsb_exists. exists b. split; [exact Hten|apply String.eqb_refl]. }
    rewrite Y, E2. reflexivity.
Qed.

Lemma unscale_round_trip c tv t tp m p u s d b v q ui : unscale_price_bids t (c_ui c) = Ok tp -> priced c tv tp m -> assemble m = Ok p ->
  offered tv u s d b v -> 1#10000 <= v -> offered t u s d b q -> In b ten_bands ->
  In ui (c_ui c) -> ui_unit ui = u -> ui_dt ui = d -> ~ ui_lf ui == 0 ->
  exists w k, band_vars m u s d b = [w] /\ only_cost p (bv_id w) k
    /\ k == (if String.eqb s "energy" && String.eqb d "load" then - q else q).
Proof.
  intros H P A Ov L Oq Hten Hu U1 U2 Nz.
  pose proof (unscale_offered t (c_ui c) tp u s d b q ui H Oq Hten Hu U1 U2) as Op.
  destruct (priced_and_located c tv tp m p u s d b v _ ui P A Ov L Op Hu U1 U2) as [w [k [B [O [E _]]]]].
  exists w, k. repeat split; auto. rewrite E. unfold mw_cost. destruct (String.eqb s "energy"); [|reflexivity].
  cbn [andb]. destruct (String.eqb d "load"); field; exact Nz.
Qed.
