(** Bands that every constraint treats alike are dispatched in the order of their
    costs. *)

From Coq Require Import QArith Qminmax Lqa String List Bool Arith Lia ZArith Permutation.
Import ListNotations.
From Verif Require Import PandasModel TablesModel VariableIdsModel MarketConstraintsModel
  UnitConstraintsModel RampModel FcasModel InterModel ElasticModel MarketModel SolverModel
  SpecLp PandasFacts SpecHistory SpecIds SpecDispatch SpecPrices StepFacts InvariantFacts OwnerFacts SolverFacts
  MeaningFacts LimitFacts TableFacts BidFacts BalanceFacts DeficitFacts ElasticFacts ElasticTheoremFacts PriceStateFacts
  PriceFacts ExchangeFacts.
Open Scope string_scope.
Open Scope list_scope.

Lemma sum_at_one_filter {A} (f : A -> Q) (vid : A -> nat) (q : A -> bool) i l :
  sumQ (fun a => f a * at_one i (vid a)) (filter q l)
  == sumQ (fun a => if q a then f a else 0) (filter (fun a => Nat.eqb (vid a) i) l).
Proof.
  rewrite !sumQ_filter. apply sumQ_ext. intros a. unfold at_one. destruct (q a), (Nat.eqb (vid a) i); ring.
Qed.

Lemma unit_col cs vs i k : row_value (unit_lhs cs vs) (at_one i) k
  == sumQ (fun c => uc_coef c * sumQ (fun v => if String.eqb (uc_unit c) (uv_unit v) && String.eqb (uc_service c) (uv_service v)
                      && String.eqb (uc_dt c) (uv_dt v) then uv_coef v else 0) (filter (fun v => Nat.eqb (uv_id v) i) vs))
          (filter (fun c => Nat.eqb (uc_con c) k) cs).
Proof.
  rewrite unit_lhs_value. apply sumQ_ext. intros c. unfold unit_term. rewrite (sum_at_one_filter uv_coef uv_id). reflexivity.
Qed.

Lemma regional_col cs vs i k : row_value (regional_lhs cs vs) (at_one i) k
  == sumQ (fun c => rc_coef c * sumQ (fun v => if String.eqb (rc_region c) (rv_region v) && String.eqb (rc_service c) (rv_service v)
                      then rv_coef v else 0) (filter (fun v => Nat.eqb (rv_id v) i) vs))
          (filter (fun c => Nat.eqb (rc_con c) k) cs).
Proof.
  rewrite regional_lhs_value. apply sumQ_ext. intros c. unfold region_term. rewrite (sum_at_one_filter rv_coef rv_id). reflexivity.
Qed.

Lemma linked_col {G V} (on : G -> V -> bool) (gset : G -> string) (coef : G -> V -> Q) (vid : V -> nat)
  (gs : list G) (vs : list V) ids i k :
  row_value (map (fun p => let '((g, v), r) := p in LRow (cr_id r) (vid v) (coef g v))
      (merge (fun (p : G * V) r => in_set r (gset (fst p))) (merge on gs vs) ids)) (at_one i) k
  == sumQ (fun g => sumQ (fun v => if on g v then
       coef g v * sumQ (fun r => if Nat.eqb (cr_id r) k then 1 else 0) (filter (fun r => in_set r (gset g)) ids) else 0)
       (filter (fun v => Nat.eqb (vid v) i) vs)) gs.
Proof.
  rewrite row_value_map, sumQ_filter, sumQ_merge, sumQ_merge. apply sumQ_ext. intros g.
  rewrite <- (sum_at_one_filter (fun v => coef g v * sumQ (fun r => if Nat.eqb (cr_id r) k then 1 else 0) (filter (fun r => in_set r (gset g)) ids)) vid (on g)).
  apply sumQ_ext. intros v. cbn [fst]. rewrite <- sumQ_scale. 
  rewrite (Qmult_comm _ (at_one i (vid v))), <- sumQ_scale. apply sumQ_ext. intros r. cbn [l_con l_coef l_var].
  destruct (Nat.eqb (cr_id r) k); ring.
Qed.

Section Columns.
  Variables (c : config) (m : market) (v w : bidvar) (reg s : string) (a : Q).
  Hypothesis R : reached c m.
  Hypothesis Un : untied m.
  Hypothesis Hv : In v (rows_or_nil (m_bids m)).
  Hypothesis Hw : In w (rows_or_nil (m_bids m)).
  Hypothesis Rv : filter (fun r => Nat.eqb (rv_id r) (bv_id v)) (rows_or_nil (m_reg_bids m)) = [RV (bv_id v) reg s a].
  Hypothesis Rw : filter (fun r => Nat.eqb (rv_id r) (bv_id w)) (rows_or_nil (m_reg_bids m)) = [RV (bv_id w) reg s a].
  Hypothesis U : (exists u t d b,
      filter (fun r => Nat.eqb (uv_id r) (bv_id v)) (rows_or_nil (m_unit_bids m)) = [UV (bv_id v) u t d b]
      /\ filter (fun r => Nat.eqb (uv_id r) (bv_id w)) (rows_or_nil (m_unit_bids m)) = [UV (bv_id w) u t d b])
    \/ (m_c2v_unit m = [] /\ m_gen_unit m = None).

  Lemma lhs_no_bid b k : In b (rows_or_nil (m_bids m)) -> row_value (dconcat (m_lhs m)) (at_one (bv_id b)) k == 0.
  Proof.
    intros Hb. apply row_value_zero. intros l Hl _. apply in_dconcat in Hl. destruct Hl as [key [rows [H1 H2]]].
    unfold at_one. rewrite (proj2 (Nat.eqb_neq _ _)); [reflexivity|].
    apply (reached_plain c m R key rows l b); auto. intros ->.
    destruct (reached_owned c m R) as [[W [f [n O]]] _].
    unfold untied in Un. clear -Un H1. induction (m_lhs m) as [|[k' l'] t IH]; [destruct H1|].
    cbn [dget] in Un. destruct (String.eqb "tie_break" k') eqn:E; [discriminate|]. destruct H1 as [H1|H1]; [|auto].
    inversion H1; subst. rewrite String.eqb_refl in E. discriminate.
  Qed.

  Lemma gen_unit_col i gs ids k :
    row_value (generic_unit_lhs gs ids (rows_or_nil (m_unit_bids m))) (at_one i) k
    == sumQ (fun g => sumQ (fun v => if String.eqb (gu_unit g) (uv_unit v) && String.eqb (gu_service g) (uv_service v) then
         gu_coef g * uv_coef v * sumQ (fun r => if Nat.eqb (cr_id r) k then 1 else 0) (filter (fun r => in_set r (gu_set g)) ids) else 0)
         (filter (fun v => Nat.eqb (uv_id v) i) (rows_or_nil (m_unit_bids m)))) gs.
  Proof. unfold generic_unit_lhs. apply (linked_col _ gu_set (fun g v => gu_coef g * uv_coef v) uv_id). Qed.

  Lemma gen_region_col i gs ids k :
    row_value (generic_region_lhs gs ids (rows_or_nil (m_reg_bids m))) (at_one i) k
    == sumQ (fun g => sumQ (fun v => if String.eqb (gr_region g) (rv_region v) && String.eqb (gr_service g) (rv_service v) then
         gr_coef g * sumQ (fun r => if Nat.eqb (cr_id r) k then 1 else 0) (filter (fun r => in_set r (gr_set g)) ids) else 0)
         (filter (fun v => Nat.eqb (rv_id v) i) (rows_or_nil (m_reg_bids m)))) gs.
  Proof. unfold generic_region_lhs. apply (linked_col _ gr_set (fun g v => gr_coef g) rv_id). Qed.

  Lemma gen_inter_col b gs ids k : In b (rows_or_nil (m_bids m)) ->
    row_value (generic_inter_lhs gs ids (rows_or_nil (m_inter m))) (at_one (bv_id b)) k == 0.
  Proof.
    intros Hb. destruct (reached_owned c m R) as [[W _] _]. apply row_value_zero. intros l Hl _. unfold generic_inter_lhs in Hl.
    apply in_map_iff in Hl. destruct Hl as [[[g i] r] [<- Hl]]. apply in_merge_p in Hl. destruct Hl as [Hl _]. cbn [fst] in Hl.
    apply in_merge_p in Hl. destruct Hl as [_ [Hl _]]. cbn [fst snd l_var] in *. unfold at_one.
    rewrite (proj2 (Nat.eqb_neq _ _)); [reflexivity|]. now apply (inter_bid_distinct m).
  Qed.

  Lemma generic_lhs_rows : generic_lhs m = match generic_ids m with None => [] | Some ids =>
    generic_unit_lhs (rows_or_nil (m_gen_unit m)) ids (rows_or_nil (m_unit_bids m))
    ++ generic_region_lhs (rows_or_nil (m_gen_region m)) ids (rows_or_nil (m_reg_bids m))
    ++ generic_inter_lhs (rows_or_nil (m_gen_inter m)) ids (rows_or_nil (m_inter m)) end.
  Proof.
    unfold generic_lhs. destruct (generic_ids m); [|reflexivity]. f_equal; [|f_equal].
    - destruct (m_gen_unit m), (m_unit_bids m); try reflexivity. unfold generic_unit_lhs. cbn [rows_or_nil].
      rewrite merge_nil_r. reflexivity.
    - destruct (m_gen_region m), (m_reg_bids m); try reflexivity. unfold generic_region_lhs. cbn [rows_or_nil].
      rewrite merge_nil_r. reflexivity.
    - destruct (m_gen_inter m), (m_inter m); try reflexivity. unfold generic_inter_lhs. cbn [rows_or_nil].
      rewrite merge_nil_r. reflexivity.
  Qed.

  Lemma columns k : row_value (all_lhs m) (at_one (bv_id v)) k == row_value (all_lhs m) (at_one (bv_id w)) k.
  Proof.
    destruct (reached_owned c m R) as [[W _] _]. pose proof (reached_tidy c m R) as T.
    unfold all_lhs. rewrite !row_value_app. apply Qplus_comp; [now rewrite !lhs_no_bid|]. apply Qplus_comp; [|apply Qplus_comp].
    - rewrite generic_lhs_rows. destruct (generic_ids m) as [ids|]; [|reflexivity]. rewrite !row_value_app.
      apply Qplus_comp; [|apply Qplus_comp].
      + destruct U as [[u [t [d [b [U1 U2]]]]]|[_ ->]]; [|reflexivity]. rewrite !gen_unit_col, U1, U2.
        apply sumQ_ext. intros g. reflexivity.
      + rewrite !gen_region_col, Rv, Rw. apply sumQ_ext. intros g. reflexivity.
      + now rewrite !gen_inter_col.
    - rewrite !regional_col. apply sumQ_ext. intros cr. unfold regional_vars.
      rewrite !filter_app, Rv, Rw, <- !filter_app.
      pose proof (network_rows_none m v W T Hv) as N1. pose proof (network_rows_none m w W T Hw) as N2.
      rewrite N1, N2. reflexivity.
    - destruct U as [[u [t [d [b [U1 U2]]]]]|[-> _]]; [|reflexivity]. rewrite !unit_col, U1, U2.
      apply sumQ_ext. intros g. reflexivity.
  Qed.
End Columns.

(** ** Orders *)

Lemma band_value m x u s d b v : band_vars m u s d b = [v] -> band_dispatch m x u s d b == x (bv_id v).
Proof.
  intros H. unfold band_dispatch. unfold band_vars in H. rewrite H. cbn. ring.
Qed.

Lemma cost_value c tv tp m p v r ui : priced c tv tp m -> assemble m = Ok p -> In v (rows_or_nil (m_bids m)) ->
  In r (bt_rows tp) -> br_unit r = bv_unit v -> br_service r = bv_service v -> br_dt r = bv_dt v -> In (bv_band v) (bt_bands tp) ->
  In ui (c_ui c) -> ui_unit ui = bv_unit v -> ui_dt ui = bv_dt v ->
  linear (p_obj p) (at_one (bv_id v)) == mw_cost (ui_lf ui) (bv_service v) (bv_dt v) (br_val r (bv_band v)).
Proof.
  intros P A Hv Hr E1 E2 E3 Hb Hu U1 U2. rewrite linear_at_one.
  destruct (cost_of_var c tv tp m p v r ui P A Hv Hr E1 E2 E3 Hb Hu U1 U2) as [q [O E]]. unfold only_cost in O.
  rewrite O. rewrite sumQ_cons, sumQ_nil. cbn [snd]. rewrite E. ring.
Qed.

(** Two bands of one unit. *)
Lemma unit_order c tv tp m p x r rp ui b b' : priced c tv tp m -> untied m -> assemble m = Ok p -> optimal p x ->
  In r (bt_rows tv) -> In b (bt_bands tv) -> In b' (bt_bands tv) -> 1#10000 <= br_val r b -> 1#10000 <= br_val r b' ->
  In rp (bt_rows tp) -> br_unit rp = br_unit r -> br_service rp = br_service r -> br_dt rp = br_dt r ->
  In b (bt_bands tp) -> In b' (bt_bands tp) ->
  In ui (c_ui c) -> ui_unit ui = br_unit r -> ui_dt ui = br_dt r ->
  mw_cost (ui_lf ui) (br_service r) (br_dt r) (br_val rp b) < mw_cost (ui_lf ui) (br_service r) (br_dt r) (br_val rp b') ->
  0 < band_dispatch m x (br_unit r) (br_service r) (br_dt r) b' ->
  band_dispatch m x (br_unit r) (br_service r) (br_dt r) b == br_val r b.
Proof.
  intros P Un A Op Hr Hb Hb' L L' Hp Q1 Q2 Q3 Tb Tb' Hu U1 U2 Lt Pos.
  destruct (priced_inv c tv tp m P) as [R [I [[W O] [C _]]]].
  destruct (band_var c tv tp m r b P Hr Hb L) as [v [V0 [Hv [V1 [V2 [V3 [V4 [V5 V6]]]]]]]].
  destruct (band_var c tv tp m r b' P Hr Hb' L') as [w [W0 [Hw [W1 [W2 [W3 [W4 [W5 W6]]]]]]]].
  rewrite (band_value m x _ _ _ _ v V0), <- V6. rewrite (band_value m x _ _ _ _ w W0) in Pos.
  assert (Cv : linear (p_obj p) (at_one (bv_id v)) == mw_cost (ui_lf ui) (br_service r) (br_dt r) (br_val rp b)).
  { rewrite (cost_value c tv tp m p v rp ui) by (auto; congruence). rewrite V2, V3, V4. reflexivity. }
  assert (Cw : linear (p_obj p) (at_one (bv_id w)) == mw_cost (ui_lf ui) (br_service r) (br_dt r) (br_val rp b')).
  { rewrite (cost_value c tv tp m p w rp ui) by (auto; congruence). rewrite W2, W3, W4. reflexivity. }
  apply (exchange c m p x v w R A Op Hv Hw); auto.
  - intros E. rewrite E in Cv. rewrite Cv in Cw. lra.
  - intros k.
    apply (columns c m v w (ui_region ui) (br_service r) (region_sign (br_service r) (br_dt r)) R Un Hv Hw).
    + rewrite (regional_rows m v ui) by (auto; congruence). now rewrite V2, V3.
    + rewrite (regional_rows m w ui) by (auto; congruence). now rewrite W2, W3.
    + left. do 4 eexists. rewrite (unit_rows m v ui), (unit_rows m w ui) by (auto; congruence).
      rewrite V1, V2, V3, W1, W2, W3. split; reflexivity.
  - rewrite Cv, Cw. exact Lt.
Qed.

(** Bands of two units of one region. *)
Lemma region_order c tv tp m p x r r' rp rp' ui ui' b b' : priced c tv tp m -> no_unit_limits m -> assemble m = Ok p -> optimal p x ->
  In r (bt_rows tv) -> In r' (bt_rows tv) -> In b (bt_bands tv) -> In b' (bt_bands tv) -> 1#10000 <= br_val r b -> 1#10000 <= br_val r' b' ->
  br_service r' = br_service r -> br_dt r' = br_dt r ->
  In rp (bt_rows tp) -> br_unit rp = br_unit r -> br_service rp = br_service r -> br_dt rp = br_dt r ->
  In rp' (bt_rows tp) -> br_unit rp' = br_unit r' -> br_service rp' = br_service r' -> br_dt rp' = br_dt r' ->
  In b (bt_bands tp) -> In b' (bt_bands tp) ->
  In ui (c_ui c) -> ui_unit ui = br_unit r -> ui_dt ui = br_dt r ->
  In ui' (c_ui c) -> ui_unit ui' = br_unit r' -> ui_dt ui' = br_dt r' -> ui_region ui' = ui_region ui ->
  mw_cost (ui_lf ui) (br_service r) (br_dt r) (br_val rp b) < mw_cost (ui_lf ui') (br_service r') (br_dt r') (br_val rp' b') ->
  0 < band_dispatch m x (br_unit r') (br_service r') (br_dt r') b' ->
  band_dispatch m x (br_unit r) (br_service r) (br_dt r) b == br_val r b.
Proof.
  intros P [N1 [N2 Un]] A Op Hr Hr' Hb Hb' L L' S1 S2 Hp Q1 Q2 Q3 Hp' Q1' Q2' Q3' Tb Tb' Hu U1 U2 Hu' U1' U2' Ur Lt Pos.
  destruct (priced_inv c tv tp m P) as [R [I [[W O] [C _]]]].
  destruct (band_var c tv tp m r b P Hr Hb L) as [v [V0 [Hv [V1 [V2 [V3 [V4 [V5 V6]]]]]]]].
  destruct (band_var c tv tp m r' b' P Hr' Hb' L') as [w [W0 [Hw [W1 [W2 [W3 [W4 [W5 W6]]]]]]]].
  rewrite (band_value m x _ _ _ _ v V0), <- V6. rewrite (band_value m x _ _ _ _ w W0) in Pos.
  assert (Cv : linear (p_obj p) (at_one (bv_id v)) == mw_cost (ui_lf ui) (br_service r) (br_dt r) (br_val rp b)).
  { rewrite (cost_value c tv tp m p v rp ui) by (auto; congruence). rewrite V2, V3, V4. reflexivity. }
  assert (Cw : linear (p_obj p) (at_one (bv_id w)) == mw_cost (ui_lf ui') (br_service r') (br_dt r') (br_val rp' b')).
  { rewrite (cost_value c tv tp m p w rp' ui') by (auto; congruence). rewrite W2, W3, W4. reflexivity. }
  apply (exchange c m p x v w R A Op Hv Hw); auto.
  - intros E. rewrite E in Cv. rewrite Cv in Cw. lra.
  - intros k.
    apply (columns c m v w (ui_region ui) (br_service r) (region_sign (br_service r) (br_dt r)) R Un Hv Hw).
    + rewrite (regional_rows m v ui) by (auto; congruence). now rewrite V2, V3.
    + rewrite (regional_rows m w ui') by (auto; congruence). now rewrite W2, W3, S1, S2, Ur.
    + right. auto.
  - rewrite Cv, Cw. exact Lt.
Qed.
