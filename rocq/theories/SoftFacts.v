(** Soft groups: the problem is the trade-off between cost and penalties. *)

From Coq Require Import QArith Qminmax Qabs Lqa String List Bool Arith Lia ZArith Permutation.
Import ListNotations.
From Verif Require Import PandasModel TablesModel VariableIdsModel MarketConstraintsModel
  UnitConstraintsModel RampModel FcasModel InterModel ElasticModel MarketModel SolverModel ReportsModel
  SpecLp PandasFacts SpecHistory SpecIds SpecDispatch SpecElastic SpecSoft StepFacts InvariantFacts OwnerFacts SolverFacts
  MeaningFacts LimitFacts TableFacts BidFacts JointRampFacts BalanceFacts DeficitFacts ElasticStateFacts ElasticFacts ElasticFacts2
  PricingModel RelaxFacts ElasticTheoremFacts.
Open Scope string_scope.
Open Scope list_scope.

(** What the market holds for a soft group. *)
Record held_soft (m : market) (s : soft) (n : nat) : Prop := {
  hs_O : owned m; hs_T : tidy m; hs_K : keyed m; hs_G : group m (so_key s) = Some (so_rows s);
  hs_once : once (so_cost s);
  hs_in : forall q, In q (costed (so_cost s) (so_rows s)) -> In (fst q) (so_rows s);
  hs_ND : NoDup (map (fun q => cr_id (fst q)) (costed (so_cost s) (so_rows s)));
  hs_L : dget (deficit_key (so_key s)) (m_lhs m) = Some (deficit_lhs (costed (so_cost s) (so_rows s)) n);
  hs_D : dget (deficit_key (so_key s)) (m_deficits m) = Some (deficit_variables (costed (so_cost s) (so_rows s)) n);
  hs_C : dget (deficit_key (so_key s)) (m_obj_def m) = Some (deficit_costs (costed (so_cost s) (so_rows s)) n);
  hs_all : forall r, In r (so_rows s) -> exists q, cost_of (so_cost s) r q /\ 0 <= q }.

Lemma softened_held c m s : softened c m s -> exists n, held_soft m s n.
Proof.
  intros [M [Ov [G [Ne P]]]].
  destruct (elastic_parts c (so_key s) (so_cost s) m (so_rows s) M Ov G Ne) as [O [T [K [Rin [ND [n [HL [HD HC]]]]]]]].
  { intros r Hr. destruct (P r Hr) as [q [Hq _]]. eauto. }
  exists n. constructor; auto.
Qed.

(** The price is the cost given to the row. *)
Lemma price_cost v r q : once v -> cost_of v r q -> price v r = q.
Proof.
  destruct v as [c|t|]; cbn [once cost_of price]; intros Ho H; [auto| |destruct H].
  destruct H as [s [E H]]. rewrite E.
  assert (F : find (fun e => String.eqb (fst e) s) t = Some (s, q)); [|now rewrite F].
  revert Ho H. clear. induction t as [|[s' q'] t IH]; cbn [map fst In find]; intros Ho H; [destruct H|].
  inversion Ho as [|? ? N1 N2]; subst. destruct H as [H|H].
  - inversion H; subst. now rewrite String.eqb_refl.
  - destruct (String.eqb s' s) eqn:Es; [|now apply IH]. apply String.eqb_eq in Es. subst. exfalso. apply N1.
    change s with (fst (s, q)). now apply in_map.
Qed.

Lemma at_most_one_set r t : NoDup (map fst t) -> (length (filter (fun e : string * Q => in_set r (fst e)) t) <= 1)%nat.
Proof.
  induction t as [|[s q] t IH]; cbn [filter]; intros Ho; [cbn; lia|]. cbn [map fst] in Ho. inversion Ho as [|? ? N1 N2]; subst.
  cbn [fst]. destruct (in_set r s) eqn:E; [|auto]. cbn [length].
  assert (Z : filter (fun e : string * Q => in_set r (fst e)) t = []).
  { apply in_set_key in E. clear IH Ho N2. induction t as [|[s' q'] t IH]; [reflexivity|].
    cbn [filter fst]. destruct (in_set r s') eqn:E'; [|apply IH; intros X; apply N1; now right].
    apply in_set_key in E'. exfalso. apply N1. cbn [map fst]. left. congruence. }
  rewrite Z. cbn. lia.
Qed.

Lemma sum_costed (f : crow -> Q) v g : once v -> (forall r, In r g -> exists q, cost_of v r q) ->
  sumQ (fun e => snd e * f (fst e)) (costed v g) == sumQ (fun r => price v r * f r) g.
Proof.
  destruct v as [c|t|]; cbn [costed].
  - intros _ _. rewrite sumQ_map. reflexivity.
  - intros Ho P. rewrite sumQ_map. cbn [fst snd]. induction g as [|r g IH]; [reflexivity|].
    unfold merge. cbn [flat_map]. rewrite sumQ_app, sumQ_map. cbn [fst snd]. rewrite sumQ_cons.
    apply Qplus_comp; [|apply IH; intros; apply P; now right].
    destruct (P r (or_introl eq_refl)) as [q Hq]. pose proof (price_cost (VTable t) r q Ho Hq) as Ep. rewrite Ep.
    destruct Hq as [s [E H]]. cbn [once] in Ho. pose proof (at_most_one_set r t Ho) as L.
    assert (Hi : In (s, q) (filter (fun e : string * Q => in_set r (fst e)) t)) by (apply filter_In; split; auto; now apply in_set_key).
    destruct (filter _ t) as [|a [|b l]]; [destruct Hi| |cbn in L; lia]. destruct Hi as [->|[]].
    unfold sumQ. cbn. ring.
  - intros _ P. destruct g as [|r g]; [reflexivity|]. destruct (P r (or_introl eq_refl)) as [q []].
Qed.

(** One row: what its violations must pay for. *)
Lemma missed_paid ty a b q ds (x : nat -> Q) (r : crow) : cr_type r = ty -> cr_rhs r = b ->
  (ty = ">=" -> exists i, ds = [((i, (r, q)), 1)]) -> (ty = "<=" -> exists i, ds = [((i, (r, q)), -(1))]) ->
  (ty = "=" -> exists i j, ds = [((i, (r, q)), -(1)); ((j, (r, q)), 1)]) ->
  (forall d : drow, In d ds -> 0 <= x (d_id d)) -> 0 <= q -> relation ty (a + sumQ (fun d : drow => d_coef d * x (d_id d)) ds) b ->
  q * missed ty a b <= sumQ (fun d : drow => d_cost d * x (d_id d)) ds.
Proof.
  intros Et Eb P1 P2 P3 Nn Q0 R.
  assert (H : exists w, sumQ (fun d : drow => d_cost d * x (d_id d)) ds == q * w /\ missed ty a b <= w).
  { unfold relation in R. destruct R as [[E R]|[[E R]|[E R]]].
    - destruct (P2 E) as [i Ei]. assert (Hi : 0 <= x i) by (apply (Nn ((i, (r, q)), -(1))); rewrite Ei; now left).
      rewrite Ei in *. unfold sumQ in *. cbn [map qsum fold_right d_coef d_id d_cost snd fst] in *. exists (x i). split; [ring|].
      rewrite E. unfold missed. cbn. destruct (Q.max_spec 0 (a - b)) as [[M ->]|[M ->]]; lra.
    - destruct (P1 E) as [i Ei]. assert (Hi : 0 <= x i) by (apply (Nn ((i, (r, q)), 1)); rewrite Ei; now left).
      rewrite Ei in *. unfold sumQ in *. cbn [map qsum fold_right d_coef d_id d_cost snd fst] in *. exists (x i). split; [ring|].
      rewrite E. unfold missed. cbn. destruct (Q.max_spec 0 (b - a)) as [[M ->]|[M ->]]; lra.
    - destruct (P3 E) as [i [j Ei]]. assert (Hi : 0 <= x i) by (apply (Nn ((i, (r, q)), -(1))); rewrite Ei; now left).
      assert (Hj : 0 <= x j) by (apply (Nn ((j, (r, q)), 1)); rewrite Ei; right; now left).
      rewrite Ei in *. unfold sumQ in *. cbn [map qsum fold_right d_coef d_id d_cost snd fst] in *. exists (x i + x j). split; [ring|].
      rewrite E. change (missed "=" a b) with (Qabs (a - b)). apply Qabs_case; intros; lra. }
  destruct H as [w [E H]]. rewrite E. nra.
Qed.

Lemma missed_canon ty a b q ds (y : nat -> Q) (r : crow) : cr_type r = ty -> cr_rhs r = b -> mem_str ty ["<="; ">="; "="] = true ->
  (ty = ">=" -> exists i, ds = [((i, (r, q)), 1)]) -> (ty = "<=" -> exists i, ds = [((i, (r, q)), -(1))]) ->
  (ty = "=" -> exists i j, ds = [((i, (r, q)), -(1)); ((j, (r, q)), 1)]) ->
  (forall d : drow, In d ds -> y (d_id d) == Qmax 0 (d_coef d * (b - a))) ->
  sumQ (fun d : drow => d_cost d * y (d_id d)) ds == q * missed ty a b.
Proof.
  intros Et Eb Ht P1 P2 P3 Cy. cbn in Ht. rewrite !orb_true_iff, !String.eqb_eq in Ht.
  destruct Ht as [Ht|[Ht|[Ht|Ht]]]; try discriminate.
  - destruct (P2 Ht) as [i Ei]. pose proof (Cy ((i, (r, q)), -(1))) as Hi. rewrite Ei in *. specialize (Hi (or_introl eq_refl)).
    unfold sumQ in *. cbn [map qsum fold_right d_coef d_id d_cost snd fst] in *. rewrite Hi, Ht. unfold missed. cbn.
    apply (Qeq_trans _ (q * Qmax 0 (-(1) * (b - a)))); [ring|]. apply Qmult_comp; [reflexivity|].
    destruct (Q.max_spec 0 (-(1) * (b - a))) as [[M ->]|[M ->]]; destruct (Q.max_spec 0 (a - b)) as [[M2 ->]|[M2 ->]]; lra.
  - destruct (P1 Ht) as [i Ei]. pose proof (Cy ((i, (r, q)), 1)) as Hi. rewrite Ei in *. specialize (Hi (or_introl eq_refl)).
    unfold sumQ in *. cbn [map qsum fold_right d_coef d_id d_cost snd fst] in *. rewrite Hi, Ht. unfold missed. cbn.
    apply (Qeq_trans _ (q * Qmax 0 (1 * (b - a)))); [ring|]. apply Qmult_comp; [reflexivity|].
    destruct (Q.max_spec 0 (1 * (b - a))) as [[M ->]|[M ->]]; destruct (Q.max_spec 0 (b - a)) as [[M2 ->]|[M2 ->]]; lra.
  - destruct (P3 Ht) as [i [j Ei]]. pose proof (Cy ((i, (r, q)), -(1))) as Hi. pose proof (Cy ((j, (r, q)), 1)) as Hj.
    rewrite Ei in *. specialize (Hi (or_introl eq_refl)). specialize (Hj (or_intror (or_introl eq_refl))).
    unfold sumQ in *. cbn [map qsum fold_right d_coef d_id d_cost snd fst] in *. rewrite Hi, Hj, Ht. change (missed "=" a b) with (Qabs (a - b)).
    apply (Qeq_trans _ (q * (Qmax 0 (-(1) * (b - a)) + Qmax 0 (1 * (b - a))))); [ring|]. apply Qmult_comp; [reflexivity|].
    apply Qabs_case; intros; destruct (Q.max_spec 0 (-(1) * (b - a))) as [[M ->]|[M ->]];
      destruct (Q.max_spec 0 (1 * (b - a))) as [[M2 ->]|[M2 ->]]; lra.
Qed.

(** Sums over the violations of a group, row by row. *)
Lemma sum_by_row (f : drow -> Q) rows n : NoDup (map (fun q : crow * Q => cr_id (fst q)) rows) ->
  sumQ f (deficit_rows rows n) == sumQ (fun e => sumQ f (filter (d_at (cr_id (fst e))) (deficit_rows rows n))) rows.
Proof.
  intros ND. symmetry.
  rewrite (sumQ_ext _ (fun e => sumQ (fun d => if d_at (cr_id (fst e)) d then f d else 0) (deficit_rows rows n))).
  2:{ intros e. apply sumQ_filter. }
  rewrite sumQ_swap. apply sumQ_ext_in. intros d Hd.
  assert (Hq : In (snd (fst d)) rows) by (apply deficit_rows_in in Hd; exact Hd).
  apply (sumQ_pick (fun _ => f d) (fun e => d_at (cr_id (fst e)) d) (snd (fst d))); auto.
  - unfold d_at, d_row. apply Nat.eqb_refl.
  - intros e He E. unfold d_at, d_row in E. apply Nat.eqb_eq in E. destruct e as [r c].
    symmetry. apply (one_of_ids rows r c); auto.
  - apply (NoDup_map_inv (fun q : crow * Q => cr_id (fst q))). exact ND.
Qed.

Lemma missed_comp ty a a' b : a == a' -> missed ty a b == missed ty a' b.
Proof. intros E. unfold missed. destruct (String.eqb _ _); [|destruct (String.eqb _ _)]; now rewrite E. Qed.

(** What the violations of a group cost. *)
Definition paid (m : market) (s : soft) (x : assignment) : Q :=
  sumQ (fun c => co_cost c * x (co_var c)) (rows_or_nil (dget (deficit_key (so_key s)) (m_obj_def m))).

Section One.
  Variable m : market.
  Variable p : problem.
  Variable A : assemble m = Ok p.
  Variable s : soft.
  Variable n : nat.
  Hypothesis H : held_soft m s n.
  Let k := so_key s.
  Let rows := costed (so_cost s) (so_rows s).
  Let ds := deficit_rows rows n.

  Lemma paid_rows x : paid m s x == sumQ (fun d => d_cost d * x (d_id d)) ds.
  Proof.
    unfold paid. rewrite (hs_C _ _ _ H). cbn [rows_or_nil]. unfold deficit_costs. rewrite sumQ_map.
    apply sumQ_ext. intros [[i [r c]] z]. reflexivity.
  Qed.

  Lemma priced : forall r, In r (so_rows s) -> exists q, cost_of (so_cost s) r q.
  Proof. intros r Hr. destruct (hs_all _ _ _ H r Hr) as [q [Hq _]]. eauto. Qed.

  Lemma penalty_rows x : penalty p m x s == sumQ (fun e => snd e * shortfall p m k (fst e) x) rows.
  Proof.
    unfold penalty. change (qsum (map ?f ?l)) with (sumQ f l). symmetry.
    apply (sum_costed (fun r => shortfall p m k r x)); [apply (hs_once _ _ _ H)|exact priced].
  Qed.

  Lemma row_cost e : In e rows -> 0 <= snd e.
  Proof.
    intros He. destruct e as [r q]. cbn [snd]. pose proof He as He2. apply costed_in in He2. destruct He2 as [Hr Hq].
    destruct (hs_all _ _ _ H r Hr) as [q' [Hq' Q0]].
    rewrite <- (price_cost _ _ _ (hs_once _ _ _ H) Hq), (price_cost _ _ _ (hs_once _ _ _ H) Hq'). exact Q0.
  Qed.

  Lemma d_cost_nonneg d : In d ds -> 0 <= d_cost d.
  Proof.
    intros Hd. assert (Hq : In (snd (fst d)) rows) by (apply deficit_rows_in in Hd; exact Hd). apply (row_cost _ Hq).
  Qed.

  Lemma shortfall_is r x : In r (so_rows s) ->
    (exists con, In con (p_cons p) /\ pc_id con = cr_id r /\ mem_str (cr_type r) ["<="; ">="; "="] = true
       /\ shortfall p m k r x == missed (cr_type r) (own_row m k x (cr_id r)) (cr_rhs r))
    \/ (shortfall p m k r x = 0 /\ filter (d_at (cr_id r)) ds = []).
  Proof.
    intros Hr. unfold shortfall. destruct (find _ _) as [con|] eqn:F.
    - left. apply find_some in F. destruct F as [Hc E]. apply Nat.eqb_eq in E. exists con.
      pose proof (group_static m k _ r (hs_G _ _ _ H) Hr) as Ha.
      destruct (con_is m p con _ (proj1 (hs_O _ _ _ H)) A Hc Ha E) as [_ Ht]. cbn [r_type] in Ht.
      repeat split; auto. apply missed_comp.
      apply (violation_rows m k (so_rows s) rows n (hs_O _ _ _ H) (hs_T _ _ _ H) (hs_G _ _ _ H) (hs_L _ _ _ H) (hs_D _ _ _ H) p con r x A Hc Hr E).
    - right. split; [reflexivity|]. destruct (filter (d_at (cr_id r)) ds) as [|d l] eqn:Ef; [reflexivity|]. exfalso.
      assert (Hd : In d (filter (d_at (cr_id r)) ds)) by (rewrite Ef; now left). apply filter_In in Hd. destruct Hd as [Hd Ed].
      unfold d_at in Ed. apply Nat.eqb_eq in Ed.
      destruct (lhs_con m p _ A (d_lhs m k rows n (hs_L _ _ _ H) d Hd)) as [con [Hc Ec]].
      { eexists. apply (group_static m k _ r (hs_G _ _ _ H) Hr). }
      cbn [l_con] in Ec. pose proof (find_none _ _ F con Hc) as N. cbn beta in N. rewrite Ec, Ed, Nat.eqb_refl in N. discriminate.
  Qed.

  Lemma feasible_pays x : feasible p x -> penalty p m x s <= paid m s x.
  Proof.
    intros [F1 [F2 _]]. rewrite penalty_rows, paid_rows. unfold ds. rewrite (sum_by_row _ rows n (hs_ND _ _ _ H)).
    apply sumQ_le. intros [r q] He. cbn [fst snd]. pose proof (row_cost _ He) as Q0. cbn [snd] in Q0.
    assert (Nn : forall d, In d ds -> 0 <= x (d_id d)).
    { intros d Hd. destruct (assemble_parts m p A) as [E1 _]. rewrite E1 in F1.
      apply (F1 _ (viol_has m k rows n (hs_D _ _ _ H) d Hd)). }
    pose proof (hs_in _ _ _ H _ He) as Hr. cbn [fst] in Hr.
    destruct (shortfall_is r x Hr) as [[con [Hc [E [Ht Es]]]]|[Es Ef]].
    - rewrite Es. destruct (deficit_pick rows n r q (hs_ND _ _ _ H) He) as [P1 [P2 P3]].
      eapply missed_paid; eauto.
      + intros d Hd. apply filter_In in Hd. now apply Nn.
      + pose proof (group_static m k _ r (hs_G _ _ _ H) Hr) as Ha. specialize (F2 con Hc).
        apply (con_row m p x con _ (proj1 (hs_O _ _ _ H)) A Hc Ha E) in F2. cbn [r_id r_type r_rhs rhs_value] in F2.
        eapply relation_ext; [|exact F2]. 
        apply (elastic_row m k rows n (hs_O _ _ _ H) (hs_T _ _ _ H) (hs_L _ _ _ H) (hs_D _ _ _ H)).
    - rewrite Es. fold ds. rewrite Ef, sumQ_nil. lra.
  Qed.

  Lemma canon_pays x y : (forall d, In d ds -> y (d_id d) == canon m k x d) -> paid m s y == penalty p m x s.
  Proof.
    intros Cy. rewrite penalty_rows, paid_rows. unfold ds. rewrite (sum_by_row _ rows n (hs_ND _ _ _ H)).
    apply sumQ_ext_in. intros [r q] He. cbn [fst snd].
    pose proof (hs_in _ _ _ H _ He) as Hr. cbn [fst] in Hr.
    destruct (shortfall_is r x Hr) as [[con [Hc [E [Ht Es]]]]|[Es Ef]].
    - rewrite Es. destruct (deficit_pick rows n r q (hs_ND _ _ _ H) He) as [P1 [P2 P3]].
      eapply missed_canon; eauto. intros d Hd. apply filter_In in Hd. destruct Hd as [Hd Ed]. rewrite (Cy d Hd). unfold canon.
      unfold d_at in Ed. apply Nat.eqb_eq in Ed. rewrite Ed.
      assert (Er : d_row d = r).
      { assert (Hq : In (snd (fst d)) rows) by (apply deficit_rows_in in Hd; exact Hd).
        unfold d_row in *. now rewrite (one_of_ids rows r q (snd (fst d)) (hs_ND _ _ _ H) He Hq Ed). }
      rewrite Er. reflexivity.
    - rewrite Es. fold ds. rewrite Ef, sumQ_nil. ring.
  Qed.
End One.

(** Two groups share no variables and no constraints. *)
Lemma soft_disjoint m s n s' n' i : held_soft m s n -> held_soft m s' n' -> so_key s <> so_key s' ->
  In i (violation_vars m (so_key s)) -> ~ In i (violation_vars m (so_key s')).
Proof.
  intros H H' N V V'.
  destruct (in_d m _ _ _ (hs_D _ _ _ H) i V) as [d [Hd Ed]]. destruct (in_d m _ _ _ (hs_D _ _ _ H') i V') as [d' [Hd' Ed']].
  apply N. apply deficit_key_inj.
  pose proof (dget_in _ _ _ (hs_D _ _ _ H')) as D'. pose proof (dget_in _ _ _ (hs_L _ _ _ H)) as L.
  refine (td_own m (hs_T _ _ _ H) _ _ (Def (d_id d') 0 None) _ _ (LRow (cr_id (d_row d)) (d_id d) (d_coef d)) D' _ L _ _).
  - unfold deficit_variables. apply in_map_iff. exists d'. split; auto. now destruct d' as [[a [b e]] z].
  - unfold deficit_lhs. apply in_map_iff. exists d. split; auto. now destruct d as [[a [b e]] z].
  - cbn. congruence.
Qed.

Lemma own_other m s n s' n' x y r : held_soft m s n -> held_soft m s' n' -> so_key s <> so_key s' -> In r (so_rows s') ->
  same_but m (so_key s) x y -> own_row m (so_key s') y (cr_id r) == own_row m (so_key s') x (cr_id r).
Proof.
  intros H H' N Hr S. unfold own_row. apply row_value_ext. intros l Hl E. unfold mask.
  destruct (is_violation m (so_key s') (l_var l)); cbn [negb]; [reflexivity|].
  apply S. intros V.
  destruct (viol_row m (so_key s) _ n (hs_O _ _ _ H) (hs_T _ _ _ H) (hs_L _ _ _ H) l Hl V) as [d [Hd El]].
  apply N. refine (row_owner m (so_key s) (so_key s') _ _ l r (hs_O _ _ _ H) (hs_L _ _ _ H) _ (hs_G _ _ _ H') Hr _); [|congruence].
  rewrite El. unfold deficit_lhs. apply in_map_iff. exists d. split; auto. now destruct d as [[a [b e]] z].
Qed.

Lemma penalty_other m p s n s' n' x y : assemble m = Ok p -> held_soft m s n -> held_soft m s' n' -> so_key s <> so_key s' ->
  same_but m (so_key s) x y -> penalty p m y s' == penalty p m x s'.
Proof.
  intros A H H' N S. unfold penalty. change (qsum (map ?f ?l)) with (sumQ f l). apply sumQ_ext_in. intros r Hr.
  apply Qmult_comp; [reflexivity|].
  unfold shortfall. destruct (find _ _) as [con|] eqn:F; [|reflexivity].
  apply find_some in F. destruct F as [F1 F2]. apply Nat.eqb_eq in F2. apply missed_comp.
  pose proof (violation_rows m (so_key s') (so_rows s') _ n' (hs_O _ _ _ H') (hs_T _ _ _ H') (hs_G _ _ _ H') (hs_L _ _ _ H') (hs_D _ _ _ H') p con r) as V.
  destruct (V y A F1 Hr F2) as [_ Ey]. destruct (V x A F1 Hr F2) as [_ Ex]. rewrite Ey, Ex. now apply (own_other m s n s' n').
Qed.

Lemma slack_in m ss i : is_slack m ss i = true <-> exists s, In s ss /\ In i (violation_vars m (so_key s)).
Proof.
  unfold is_slack. rewrite existsb_exists. split; intros [s [H1 H2]]; exists s; split; auto; now apply is_violation_in.
Qed.
Lemma slack_out m ss i : is_slack m ss i = false <-> forall s, In s ss -> ~ In i (violation_vars m (so_key s)).
Proof.
  rewrite <- not_true_iff_false, slack_in. split; [intros N s H1 H2; apply N; eauto|intros N [s [H1 H2]]; now apply (N s)].
Qed.

Definition all_held (m : market) (ss : list soft) : Prop := NoDup (map so_key ss) /\ forall s, In s ss -> exists n, held_soft m s n.
Lemma softened_all c m ss : all_softened c m ss -> all_held m ss.
Proof. intros [N H]. split; auto. intros s Hs. now apply (softened_held c), H. Qed.

Lemma all_held_tail m s ss : all_held m (s :: ss) -> all_held m ss /\ (exists n, held_soft m s n) /\ forall s', In s' ss -> so_key s <> so_key s'.
Proof.
  intros [N H]. cbn [map] in N. inversion N as [|? ? N1 N2]; subst. split; [split; auto; intros; apply H; now right|].
  split; [apply H; now left|]. intros s' Hs E. apply N1. rewrite E. now apply in_map.
Qed.

(** Dispatch that keeps the hard rules, with the violations it needs. *)
Lemma extend m p : assemble m = Ok p -> forall ss x, all_held m ss -> hard_feasible p m ss x ->
  exists y, same_plain m ss x y /\ feasible p y /\ forall s, In s ss -> paid m s y == penalty p m x s.
Proof.
  intros A. pose proof (assemble_parts m p A) as [E1 [_ [E3 [E4 _]]]].
  induction ss as [|s ss IH]; intros x Hs Hf.
  - exists x. split; [intros i _; reflexivity|]. split; [|intros s []]. destruct Hf as [F1 [F2 [F3 F4]]].
    repeat split; auto; apply F1; auto.
  - destruct (all_held_tail _ _ _ Hs) as [Ht [[n H] Ne]].
    set (k := so_key s) in *. set (rows := costed (so_cost s) (so_rows s)).
    set (x1 := fixed m k rows n (fun _ => true) x).
    pose proof (hs_O _ _ _ H) as O. pose proof (hs_T _ _ _ H) as T. pose proof (hs_L _ _ _ H) as L. pose proof (hs_D _ _ _ H) as D.
    assert (Sm : same_but m k x x1) by (now apply (fixed_same m k rows n D)).
    destruct Hf as [F1 [F2 [F3 F4]]].
    assert (Hf1 : hard_feasible p m ss x1).
    { split; [|split; [|split]].
      - intros v Hv Sl. rewrite E1 in Hv. apply (fixed_bounds m k rows n O D); auto. intros N. apply F1; [now rewrite E1|].
        apply slack_out. intros s' [<-|Hs']; [exact N|]. now apply (proj1 (slack_out m ss _) Sl).
      - intros con Hc N. destruct (con_rhs m p con (proj1 O) A Hc) as [r [Hr E]].
        apply (con_row m p x1 con r (proj1 O) A Hc Hr (eq_sym E)).
        destruct (of_group_dec (so_rows s) con) as [[r0 [Hr0 E0]]|Ng].
        + pose proof (group_static m k _ r0 (hs_G _ _ _ H) Hr0) as Ha.
          assert (Er : r = RRow (cr_id r0) (cr_type r0) (RNum (cr_rhs r0))).
          { apply (NoDup_map_inj r_id (all_rhs m)); auto; [now apply wf_rhs_NoDup; destruct O|cbn; congruence]. }
          rewrite Er. cbn [r_type r_id r_rhs rhs_value].
          destruct (con_is m p con _ (proj1 O) A Hc Ha (eq_sym E0)) as [_ Ht0]. cbn [r_type] in Ht0.
          destruct (priced m s n H r0 Hr0) as [q Hq].
          apply (fixed_row m k rows n O T (hs_ND _ _ _ H) L D (fun _ => true) x r0 q); auto. apply costed_in. auto.
        + assert (C : con_holds x con) by (apply F2; auto; intros s' [<-|Hs']; auto).
          apply (con_row m p x con r (proj1 O) A Hc Hr (eq_sym E)) in C.
          eapply relation_same; [| |exact C]; [|now apply (fixed_rhs m k rows n T D (fun _ => true) x r Hr)].
          apply (fixed_row_other m k rows n O T L D). intros q Hq _ Eq. apply Ng. exists (d_row q).
          split; [|congruence]. now apply (d_row_in (so_rows s) rows n (hs_in _ _ _ H)).
      - rewrite E3 in *. apply (fixed_sos m k rows n O D). exact F3.
      - rewrite E4 in *. apply (fixed_sos m k rows n O D). exact F4. }
    destruct (IH x1 Ht Hf1) as [y [Sy [Fy Py]]]. exists y. split; [|split; [exact Fy|]].
    + intros i Hi. pose proof (proj1 (slack_out m (s :: ss) i) Hi) as Hi'.
      rewrite (Sy i); [apply Sm, Hi'; now left|]. apply slack_out. intros s' Hs'. apply Hi'. now right.
    + intros s' [<-|Hs'].
      * apply (canon_pays m p A s n H). intros d Hd. rewrite (Sy (d_id d)).
        -- unfold x1. rewrite fixed_in by auto. reflexivity.
        -- apply slack_out. intros s' Hs' V. destruct (proj2 Ht s' Hs') as [n' H'].
           apply (soft_disjoint m s n s' n' (d_id d) H H'); auto. now apply (d_in m k rows n D).
      * destruct (proj2 Ht s' Hs') as [n' H']. rewrite (Py s' Hs'). apply (penalty_other m p s n s' n'); auto.
Qed.

(** The objective: plain cost and what the violations cost. *)
Lemma linear_ext_in ts x y : (forall t, In t ts -> x (fst t) == y (fst t)) -> linear ts x == linear ts y.
Proof.
  induction ts as [|[v c] t IH]; intros E; cbn [linear]; [reflexivity|]. rewrite (E (v, c)) by (now left). cbn [fst].
  rewrite IH by (intros; apply E; now right). reflexivity.
Qed.

Lemma cost_split m x : forall ss, all_held m ss ->
  linear (all_costs m) x == linear (all_costs m) (mask (fun i => negb (is_slack m ss i)) x) + sumQ (fun s => paid m s x) ss.
Proof.
  induction ss as [|s ss IH]; intros Hs.
  - rewrite sumQ_nil, Qplus_0_r. apply linear_ext_in. intros t _. reflexivity.
  - destruct (all_held_tail _ _ _ Hs) as [Ht [[n H] Ne]]. rewrite (IH Ht), sumQ_cons.
    set (w := mask (fun i => negb (is_slack m ss i)) x). set (w' := mask (fun i => negb (is_slack m (s :: ss) i)) x).
    assert (S : same_but m (so_key s) w' w).
    { intros i Ni. unfold w, w', mask. unfold is_slack. cbn [existsb]. 
      destruct (is_violation m (so_key s) i) eqn:Ev; [apply is_violation_in in Ev; tauto|]. reflexivity. }
    pose proof (cost_change m (so_key s) _ n (hs_T _ _ _ H) (hs_D _ _ _ H) (hs_C _ _ _ H) w' w S) as Ch.
    rewrite (paid_rows m s n H x).
    assert (E : sumQ (fun d => d_cost d * (w (d_id d) - w' (d_id d))) (deficit_rows (costed (so_cost s) (so_rows s)) n)
       == sumQ (fun d => d_cost d * x (d_id d)) (deficit_rows (costed (so_cost s) (so_rows s)) n)).
    { apply sumQ_ext_in. intros d Hd. pose proof (d_in m (so_key s) _ n (hs_D _ _ _ H) d Hd) as V. unfold w, w', mask.
      assert (Z1 : is_slack m (s :: ss) (d_id d) = true) by (apply slack_in; exists s; split; [now left|auto]).
      assert (Z2 : is_slack m ss (d_id d) = false).
      { apply slack_out. intros s' Hs'. destruct (proj2 Ht s' Hs') as [n' H']. apply (soft_disjoint m s n s' n'); auto. }
      rewrite Z1, Z2. cbn [negb]. ring. }
    rewrite E in Ch. rewrite <- Ch. ring.
Qed.

Lemma objective_split m p ss x : assemble m = Ok p -> all_held m ss ->
  objective p x == plain_cost p m ss x + sumQ (fun s => paid m s x) ss.
Proof.
  intros A Hs. destruct (assemble_parts m p A) as [_ [E2 _]]. unfold objective, plain_cost. rewrite E2.
  rewrite (cost_split m x ss Hs). apply Qplus_comp; [|reflexivity]. symmetry.
  apply (linear_filter (fun i => negb (is_slack m ss i))).
Qed.

Lemma plain_same p m ss x y : same_plain m ss x y -> plain_cost p m ss y == plain_cost p m ss x.
Proof.
  intros S. unfold plain_cost. apply linear_ext_in. intros t Ht. apply filter_In in Ht. destruct Ht as [_ Ht].
  apply S. now apply negb_true_iff.
Qed.

Lemma hard_of_feasible p m ss x : feasible p x -> hard_feasible p m ss x.
Proof. intros [F1 [F2 [F3 F4]]]. repeat split; auto; now apply F1. Qed.

Lemma soft_extends c m p ss x : all_softened c m ss -> assemble m = Ok p -> hard_feasible p m ss x ->
  exists y, same_plain m ss x y /\ feasible p y /\ objective p y == weighed p m ss x.
Proof.
  intros Hs A Hf. apply softened_all in Hs. destruct (extend m p A ss x Hs Hf) as [y [Sy [Fy Py]]].
  exists y. split; [exact Sy|]. split; [exact Fy|]. rewrite (objective_split m p ss y A Hs), (plain_same p m ss x y Sy).
  unfold weighed. apply Qplus_comp; [reflexivity|]. change (qsum (map ?f ?l)) with (sumQ f l). now apply sumQ_ext_in.
Qed.

Lemma soft_bound c m p ss x : all_softened c m ss -> assemble m = Ok p -> feasible p x ->
  hard_feasible p m ss x /\ weighed p m ss x <= objective p x.
Proof.
  intros Hs A F. split; [now apply hard_of_feasible|]. apply softened_all in Hs. rewrite (objective_split m p ss x A Hs).
  unfold weighed. change (qsum (map ?f ?l)) with (sumQ f l).
  assert (L : sumQ (penalty p m x) ss <= sumQ (fun s => paid m s x) ss); [|lra].
  apply sumQ_le. intros s Hs0. destruct (proj2 Hs s Hs0) as [n H]. now apply (feasible_pays m p A s n H).
Qed.

Lemma soft_optimum c m p ss x : all_softened c m ss -> assemble m = Ok p -> optimal p x ->
  hard_feasible p m ss x /\ objective p x == weighed p m ss x
  /\ forall y, hard_feasible p m ss y -> weighed p m ss x <= weighed p m ss y.
Proof.
  intros Hs A [F Op]. destruct (soft_bound c m p ss x Hs A F) as [Hf Le]. split; [exact Hf|].
  assert (B : forall y, hard_feasible p m ss y -> objective p x <= weighed p m ss y).
  { intros y Hy. destruct (soft_extends c m p ss y Hs A Hy) as [z [_ [Fz Ez]]]. rewrite <- Ez. now apply Op. }
  split; [apply Qle_antisym; auto|]. intros y Hy. specialize (B y Hy). lra.
Qed.

Lemma soft_achieved c m p ss x : all_softened c m ss -> assemble m = Ok p -> hard_feasible p m ss x ->
  (forall y, hard_feasible p m ss y -> weighed p m ss x <= weighed p m ss y) ->
  exists y, same_plain m ss x y /\ optimal p y /\ objective p y == weighed p m ss x.
Proof.
  intros Hs A Hf Mn. destruct (soft_extends c m p ss x Hs A Hf) as [y [Sy [Fy Ey]]]. exists y. split; [exact Sy|]. split; [split; [exact Fy|]|exact Ey].
  intros z Fz. destruct (soft_bound c m p ss z Hs A Fz) as [Hz Lz]. specialize (Mn z Hz). lra.
Qed.
