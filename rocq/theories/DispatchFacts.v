(** What dispatch records. *)

From Coq Require Import QArith Qabs Lqa String List Bool Arith Lia.
Import ListNotations.
From Verif Require Import PandasModel TablesModel MarketModel SolverModel PricingModel ReportsModel FcasReportsModel DispatchPricesModel DispatchModel
  SpecLp PandasFacts SpecHistory SpecDispatch SpecElastic SpecPricing SpecPrices SpecDual SpecSolver SolverFacts
  OwnerFacts LimitFacts ElasticFacts ElasticTheoremFacts SpecNetwork PricingFacts RelaxFacts DualFacts DualMarketFacts DualBidFacts DispatchPriceFacts.
Open Scope string_scope.
Open Scope list_scope.

(** ** Prices belong to every optimal point *)

Lemma priced_gap ty q a b : signed_price ty q -> relation ty a b -> 0 <= q * (a - b).
Proof.
  intros [S1 S2] [[-> R]|[[-> R]|[-> R]]].
  - specialize (S1 eq_refl). setoid_replace (q * (a - b)) with ((- q) * (b - a)) by ring. apply Qmult_le_0_compat; lra.
  - specialize (S2 eq_refl). apply Qmult_le_0_compat; lra.
  - rewrite R. setoid_replace (q * (b - b)) with 0 by ring. lra.
Qed.

Lemma qsum_cons {A} (f : A -> Q) b t : qsum (map f (b :: t)) == f b + qsum (map f t).
Proof. reflexivity. Qed.

Lemma sum_zero {A} (f : A -> Q) l : (forall a, In a l -> 0 <= f a) -> qsum (map f l) <= 0 -> forall a, In a l -> f a == 0.
Proof.
  induction l as [|b t IH]; intros P S a H; [destruct H|]. rewrite qsum_cons in S.
  assert (N : 0 <= qsum (map f t)).
  { assert (Pt : forall c, In c t -> 0 <= f c) by (intros c Hc; apply P; now right). clear - Pt.
    induction t as [|c t IH]; [apply Qle_refl|]. rewrite qsum_cons. pose proof (Pt c (or_introl eq_refl)).
    assert (0 <= qsum (map f t)); [|lra]. apply IH. intros a Ha. apply Pt. now right. }
  pose proof (P b (or_introl eq_refl)) as Pb. destruct H as [<-|H]; [lra|]. apply IH; auto; [|lra]. intros c Hc. apply P. now right.
Qed.

Lemma sum_all_zero {A} (f : A -> Q) l : (forall a, In a l -> f a == 0) -> qsum (map f l) == 0.
Proof.
  induction l as [|b t IH]; intros P; [reflexivity|]. rewrite qsum_cons, (P b (or_introl eq_refl)), IH; [ring|].
  intros a Ha. apply P. now right.
Qed.

Lemma shadow_transfer q x y pi : shadow_prices q y pi -> feasible q x -> objective q x <= objective q y -> shadow_prices q x pi.
Proof.
  intros [Fy [Sg [Cy Ly]]] Fx E.
  assert (P : forall c, In c (p_cons q) -> 0 <= pi (pc_id c) * gap c x).
  { intros c Hc. apply (priced_gap (pc_type c)); [now apply Sg|]. now apply (proj1 (proj2 Fx)). }
  assert (Hy : lagrangian q pi y == objective q y).
  { unfold lagrangian. rewrite (sum_all_zero (fun c => pi (pc_id c) * gap c y)) by exact Cy. ring. }
  pose proof (Ly x (proj1 Fx)) as L.
  assert (Z : qsum (map (fun c => pi (pc_id c) * gap c x) (p_cons q)) <= 0) by (unfold lagrangian in L, Hy; lra).
  pose proof (sum_zero _ _ P Z) as C. split; [exact Fx|]. split; [exact Sg|]. split; [exact C|].
  intros z Hz. assert (Hx : lagrangian q pi x == objective q x).
  { unfold lagrangian. rewrite (sum_all_zero (fun c => pi (pc_id c) * gap c x)) by exact C. ring. }
  pose proof (Ly z Hz). lra.
Qed.

(** ** Recording prices *)

Lemma record_prices_ok q pi d : (forall k rows, In (k, rows) d -> all_present q rows) -> forall old,
  exists new, record_prices q pi d old = (new, None)
    /\ (NoDup (dkeys d) -> forall k rows, dget k d = Some rows -> dget k new = Some (map (fun w => (cr_id w, pi (cr_id w))) rows))
    /\ (forall k, dget k d = None -> dget k new = dget k old).
Proof.
  induction d as [|[k rows] t IH]; intros H old.
  - exists old. split; [reflexivity|]. split; [discriminate|auto].
  - cbn [record_prices]. rewrite price_constraints_ok.
    + destruct (IH (fun k' r' H' => H k' r' (or_intror H')) (dset k (map (fun i => (i, pi i)) (map cr_id rows)) old)) as [new [E [G1 G2]]].
      exists new. split; [exact E|]. split.
      * intros ND k' rows' D. unfold dkeys in ND. cbn [map fst] in ND. inversion ND as [|? ? N1 N2]; subst. cbn [dget] in D.
        destruct (String.eqb k' k) eqn:Ek.
        -- apply String.eqb_eq in Ek. subst k'. injection D as <-. rewrite G2.
           ++ rewrite dget_dset_same, map_map. reflexivity.
           ++ destruct (dget k t) eqn:X; [|reflexivity]. apply dget_in in X. destruct N1. apply in_map_iff. now exists (k, l).
        -- now apply G1.
      * intros k' D. cbn [dget] in D. destruct (String.eqb k' k) eqn:Ek; [discriminate|]. rewrite G2 by exact D.
        apply dget_dset_other. intros ->. rewrite String.eqb_refl in Ek. discriminate.
    + intros i Hi. apply in_map_iff in Hi. destruct Hi as [r [<- Hr]].
      destruct (H k rows (or_introl eq_refl) r Hr) as [c [Hc E]]. rewrite <- E. now apply in_map.
Qed.

Lemma record_prices_err q pi d old new e : record_prices q pi d old = (new, Some e) ->
  e = EAttribute /\ exists k rows, In (k, rows) d /\ ~ all_present q rows.
Proof.
  revert old. induction d as [|[k rows] t IH]; intros old; cbn [record_prices]; [discriminate|].
  destruct (present_dec q rows) as [Y|[r [Hr N]]].
  - rewrite price_constraints_ok.
    + intros H. destruct (IH _ H) as [E [k' [rows' [Hk N]]]]. split; [exact E|]. exists k', rows'. split; [now right|exact N].
    + intros i Hi. apply in_map_iff in Hi. destruct Hi as [r [<- Hr]]. destruct (Y r Hr) as [c [Hc E]]. rewrite <- E. now apply in_map.
  - rewrite (price_constraints_err q pi _ (cr_id r)); [|now apply in_map|exact N]. intros [= <- <-]. split; [reflexivity|].
    exists k, rows. split; [now left|]. intros Y. destruct (Y r Hr) as [c [Hc E]]. apply N. rewrite <- E. now apply in_map.
Qed.

Lemma record_prices_none q pi d old new : record_prices q pi d old = (new, None) -> forall k rows, In (k, rows) d -> all_present q rows.
Proof.
  revert old. induction d as [|[k rows] t IH]; intros old; cbn [record_prices]; [intros _ k rows []|].
  destruct (present_dec q rows) as [Y|[r [Hr N]]].
  - rewrite price_constraints_ok.
    + intros H k' rows' [X|X]; [injection X as <- <-; exact Y|now apply (IH _ H k')].
    + intros i Hi. apply in_map_iff in Hi. destruct Hi as [r [<- Hr]]. destruct (Y r Hr) as [c [Hc E]]. rewrite <- E. now apply in_map.
  - rewrite (price_constraints_err q pi _ (cr_id r)); [discriminate|now apply in_map|exact N].
Qed.

(** ** The re-run *)

Lemma limit_hit_iff ec ef fc pi m : price_limit_hit ec ef fc pi m = true <->
  (exists rows r, dget "fcas" (m_mrhs m) = Some rows /\ In r rows /\ fc <= pi (cr_id r))
  \/ (exists rows r, dget "demand" (m_mrhs m) = Some rows /\ In r rows /\ (ec <= pi (cr_id r) \/ pi (cr_id r) <= ef)).
Proof.
  assert (S : forall k P, some_price k P pi m = true <-> exists rows r, dget k (m_mrhs m) = Some rows /\ In r rows /\ P (pi (cr_id r)) = true).
  { intros k P. unfold some_price. destruct (dget k (m_mrhs m)) as [rows|]; split.
    - intros H. apply existsb_exists in H. destruct H as [r [Hr H]]. exists rows, r. auto.
    - intros [rows' [r [E [Hr H]]]]. injection E as <-. apply existsb_exists. exists r. auto.
    - discriminate.
    - intros [rows' [r [E _]]]. discriminate. }
  unfold price_limit_hit. rewrite !orb_true_iff, !S. split.
  - intros [[[rows [r [E [Hr H]]]]|[rows [r [E [Hr H]]]]]|[rows [r [E [Hr H]]]]]; apply Qle_bool_iff in H; [left|right|right]; exists rows, r; auto.
  - intros [[rows [r [E [Hr H]]]]|[rows [r [E [Hr [H|H]]]]]]; apply Qle_bool_iff in H; [left; left|left; right|right]; exists rows, r; auto.
Qed.

Lemma large_abs q : large q = true <-> (1 # 10000) < Qabs q.
Proof.
  unfold large. rewrite orb_true_iff, !negb_true_iff. split.
  - intros [H|H].
    + assert (L : (1 # 10000) < q) by (apply Qnot_le_lt; intros X; apply Qle_bool_iff in X; congruence). pose proof (Qle_Qabs q). lra.
    + assert (L : q < - (1 # 10000)) by (apply Qnot_le_lt; change (- (1 # 10000)) with (-(1) # 10000); intros X; apply Qle_bool_iff in X; congruence).
      pose proof (Qle_Qabs (- q)) as A. rewrite Qabs_opp in A. lra.
  - intros H. destruct (Qle_bool q (1 # 10000)) eqn:E1; [|now left]. right. apply Qle_bool_iff in E1.
    destruct (Qle_bool (-(1) # 10000) q) eqn:E2; [|reflexivity]. apply Qle_bool_iff in E2. change (-(1) # 10000) with (- (1 # 10000)) in E2. exfalso.
    apply (Qlt_not_le _ _ H). apply Qabs_Qle_condition. lra.
Qed.

Lemma violated_iff m x : violated_groups m x <> [] <-> exists k, relaxed m x k.
Proof.
  unfold violated_groups, relaxed. split.
  - intros H. destruct (filter _ _) as [|k t] eqn:E; [congruence|].
    assert (X : In k (filter (group_violated m x) ["generic"; "fcas"])) by (rewrite E; now left).
    apply filter_In in X. destruct X as [X V]. exists k. split; [destruct X as [<-|[<-|[]]]; auto|].
    unfold group_violated in V. destruct (dget (deficit_key k) (m_deficits m)) as [ds|] eqn:D; [|discriminate].
    apply existsb_exists in V. destruct V as [d [Hd V]]. exists (df_id d). split; [|now apply large_abs].
    unfold violation_vars. fold (deficit_key k). rewrite D. now apply in_map.
  - intros [k [K [i [Hi L]]]] E. assert (X : In k (filter (group_violated m x) ["generic"; "fcas"])); [|rewrite E in X; destruct X].
    apply filter_In. split; [destruct K as [->| ->]; cbn; auto|]. unfold group_violated. unfold violation_vars in Hi. fold (deficit_key k) in Hi.
    destruct (dget (deficit_key k) (m_deficits m)) as [ds|]; [|destruct Hi]. cbn [rows_or_nil] in Hi. apply in_map_iff in Hi.
    destruct Hi as [d [<- Hd]]. apply existsb_exists. exists d. split; [exact Hd|]. now apply large_abs.
Qed.

Lemma rerun_iff a ec ef fc m x pi q : da_rerun a = true -> da_ceiling a = Some ec -> da_floor a = Some ef -> da_fcas a = Some fc ->
  (exists q', rerun_problem ec ef fc pi m x q = Some q') <-> rerun_due a m x pi.
Proof.
  intros A1 A2 A3 A4. unfold rerun_problem, rerun_due, beyond_limits. split.
  - intros [q' H]. destruct (price_limit_hit ec ef fc pi m) eqn:L; [|discriminate]. cbn [andb] in H.
    split; [exact A1|]. split; [exists ec, ef, fc; repeat split; auto; now apply limit_hit_iff|]. apply violated_iff. intros E. rewrite E in H. discriminate.
  - intros [_ [[ec' [ef' [fc' [E1 [E2 [E3 L]]]]]] V]]. rewrite A2 in E1. rewrite A3 in E2. rewrite A4 in E3.
    injection E1 as <-. injection E2 as <-. injection E3 as <-. apply limit_hit_iff in L. rewrite L. apply violated_iff in V.
    destruct (violated_groups m x); [congruence|]. eexists. reflexivity.
Qed.

(** ** Dispatch *)

Lemma terms_value ts (x : nat -> Q) : qsum (map (fun t => snd t * x (fst t)) ts) == linear ts x.
Proof.
  induction ts as [|[i c] t IH]; [reflexivity|]. rewrite qsum_cons, IH. reflexivity.
Qed.

Lemma slack_distance p x i : NoDup (map pc_id (p_cons p)) -> distance p x i (slack p x i).
Proof.
  intros ND con Hc E. unfold slack. destruct (find _ _) as [c|] eqn:F.
  - apply find_some in F. destruct F as [F1 F2]. apply Nat.eqb_eq in F2.
    assert (c = con) by (apply (BalanceFacts.NoDup_map_inj pc_id (p_cons p)); auto; congruence). subst c.
    rewrite terms_value. destruct (pc_rhs con); reflexivity.
  - apply (find_none _ _ F) in Hc. rewrite E, Nat.eqb_refl in Hc. discriminate.
Qed.

Lemma second_ok s a m x pi q r new : second_run s a m x pi q r = (new, None) -> sound s ->
  (forall k rows, In (k, rows) (m_mrhs m) -> all_present q rows) -> NoDup (dkeys (m_mrhs m)) -> (da_rerun a = true -> limits_given a = true) ->
  prices_recorded m r pi ->
  d_value new = d_value r /\ d_slack new = d_slack r /\ d_lin new = d_lin r /\ d_objective new = d_objective r
  /\ ((~ rerun_due a m x pi /\ prices_recorded m new pi)
      \/ (rerun_due a m x pi /\ exists ec ef fc q' y' pi', rerun_problem ec ef fc pi m x q = Some q'
           /\ shadow_prices q' y' pi' /\ prices_recorded m new pi')).
Proof.
  unfold second_run, limits_given. intros H S P ND G R.
  destruct (da_rerun a) eqn:Ea.
  2:{ injection H as <-. repeat (split; [reflexivity|]). left. split; [|exact R]. intros [X _]. congruence. }
  specialize (G eq_refl). destruct (da_ceiling a) as [ec|] eqn:E1; [|discriminate]. destruct (da_floor a) as [ef|] eqn:E2; [|discriminate].
  destruct (da_fcas a) as [fc|] eqn:E3; [|discriminate].
  destruct (rerun_problem ec ef fc pi m x q) as [q'|] eqn:Eq.
  2:{ injection H as <-. repeat (split; [reflexivity|]). left. split; [|exact R]. intros X.
      apply (proj2 (rerun_iff a ec ef fc m x pi q Ea E1 E2 E3)) in X. destruct X as [q' X]. congruence. }
  destruct (sv_lin s q') as [[y' pi']|] eqn:El; [|discriminate].
  assert (P' : forall k rows, In (k, rows) (m_mrhs m) -> all_present q' rows).
  { intros k rows Hk. pose proof (P k rows Hk) as A. rewrite (RelaxFacts.rerun_is _ _ _ _ _ _ _ _ Eq). intros w Hw.
    destruct (A w Hw) as [c [Hc E]]. exists (adjust (adjusters m x) c). split; [cbn [relax p_cons]; now apply in_map|].
    rewrite <- E. unfold adjust. destruct (pc_rhs c); reflexivity. }
  destruct (record_prices_ok q' pi' (m_mrhs m) P' (d_prices r)) as [ps [E [K _]]]. rewrite E in H. injection H as <-.
  repeat (split; [reflexivity|]). right. split; [apply (proj1 (rerun_iff a ec ef fc m x pi q Ea E1 E2 E3)); now exists q'|].
  exists ec, ef, fc, q', y', pi'. split; [exact Eq|]. split; [now apply (proj1 (proj2 S))|]. exact (K ND).
Qed.

Lemma second_err s a m x pi q r new e : second_run s a m x pi q r = (new, Some e) -> 
  (forall k rows, In (k, rows) (m_mrhs m) -> all_present q rows) ->
  e = EModelBuild /\ exists ec ef fc q', rerun_problem ec ef fc pi m x q = Some q' /\ sv_lin s q' = None.
Proof.
  unfold second_run. intros H P.
  destruct (da_rerun a); [|discriminate]. destruct (da_ceiling a) as [ec|]; [|discriminate]. destruct (da_floor a) as [ef|]; [|discriminate].
  destruct (da_fcas a) as [fc|]; [|discriminate].
  destruct (rerun_problem ec ef fc pi m x q) as [q'|] eqn:Eq; [|discriminate].
  destruct (sv_lin s q') as [[y' pi']|] eqn:El.
  2:{ injection H as <- <-. split; [reflexivity|]. exists ec, ef, fc, q'. auto. }
  assert (P' : forall k rows, In (k, rows) (m_mrhs m) -> all_present q' rows).
  { intros k rows Hk. pose proof (P k rows Hk) as A. rewrite (RelaxFacts.rerun_is _ _ _ _ _ _ _ _ Eq). intros w Hw.
    destruct (A w Hw) as [c [Hc E]]. exists (adjust (adjusters m x) c). split; [cbn [relax p_cons]; now apply in_map|].
    rewrite <- E. unfold adjust. destruct (pc_rhs c); reflexivity. }
  destruct (record_prices_ok q' pi' (m_mrhs m) P' (d_prices r)) as [ps [E [K _]]]. rewrite E in H. discriminate.
Qed.

Lemma record_done q pi d old new : record_prices q pi d old = (new, None) -> forall k rows, In (k, rows) d -> all_present q rows.
Proof.
  revert old. induction d as [|[k rows] t IH]; intros old H k' rows' Hk; [destruct Hk|]. cbn [record_prices] in H. destruct Hk as [E|Hk].
  - injection E as <- <-. destruct (present_dec q rows) as [Y|[r [Hr N]]]; [exact Y|].
    rewrite (price_constraints_err q pi (map cr_id rows) (cr_id r)) in H; [discriminate|now apply in_map|exact N].
  - destruct (price_constraints q pi (map cr_id rows)); [|discriminate]. exact (IH _ H k' rows' Hk).
Qed.

Lemma dispatch_ok s a m old new p : NoDup (dkeys (m_mrhs m)) -> dispatch_market s a m old = (new, None) -> sound s -> assemble m = Ok p ->
  exists x y pi, optimal p x /\ d_value new = Some x
    /\ (exists o, d_objective new = Some o /\ o == objective p x)
    /\ d_slack new = Some (slack p x)
    /\ d_lin new = Some y
    /\ shadow_prices (pricing_problem (sv_sort s) m x p) y pi
    /\ (forall k rows, In (k, rows) (m_mrhs m) -> all_present (pricing_problem (sv_sort s) m x p) rows)
    /\ ((~ rerun_due a m x pi /\ prices_recorded m new pi)
      \/ (rerun_due a m x pi /\ exists ec ef fc q' y' pi', rerun_problem ec ef fc pi m x (pricing_problem (sv_sort s) m x p) = Some q'
           /\ shadow_prices q' y' pi' /\ prices_recorded m new pi')).
Proof.
  unfold dispatch_market. intros ND H S A. fold (limits_given a) in H.
  assert (G : da_rerun a = true -> limits_given a = true).
  { intros E. unfold limits_given. rewrite E in H. cbn [andb] in H. destruct (da_ceiling a), (da_floor a), (da_fcas a); try discriminate H; reflexivity. }
  destruct (_ && _) in H; [discriminate|]. rewrite A in H. destruct (sv_mip s p) as [x|] eqn:Ex; [|discriminate].
  cbn [d_value d_slack d_lin d_prices d_objective] in H.
  destruct (sv_lin s (pricing_problem (sv_sort s) m x p)) as [[y pi]|] eqn:El; [|discriminate].
  destruct (record_prices _ pi (m_mrhs m) (d_prices old)) as [ps e] eqn:Er. destruct e; [discriminate|].
  pose proof (record_done _ _ _ _ _ Er) as P. destruct (record_prices_ok _ pi _ P (d_prices old)) as [ps' [Er' [K _]]].
  rewrite Er in Er'. injection Er' as <-.
  destruct (second_run s a m x pi _ _) as [r e] eqn:E2. destruct e; [discriminate|]. injection H as <-.
  destruct (second_ok _ _ _ _ _ _ _ _ E2 S P ND G (K ND)) as [V1 [V2 [V3 [_ D]]]].
  cbn [d_value d_slack d_lin d_prices d_objective] in V1, V2, V3 |- *.
  exists x, y, pi. split; [now apply (proj1 S)|]. split; [exact V1|]. split; [eexists; split; [reflexivity|unfold objective, cost_at; apply terms_value]|].
  split; [exact V2|]. split; [exact V3|]. split; [now apply (proj1 (proj2 S))|]. split; [exact P|].
  destruct D as [[N D]|[Y [ec [ef [fc [q' [y' [pi' [D1 [D2 D3]]]]]]]]]]; [left; split; [exact N|exact D]|right].
  split; [exact Y|]. exists ec, ef, fc, q', y', pi'. split; [exact D1|]. split; [exact D2|exact D3].
Qed.

Lemma dispatch_err s a m old new e : dispatch_market s a m old = (new, Some e) ->
  (new = old /\ ((e = EValue /\ da_rerun a = true /\ limits_given a = false)
    \/ assemble m = Err e
    \/ exists p, assemble m = Ok p /\ e = EValue /\ sv_mip s p = None))
  \/ (exists p x, assemble m = Ok p /\ sv_mip s p = Some x /\ d_value new = Some x /\ d_objective new = d_objective old
      /\ ((e = EModelBuild /\ exists q, priced_by (sv_sort s) m p x q /\ sv_lin s q = None)
         \/ (e = EAttribute /\ exists k rows, In (k, rows) (m_mrhs m) /\ ~ all_present (pricing_problem (sv_sort s) m x p) rows))).
Proof.
  unfold dispatch_market. fold (limits_given a). intros H.
  destruct (da_rerun a && _) eqn:G.
  - injection H as <- <-. left. split; [reflexivity|]. left. split; [reflexivity|]. apply andb_true_iff in G. destruct G as [G1 G2].
    split; [exact G1|]. unfold limits_given. destruct (da_ceiling a), (da_floor a), (da_fcas a); try discriminate G2; reflexivity.
  - destruct (assemble m) as [p|e'] eqn:A; [|injection H as <- <-; left; split; [reflexivity|]; right; left; reflexivity].
    destruct (sv_mip s p) as [x|] eqn:X.
    2:{ injection H as <- <-. left. split; [reflexivity|]. right. right. exists p. auto. }
    right. exists p, x. split; [reflexivity|]. split; [exact X|]. cbn [d_value d_slack d_lin d_prices d_objective] in H.
    destruct (sv_lin s (pricing_problem (sv_sort s) m x p)) as [[y pi]|] eqn:El.
    2:{ injection H as <- <-. split; [reflexivity|]. split; [reflexivity|]. left. split; [reflexivity|]. eexists. split; [left; reflexivity|exact El]. }
    destruct (record_prices _ pi (m_mrhs m) (d_prices old)) as [ps e'] eqn:Er. destruct e' as [e'|].
    + injection H as <- <-. split; [reflexivity|]. split; [reflexivity|]. right.
      destruct (record_prices_err _ _ _ _ _ _ Er) as [E [k [rows [Hk N]]]]. split; [exact E|]. exists k, rows. auto.
    + destruct (second_run s a m x pi _ _) as [r e'] eqn:E2. destruct e' as [e'|]; [|discriminate]. injection H as <- <-.
      assert (V : d_value r = Some x /\ d_objective r = d_objective old).
      { unfold second_run in E2. destruct (da_rerun a); [|discriminate]. destruct (da_ceiling a); [|discriminate]. destruct (da_floor a); [|discriminate].
        destruct (da_fcas a); [|discriminate]. destruct (rerun_problem _ _ _ _ _ _ _) as [q'|]; [|discriminate].
        destruct (sv_lin s q') as [[y' pi']|]; [|injection E2 as <- _; split; reflexivity].
        destruct (record_prices q' pi' _ _) as [ps' e'']. injection E2 as <- _. split; reflexivity. }
      split; [exact (proj1 V)|]. split; [exact (proj2 V)|]. left.
      destruct (second_err _ _ _ _ _ _ _ _ _ E2 (record_done _ _ _ _ _ Er)) as [E [ec [ef [fc [q' [Eq N]]]]]].
      split; [exact E|]. exists q'. split; [right; exists ec, ef, fc, pi; exact Eq|exact N].
Qed.

(** ** The search for a culprit *)

Lemma remove_spec solve p cs gone l : remove_until solve p cs gone = l ->
  (l = [] /\ forall t u, cs = t ++ u -> t <> [] -> solve (without_cons p (gone ++ map pc_id t)) = None)
  \/ (exists t u, cs = t ++ u /\ t <> [] /\ l = gone ++ map pc_id t /\ solve (without_cons p l) <> None
      /\ forall t' u', cs = t' ++ u' -> t' <> [] -> (length t' < length t)%nat -> solve (without_cons p (gone ++ map pc_id t')) = None).
Proof.
  revert gone. induction cs as [|c t IH]; intros gone; cbn [remove_until].
  - intros <-. left. split; [reflexivity|]. intros t u E N. destruct t; [congruence|discriminate].
  - fold (without_cons p (gone ++ [pc_id c])). destruct (solve (without_cons p (gone ++ [pc_id c]))) eqn:S.
    + intros <-. right. exists [c], t. split; [reflexivity|]. split; [discriminate|]. split; [reflexivity|]. split; [rewrite S; discriminate|].
      intros t' u' _ N L. destruct t'; [congruence|]. cbn [length] in L. lia.
    + intros H. destruct (IH _ H) as [[-> F]|[t1 [u1 [E1 [N1 [L1 [S1 F1]]]]]]].
      * left. split; [reflexivity|]. intros t' u' E N. destruct t' as [|c' t']; [congruence|]. cbn [app] in E. injection E as -> Et.
        cbn [map]. destruct t' as [|d t']; [exact S|]. specialize (F (d :: t') u' Et). rewrite <- app_assoc in F. apply F. discriminate.
      * right. exists (c :: t1), u1. rewrite E1. split; [reflexivity|]. split; [discriminate|].
        assert (EL : l = gone ++ map pc_id (c :: t1)) by (rewrite L1, <- app_assoc; reflexivity).
        split; [exact EL|]. split; [exact S1|]. intros t' u' E N L. destruct t' as [|c' t']; [congruence|]. cbn [app] in E. injection E as -> Et.
        cbn [map]. destruct t' as [|d t']; [exact S|]. rewrite <- E1 in *. specialize (F1 (d :: t') u' Et). rewrite <- app_assoc in F1. apply F1; [discriminate|].
        cbn [length] in *. lia.
Qed.

(** ** What is reported *)

Lemma recorded_energy m r pi : prices_recorded m r pi -> recorded_energy_prices m r = energy_prices m pi.
Proof.
  intros H. unfold recorded_energy_prices, energy_prices. destruct (dget "demand" (m_mrhs m)) as [rows|] eqn:E; [|reflexivity]. cbn [need].
  rewrite (H _ _ E). cbn [need]. f_equal. rewrite map_map. cbn [snd]. clear. induction rows as [|w t IH]; [reflexivity|].
  cbn [map combine]. now rewrite IH.
Qed.

Lemma reached_keys c m : reached c m -> NoDup (dkeys (m_mrhs m)).
Proof. intros R. destruct (proj1 (reached_owned _ _ R)) as [_ [f [n O]]]. exact (proj1 (proj2 (ow_keys _ _ _ O))). Qed.

Lemma dispatch_records c s a m old new : reached c m -> sound s -> dispatch_market s a m old = (new, None) ->
  exists p x y pi q, assemble m = Ok p /\ optimal p x /\ d_value new = Some x
    /\ (exists o, d_objective new = Some o /\ o == objective p x)
    /\ (exists sl, d_slack new = Some sl /\ forall i, distance p x i (sl i))
    /\ priced_by (sv_sort s) m p x q /\ shadow_prices q y pi /\ prices_recorded m new pi
    /\ recorded_energy_prices m new = energy_prices m pi
    /\ (forall k rows, In (k, rows) (m_mrhs m) -> all_present p rows).
Proof.
  intros R S H. pose proof (reached_keys c m R) as ND.
  destruct (assemble m) as [p|e] eqn:A.
  2:{ exfalso. unfold dispatch_market in H. destruct (_ && _) in H; [discriminate|]. rewrite A in H. discriminate. }
  destruct (dispatch_ok s a m old new p ND H S A) as [x [y [pi [O [V1 [V2 [V3 [V4 [Sh [Pr D]]]]]]]]]].
  assert (SL : exists sl, d_slack new = Some sl /\ forall i, distance p x i (sl i)).
  { exists (slack p x). split; [exact V3|]. intros i. apply slack_distance. now apply (cons_ids_NoDup m). }
  assert (Pr' : forall k rows, In (k, rows) (m_mrhs m) -> all_present p rows).
  { intros k rows Hk w Hw. destruct (Pr k rows Hk w Hw) as [con [Hc E]]. exists con. split; [|exact E]. now rewrite pricing_same_cons in Hc. }
  destruct D as [[N D]|[Y [ec [ef [fc [q' [y' [pi' [D1 [D2 D3]]]]]]]]]].
  - exists p, x, y, pi, (pricing_problem (sv_sort s) m x p). split; [reflexivity|]. split; [exact O|]. split; [exact V1|]. split; [exact V2|]. split; [exact SL|].
    split; [now left|]. split; [exact Sh|]. split; [exact D|]. split; [now apply recorded_energy|exact Pr'].
  - exists p, x, y', pi', q'. split; [reflexivity|]. split; [exact O|]. split; [exact V1|]. split; [exact V2|]. split; [exact SL|].
    split; [right; exists ec, ef, fc, pi; exact D1|]. split; [exact D2|]. split; [exact D3|]. split; [now apply recorded_energy|exact Pr'].
Qed.

Lemma dispatch_rerun c s a m old new : reached c m -> sound s -> dispatch_market s a m old = (new, None) ->
  exists p x y pi, assemble m = Ok p /\ d_value new = Some x /\ shadow_prices (pricing_problem (sv_sort s) m x p) y pi
    /\ (~ rerun_due a m x pi -> prices_recorded m new pi)
    /\ (rerun_due a m x pi -> exists q' y' pi', (exists ec ef fc, rerun_problem ec ef fc pi m x (pricing_problem (sv_sort s) m x p) = Some q')
          /\ shadow_prices q' y' pi' /\ prices_recorded m new pi').
Proof.
  intros R S H. pose proof (reached_keys c m R) as ND.
  destruct (assemble m) as [p|e] eqn:A.
  2:{ exfalso. unfold dispatch_market in H. destruct (_ && _) in H; [discriminate|]. rewrite A in H. discriminate. }
  destruct (dispatch_ok s a m old new p ND H S A) as [x [y [pi [O [V1 [V2 [V3 [V4 [Sh [Pr D]]]]]]]]]].
  exists p, x, y, pi. split; [reflexivity|]. split; [exact V1|]. split; [exact Sh|].
  destruct D as [[N D]|[Y [ec [ef [fc [q' [y' [pi' [D1 [D2 D3]]]]]]]]]].
  - split; [auto|]. intros X. now destruct N.
  - split; [intros X; now destruct X|]. intros _. exists q', y', pi'. split; [exists ec, ef, fc; exact D1|]. auto.
Qed.

(** ** Prices and the recorded dispatch *)

Lemma priced_objective sort m p x q y : priced_by sort m p x q -> objective q y = objective p y.
Proof.
  intros H. unfold objective. assert (E : p_obj (pricing_problem sort m x p) = p_obj p) by (unfold pricing_problem; destruct (m_loss m); reflexivity).
  destruct H as [->|[ec [ef [fc [pr H]]]]]; [now rewrite E|]. rewrite (rerun_is _ _ _ _ _ _ _ _ H). unfold relax. cbn [p_obj]. now rewrite E.
Qed.

Lemma same_cost_prices sort m p x y pi q : priced_by sort m p x q -> shadow_prices q y pi -> feasible q x -> objective p x <= objective p y ->
  shadow_prices q x pi.
Proof. intros Pb Sh F E. apply (shadow_transfer q x y pi Sh F). now rewrite !(priced_objective _ _ _ _ _ _ Pb). Qed.

Lemma lossless_prices c s a m old new : reached c m -> sound s -> dispatch_market s a m old = (new, None) ->
  m_loss m = None -> da_rerun a = false ->
  exists p x pi, assemble m = Ok p /\ d_value new = Some x /\ prices_recorded m new pi /\ recorded_energy_prices m new = energy_prices m pi
    /\ (no_sets p -> shadow_prices p x pi /\ priced_problem m p p).
Proof.
  intros R S H L A. destruct (dispatch_rerun c s a m old new R S H) as [p [x [y [pi [As [V [Sh [N _]]]]]]]].
  assert (D : prices_recorded m new pi) by (apply N; intros [X _]; congruence). exists p, x, pi. split; [exact As|]. split; [exact V|].
  split; [exact D|]. split; [now apply recorded_energy|]. intros [Z1 Z2].
  assert (E : forall x0, pricing_problem (sv_sort s) m x0 p = p).
  { intros x0. unfold pricing_problem. rewrite L. unfold linear_problem. destruct p as [v o k s2 s1]. cbn in Z1, Z2. subst. reflexivity. }
  rewrite E in Sh. split.
  - destruct (dispatch_records c s a m old new R S H) as [p' [x' [_ [_ [_ [As' [O [V' _]]]]]]]].
    rewrite As in As'. injection As' as <-. rewrite V in V'. injection V' as <-.
    apply (shadow_transfer p x y pi Sh (proj1 O)). apply (proj2 O). apply Sh.
  - exists (sv_sort s), x. split; [apply S|]. left. now rewrite E.
Qed.

(** In a network with losses the linear solution is never dearer. *)
Lemma lossy_prices c dirs lf bps s a m old new : reached c m -> sound s -> dispatch_market s a m old = (new, None) ->
  network c dirs lf bps m -> all_losses lf bps -> (forall d, In d dirs -> rising d bps) -> (forall d, In d dirs -> balanced d bps) -> da_rerun a = false ->
  exists p x y pi, assemble m = Ok p /\ d_value new = Some x /\ d_lin new = Some y /\ prices_recorded m new pi
    /\ recorded_energy_prices m new = energy_prices m pi /\ objective p y <= objective p x
    /\ (objective p x <= objective p y -> shadow_prices (pricing_problem (sv_sort s) m x p) x pi).
Proof.
  intros R S H Nw All Ri Ba A. pose proof (reached_keys c m R) as ND.
  destruct (assemble m) as [p|e] eqn:As.
  2:{ exfalso. unfold dispatch_market in H. destruct (_ && _) in H; [discriminate|]. rewrite As in H. discriminate. }
  destruct (dispatch_ok s a m old new p ND H S As) as [x [y [pi [O [V1 [V2 [V3 [V4 [Sh [Pr D]]]]]]]]]].
  assert (D' : prices_recorded m new pi) by (destruct D as [[_ D]|[[X _] _]]; [exact D|congruence]).
  pose proof (pricing_contains _ _ _ _ _ x p (sv_sort s) Nw All Ri Ba (proj2 (proj2 S)) As (proj1 O)) as F.
  assert (Pb : priced_by (sv_sort s) m p x (pricing_problem (sv_sort s) m x p)) by now left.
  exists p, x, y, pi. split; [reflexivity|]. split; [exact V1|]. split; [exact V4|]. split; [exact D'|]. split; [now apply recorded_energy|].
  split; [|intros E; exact (same_cost_prices _ _ _ _ _ _ _ Pb Sh F E)].
  pose proof (proj2 (shadow_optimal _ _ _ Sh) x F) as X. now rewrite !(priced_objective _ _ _ _ _ _ Pb) in X.
Qed.

(** ** Bids of the recorded dispatch *)

Lemma lossless_bids c l v0 dirs s a m old new tv tp u d b v k ui price ps p :
  reached c m -> sound s -> dispatch_market s a m old = (new, None) -> da_rerun a = false ->
  m_loss m = None -> assemble m = Ok p -> no_sets p ->
  held c (OpDemand l v0) m -> network c dirs [] [] m -> (forall e, In e dirs -> in_from e <> in_to e) ->
  recorded_energy_prices m new = Ok ps ->
  priced c tv tp m -> offered tv u "energy" d b v -> 1#10000 <= v -> offered tp u "energy" d b k ->
  In ui (c_ui c) -> ui_unit ui = u -> ui_dt ui = d -> In (ui_region ui, price) ps -> ~ ui_lf ui == 0 ->
  (forall w con, In w (band_vars m u "energy" d b) -> In con (p_cons p) -> mentions con (bv_id w) -> balance_con m (ui_region ui) con) ->
  exists x, d_value new = Some x
    /\ (mw_cost (ui_lf ui) "energy" d k < earns "energy" d price -> band_dispatch m x u "energy" d b == v)
    /\ (earns "energy" d price < mw_cost (ui_lf ui) "energy" d k -> band_dispatch m x u "energy" d b == 0).
Proof.
  intros R S H A L As Z Hd Nw Ends E Pr O1 Hv O2 U1 U2 U3 Hp Lf Only.
  destruct (lossless_prices c s a m old new R S H L A) as [p' [x [pi [As' [V [D [En Sh]]]]]]].
  rewrite As in As'. injection As' as <-. destruct (Sh Z) as [Sh1 Sh2]. exists x. split; [exact V|]. rewrite E in En. symmetry in En.
  apply (energy_band c l v0 dirs [] [] m p p x pi ps tv tp u d b v k ui price); auto.
  intros w con Hw Hc M N. destruct N. exact (Only w con Hw Hc M).
Qed.
