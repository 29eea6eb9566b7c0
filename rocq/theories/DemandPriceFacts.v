(** Lemmas: what setting demand again does to the reported energy prices. *)

From Coq Require Import QArith Lqa String List Bool Arith Lia.
Import ListNotations.
From Verif Require Import PandasModel TablesModel MarketConstraintsModel MarketModel SolverModel PricingModel ReportsModel FcasReportsModel DispatchPricesModel DispatchModel
  SpecLp SpecHistory SpecDispatch SpecNetwork SpecElastic SpecPricing SpecPrices SpecDual SpecSolver SpecDemand
  PandasFacts StepFacts InvariantFacts SolverFacts OwnerFacts ElasticFacts BalanceFacts LimitFacts DualFacts DualMarketFacts DispatchFacts ReplaceFacts.
Open Scope string_scope.
Open Scope list_scope.

(** ** The market with demand set again *)

Definition with_demand (l : list demand_row) (n n' : nat) (m : market) : market :=
  set_m_nc (Some n') (put_regional "demand" (energy_rhs l n) (energy_map l n) m).

Lemma demand_again l m m2 n : m_nc m = Some n -> step (OpDemand l None) m = (m2, None) -> exists n', m2 = with_demand l n n' m.
Proof.
  intros N H. cbn [step] in H. unfold set_demand in H. apply guard_ok in H. destruct H as [_ H].
  unfold new_regional_group in H. rewrite N in H. destruct (next_id _) as [n'|]; cbn in H; [|discriminate].
  injection H as <-. now exists n'.
Qed.

Lemma dset_in {A} k (v : A) d k' v' : NoDup (dkeys d) -> (In (k', v') (dset k v d) <-> (k' = k /\ v' = v) \/ (k' <> k /\ In (k', v') d)).
Proof.
  intros ND. split; intros H.
  - apply (in_dget _ _ _ (dset_NoDup k v d ND)) in H. destruct (string_dec k' k) as [->|E].
    + rewrite dget_dset_same in H. left. split; congruence.
    + rewrite (dget_dset_other k' k v d E) in H. right. split; [exact E|]. now apply dget_in.
  - apply dget_in. destruct H as [[-> ->]|[E H]]; [apply dget_dset_same|].
    rewrite (dget_dset_other k' k v d E). now apply in_dget.
Qed.

Lemma regional_lhs_app a b vs : regional_lhs (a ++ b) vs = regional_lhs a vs ++ regional_lhs b vs.
Proof. unfold regional_lhs, merge. now rewrite flat_map_app, map_app. Qed.

Lemma regional_lhs_id cs vs l : In l (regional_lhs cs vs) -> exists c, In c cs /\ l_con l = rc_con c.
Proof.
  unfold regional_lhs. intros H. apply in_map_iff in H. destruct H as [[c v] [<- H]]. apply in_merge in H.
  exists c. split; [tauto|reflexivity].
Qed.

Lemma filter_none {A} (p : A -> bool) l : (forall a, In a l -> p a = false) -> filter p l = [].
Proof.
  induction l as [|a t IH]; cbn; intros H; [reflexivity|]. rewrite (H a (or_introl eq_refl)). apply IH. auto.
Qed.

(** Rows of other constraints stay when the rows of one group are exchanged. *)
Lemma lhs_exchange k new d vs i : (forall l c, In (k, l) d -> In c l -> rc_con c <> i) -> (forall c, In c new -> rc_con c <> i) ->
  filter (fun l => Nat.eqb (l_con l) i) (regional_lhs (dconcat (dset k new d)) vs)
  = filter (fun l => Nat.eqb (l_con l) i) (regional_lhs (dconcat d) vs).
Proof.
  intros H1 H2.
  assert (Z : forall cs, (forall c, In c cs -> rc_con c <> i) -> filter (fun l => Nat.eqb (l_con l) i) (regional_lhs cs vs) = []).
  { intros cs H. apply filter_none. intros l Hl. apply regional_lhs_id in Hl. destruct Hl as [c [Hc ->]]. now apply Nat.eqb_neq, H. }
  induction d as [|[k' l'] t IH]; cbn [dset].
  - unfold dconcat. cbn [flat_map snd]. rewrite app_nil_r, (Z new H2). reflexivity.
  - destruct (String.eqb k k') eqn:E.
    + apply String.eqb_eq in E. subst k'. unfold dconcat. cbn [flat_map snd]. rewrite !regional_lhs_app, !filter_app, (Z new H2), (Z l'); [reflexivity|].
      intros c Hc. apply (H1 l' c); [now left|exact Hc].
    + unfold dconcat in *. cbn [flat_map snd]. rewrite !regional_lhs_app, !filter_app, IH; [reflexivity|].
      intros l c Hl. apply H1. now right.
Qed.

Section Again.
  Variables (c : config) (l2 : list demand_row) (m m2 : market) (f : nat -> grp) (n : nat).
  Hypothesis H_own : own f n m.
  Hypothesis H_step : step (OpDemand l2 None) m = (m2, None).

  Lemma again : exists n', m2 = with_demand l2 n n' m.
  Proof. exact (demand_again l2 m m2 n (ow_nc _ _ _ H_own) H_step). Qed.

  (** The rows that are not about demand. *)
  Definition rest (r : rrow) : Prop := In r (all_rhs m) /\ f (r_id r) <> GMkt "demand" /\ (r_id r < n)%nat.

  Lemma rest_before r : In r (all_rhs m) -> rest r \/ exists rows row, dget "demand" (m_mrhs m) = Some rows /\ In row rows /\ r_id r = cr_id row.
  Proof.
    intros H. pose proof H as H0. unfold all_rhs in H. apply in_app_iff in H. destruct H as [H|H]; [|apply in_app_iff in H; destruct H as [H|H]].
    - left. unfold static_rrows in H. apply in_map_iff in H. destruct H as [row [<- H]]. apply in_dconcat in H. destruct H as [k [l [Hk Hl]]].
      destruct (ow_rhs _ _ _ H_own k l row Hk Hl) as [E L]. split; [exact H0|]. cbn. split; [congruence|exact L].
    - unfold static_rrows in H. apply in_map_iff in H. destruct H as [row [<- H]]. apply in_dconcat in H. destruct H as [k [l [Hk Hl]]].
      destruct (ow_mrhs _ _ _ H_own k l row Hk Hl) as [E L]. destruct (string_dec k "demand") as [->|D].
      + right. exists l, row. split; [|split; [exact Hl|reflexivity]]. apply in_dget; [apply (ow_keys _ _ _ H_own)|exact Hk].
      + left. split; [exact H0|]. cbn. split; [congruence|exact L].
    - left. unfold dyn_rrows in H. apply in_map_iff in H. destruct H as [row [<- H]]. destruct (ow_dyn _ _ _ H_own row H) as [E L].
      split; [exact H0|]. cbn. split; [congruence|exact L].
  Qed.

  Lemma rest_after r : In r (all_rhs m2) -> rest r \/ exists rows row, dget "demand" (m_mrhs m2) = Some rows /\ In row rows /\ r_id r = cr_id row.
  Proof.
    intros H. destruct again as [n' E]. subst m2. unfold all_rhs in H.
    apply in_app_iff in H. destruct H as [H|H]; [|apply in_app_iff in H; destruct H as [H|H]].
    - destruct (rest_before r) as [R|[rows [row [D [Hr Ei]]]]]; [unfold all_rhs; apply in_app_iff; left; exact H|left; exact R|].
      exfalso. unfold static_rrows in H. apply in_map_iff in H. destruct H as [row' [<- H]]. apply in_dconcat in H. destruct H as [k [l [Hk Hl]]].
      destruct (ow_rhs _ _ _ H_own k l row' Hk Hl) as [F _]. destruct (ow_mrhs _ _ _ H_own "demand" rows row (dget_in _ _ _ D) Hr) as [G _]. cbn in Ei. congruence.
    - unfold static_rrows in H. apply in_map_iff in H. destruct H as [row [<- H]]. apply in_dconcat in H. destruct H as [k [l [Hk Hl]]].
      change (m_mrhs (with_demand l2 n n' m)) with (dset "demand" (energy_rhs l2 n) (m_mrhs m)) in *.
      apply dset_in in Hk; [|apply (ow_keys _ _ _ H_own)]. destruct Hk as [[-> ->]|[D Hk]].
      + right. exists (energy_rhs l2 n), row. split; [apply dget_dset_same|]. split; [exact Hl|reflexivity].
      + left. destruct (ow_mrhs _ _ _ H_own k l row Hk Hl) as [E L]. split.
        * unfold all_rhs. apply in_app_iff. right. apply in_app_iff. left. unfold static_rrows. apply in_map_iff. exists row. split; [reflexivity|].
          apply in_dconcat. eauto.
        * cbn. split; [congruence|exact L].
    - left. pose proof H as H0. unfold dyn_rrows in H. apply in_map_iff in H. destruct H as [row [<- H]]. destruct (ow_dyn _ _ _ H_own row H) as [E L].
      split; [unfold all_rhs; apply in_app_iff; right; apply in_app_iff; right; exact H0|]. cbn. split; [congruence|exact L].
  Qed.

  Lemma rest_in_after r : rest r -> In r (all_rhs m2).
  Proof.
    intros [H [G _]]. destruct again as [n' E]. subst m2. unfold all_rhs in *.
    apply in_app_iff in H. destruct H as [H|H]; [|apply in_app_iff in H; destruct H as [H|H]]; apply in_app_iff; [left; exact H|right|right]; apply in_app_iff.
    - left. unfold static_rrows in *. apply in_map_iff in H. destruct H as [row [<- H]]. apply in_map_iff. exists row. split; [reflexivity|].
      apply in_dconcat in H. destruct H as [k [l [Hk Hl]]]. apply in_dconcat. exists k, l. split; [|exact Hl].
      change (m_mrhs (with_demand l2 n n' m)) with (dset "demand" (energy_rhs l2 n) (m_mrhs m)).
      apply dset_in; [apply (ow_keys _ _ _ H_own)|]. right. split; [|exact Hk]. intros ->.
      destruct (ow_mrhs _ _ _ H_own _ l row Hk Hl) as [E _]. cbn in G. contradiction.
    - right. exact H.
  Qed.

  Lemma rest_lhs r : rest r ->
    filter (fun l => Nat.eqb (l_con l) (r_id r)) (all_lhs m2) = filter (fun l => Nat.eqb (l_con l) (r_id r)) (all_lhs m).
  Proof.
    intros [_ [G L]]. destruct again as [n' E]. subst m2. unfold all_lhs.
    change (m_c2v_reg (with_demand l2 n n' m)) with (dset "demand" (energy_map l2 n) (m_c2v_reg m)).
    assert (Gen : generic_lhs (with_demand l2 n n' m) = generic_lhs m).
    { assert (Ids : generic_ids (with_demand l2 n n' m) = generic_ids m).
      { unfold generic_ids. change (m_mrhs (with_demand l2 n n' m)) with (dset "demand" (energy_rhs l2 n) (m_mrhs m)).
        rewrite (dget_dset_other "fcas" "demand"); [reflexivity|discriminate]. }
      unfold generic_lhs. rewrite Ids. reflexivity. }
    rewrite Gen. change (regional_vars (with_demand l2 n n' m)) with (regional_vars m).
    rewrite !filter_app. rewrite lhs_exchange; [reflexivity|..].
    - intros l k Hl Hk E. destruct (ow_reg _ _ _ H_own _ l k Hl Hk) as [E' _]. rewrite E in E'. contradiction.
    - intros k Hk E. unfold energy_map in Hk. apply in_map_iff in Hk. destruct Hk as [[i d] [<- Hi]]. cbn in E. subst i.
      apply in_save_index in Hi. destruct Hi as [Hi _]. cbn [fst] in Hi; lia.
  Qed.

  Lemma rest_con p q x r : assemble m = Ok p -> assemble m2 = Ok q -> wf m -> wf m2 -> rest r ->
    (exists l, In l (all_lhs m) /\ l_con l = r_id r) -> feasible q x ->
    relation (r_type r) (row_value (all_lhs m) x (r_id r)) (rhs_value (r_rhs r) x).
  Proof.
    intros A1 A2 W1 W2 R [l [Hl El]] F. pose proof (rest_lhs r R) as E.
    assert (X : row_value (all_lhs m) x (r_id r) = row_value (all_lhs m2) x (r_id r)) by (unfold row_value; now rewrite E).
    rewrite X. apply (feasible_row m2 q x r W2 A2 F (rest_in_after r R)). exists l. split; [|exact El].
    assert (Y : In l (filter (fun l => Nat.eqb (l_con l) (r_id r)) (all_lhs m))) by (apply filter_In; split; [exact Hl|now apply Nat.eqb_eq]).
    rewrite <- E in Y. apply filter_In in Y. tauto.
  Qed.
  Lemma rest_con' p q x r : assemble m = Ok p -> assemble m2 = Ok q -> wf m -> wf m2 -> rest r ->
    (exists l, In l (all_lhs m2) /\ l_con l = r_id r) -> feasible p x ->
    relation (r_type r) (row_value (all_lhs m2) x (r_id r)) (rhs_value (r_rhs r) x).
  Proof.
    intros A1 A2 W1 W2 R [l [Hl El]] F. pose proof (rest_lhs r R) as E.
    assert (X : row_value (all_lhs m2) x (r_id r) = row_value (all_lhs m) x (r_id r)) by (unfold row_value; now rewrite E).
    rewrite X. apply (feasible_row m p x r W1 A1 F (proj1 R)). exists l. split; [|exact El].
    assert (Y : In l (filter (fun l => Nat.eqb (l_con l) (r_id r)) (all_lhs m2))) by (apply filter_In; split; [exact Hl|now apply Nat.eqb_eq]).
    rewrite E in Y. apply filter_In in Y. tauto.
  Qed.
End Again.

Lemma con_present m p con : wf m -> assemble m = Ok p -> In con (p_cons p) ->
  exists r, In r (all_rhs m) /\ r_id r = pc_id con /\ exists l, In l (all_lhs m) /\ l_con l = r_id r.
Proof.
  intros W A Hc. destruct (ElasticFacts.con_rhs m p con W A Hc) as [r [Hr Er]]. exists r. split; [exact Hr|]. split; [exact Er|].
  apply assemble_parts in A. destruct A as [_ [_ [_ [_ [A _]]]]]. unfold add_constraints in A. destruct (no_rhs_tables m) eqn:E0.
  - inversion A as [A']. rewrite <- A' in Hc. destruct Hc.
  - assert (B : build_cons (all_vars m) (all_rhs m) (all_lhs m) (con_ids (all_lhs m)) = Ok (p_cons p)).
    { destruct (all_lhs m); [discriminate|exact A]. }
    apply (build_cons_in _ _ _ _ _ B) in Hc. destruct Hc as [i [Hi Hc]]. unfold build_con in Hc.
    destruct (forallb _ _); [|discriminate]. destruct (find_rhs (all_rhs m) i) as [r'|] eqn:Ef; [|discriminate].
    destruct (mem_str _ _); [|discriminate]. inversion Hc; subst con. cbn in Er. apply con_ids_in in Hi. destruct Hi as [l [Hl El]].
    exists l. split; [exact Hl|congruence].
Qed.

Lemma demand_of_row l d : NoDup (map de_region l) -> In d l -> demand_of l (de_region d) == de_demand d.
Proof.
  unfold demand_of.
  induction l as [|a t IH]; intros ND H; [destruct H|]. cbn [map] in ND. inversion ND as [|? ? N1 N2]; subst. cbn [filter].
  destruct H as [->|H].
  - rewrite String.eqb_refl. cbn [map qsum].
    rewrite (filter_none (fun d0 => String.eqb (de_region d) (de_region d0)) t).
    + cbn. ring.
    + intros b Hb. apply String.eqb_neq. intros E. apply N1. rewrite E. now apply in_map.
  - destruct (String.eqb (de_region d) (de_region a)) eqn:E.
    + apply String.eqb_eq in E. destruct N1. rewrite <- E. now apply in_map.
    + now apply IH.
Qed.

(** ** Two runs of the same market *)

Section Twice.
  Variables (c : config) (l1 l2 : list demand_row) (v : option vcost) (dirs : list inter_row) (m m2 : market) (p p2 : problem).
  Variables (x x2 : assignment) (pi pi2 : nat -> Q) (ps ps2 : list (string * Q)).
  Hypothesis H_reached : reached c m.
  Hypothesis H_demand : held c (OpDemand l1 v) m.
  Hypothesis H_hard : violation_vars m "demand" = [].
  Hypothesis H_network : network c dirs [] [] m.
  Hypothesis H_ends : forall d, In d dirs -> in_from d <> in_to d.
  Hypothesis H_supplied : forall d, In d l1 -> supplied m dirs (de_region d).
  Hypothesis H_again : step (OpDemand l2 None) m = (m2, None).
  Hypothesis H_regions : same_regions l1 l2.
  Hypothesis H_assemble : assemble m = Ok p.
  Hypothesis H_assemble2 : assemble m2 = Ok p2.
  Hypothesis H_shadow : shadow_prices p x pi.
  Hypothesis H_shadow2 : shadow_prices p2 x2 pi2.
  Hypothesis H_report : energy_prices m pi = Ok ps.
  Hypothesis H_report2 : energy_prices m2 pi2 = Ok ps2.
  Hypothesis H_priced : priced_problem m p p.
  Hypothesis H_priced2 : priced_problem m2 p2 p2.

  Lemma held_again : held c (OpDemand l2 None) m2.
  Proof.
    destruct H_reached as [m0 [ops [H1 [H2 E]]]]. exists m, m0, ops, []. split; [exact H1|]. split.
    - unfold sane in *. apply along_app. split; [exact H2|]. cbn. auto.
    - split; [exact E|]. split; [rewrite H_again; reflexivity|]. split; [intros k o' _ []|].
      rewrite run_app, <- E. cbn [run fold_left]. unfold run. cbn [fold_left]. rewrite H_again. reflexivity.
  Qed.

  Lemma leaves_again k ops : k <> "demand" -> leaves k ops -> leaves k (ops ++ [OpDemand l2 None]).
  Proof.
    intros N L o Ho. apply in_app_iff in Ho. destruct Ho as [Ho|[<-|[]]]; [now apply L|]. cbn. intros [E|[]]. now apply N.
  Qed.

  Lemma network_again : network c dirs [] [] m2.
  Proof.
    destruct H_network as [m0 [ops [H1 [H2 [H3 E]]]]]. exists m0, (ops ++ [OpDemand l2 None]). split; [exact H1|]. split.
    - unfold sane in *. apply along_app. split; [exact H2|]. cbn. auto.
    - split; [|rewrite run_app, <- E; unfold run; cbn [fold_left]; rewrite H_again; reflexivity].
      destruct H3 as [[A [B [C [D F]]]]|[[B [C [[pre [post [D [F G]]]] I]]]|[pre [post [A [B [C [D [F G]]]]]]]]].
      + left. repeat split; auto; apply leaves_again; auto; discriminate.
      + right. left. repeat split; auto; [|apply leaves_again; auto; discriminate].
        exists pre, (post ++ [OpDemand l2 None]). split; [rewrite D, <- app_assoc; reflexivity|]. split; [exact F|].
        intros k Hk. apply leaves_again; [|now apply G]. cbn in Hk. destruct Hk as [<-|[]]. discriminate.
      + right. right. exists pre, (post ++ [OpDemand l2 None]). split; [rewrite A, <- app_assoc; reflexivity|].
        split; [exact B|]. split; [exact C|]. repeat split; apply leaves_again; auto; discriminate.
  Qed.

  Lemma again_tables : violation_vars m2 "demand" = [] /\ (forall y r, energy_balance m2 y dirs [] r = energy_balance m y dirs [] r)
    /\ (forall d, supplied m2 dirs d <-> supplied m dirs d) /\ all_vars m2 = all_vars m /\ all_costs m2 = all_costs m.
  Proof.
    destruct (reached_owned c m H_reached) as [[_ [f [n O]]] _]. destruct (again l2 m m2 f n O H_again) as [n' E].
    clear - E H_hard. subst m2. split; [exact H_hard|]. split; [reflexivity|]. split; [intros d; reflexivity|]. split; reflexivity.
  Qed.

  Lemma met1 r : In r (map de_region l1) -> forall y, feasible p y -> energy_balance m y dirs [] r == demand_of l1 r.
  Proof.
    intros Hr y F. apply in_map_iff in Hr. destruct Hr as [d [<- Hd]]. rewrite (demand_of_row l1 d (demand_once c l1 v m H_demand) Hd).
    apply (balance_upheld c l1 v dirs [] [] m y); auto; [|now exists p].
    apply held_upheld; [exact H_demand|]. intros k Hk. cbn in Hk. destruct Hk as [<-|[]]. intros i Hi. rewrite H_hard in Hi. destruct Hi.
  Qed.
  Lemma met2 r : In r (map de_region l2) -> forall y, feasible p2 y -> energy_balance m2 y dirs [] r == demand_of l2 r.
  Proof.
    intros Hr y F. pose proof Hr as Hr1. apply H_regions in Hr1. apply in_map_iff in Hr1. destruct Hr1 as [d1 [E1 Hd1]].
    destruct again_tables as [V [_ [Su _]]].
    apply in_map_iff in Hr. destruct Hr as [d [<- Hd]]. rewrite (demand_of_row l2 d (demand_once c l2 None m2 held_again) Hd).
    apply (balance_upheld c l2 None dirs [] [] m2 y); auto.
    - apply held_upheld; [exact held_again|]. intros k Hk. cbn in Hk. destruct Hk as [<-|[]]. intros i Hi. rewrite V in Hi. destruct Hi.
    - exact network_again.
    - now exists p2.
    - apply Su. rewrite <- E1. now apply H_supplied.
  Qed.

  Lemma twice_bounds : p_vars p2 = p_vars p /\ p_obj p2 = p_obj p.
  Proof.
    destruct again_tables as [_ [_ [_ [V C]]]]. apply assemble_parts in H_assemble. apply assemble_parts in H_assemble2.
    destruct H_assemble as [A1 [A2 _]], H_assemble2 as [B1 [B2 _]]. split; congruence.
  Qed.

  Lemma price_regions mm l q rows : (exists w, held c (OpDemand l w) mm) -> energy_prices mm q = Ok rows -> map fst rows = map de_region l.
  Proof.
    clear. intros [w H] R. destruct (held_demand _ _ _ _ H) as [_ [_ [n [D _]]]]. unfold energy_prices, need in R. rewrite D in R. injection R as <-.
    rewrite map_map. unfold energy_rhs. rewrite map_map. rewrite <- (save_index_snd n l) at 2. rewrite map_map. apply map_ext. intros [i d]. reflexivity.
  Qed.

  Lemma cost_between : change_value ps l1 l2 <= objective p2 x2 - objective p x <= change_value ps2 l1 l2.
  Proof.
    destruct again_tables as [V [EB [Su [Ev Ec]]]]. destruct twice_bounds as [Tv To].
    destruct (reached_owned c m H_reached) as [[W [f [n O]]] _].
    assert (R2 : reached c m2). { pose proof (reached_next c m (OpDemand l2 None) H_reached I) as X. now rewrite H_again in X. }
    destruct (reached_owned c m2 R2) as [[W2 _] _].
    pose proof (energy_marginal_all c l1 v dirs [] [] m p p x pi ps H_demand H_network H_ends H_assemble H_priced H_report x2 H_shadow H_supplied) as M1.
    pose proof (energy_marginal_all c l2 None dirs [] [] m2 p2 p2 x2 pi2 ps2 held_again network_again H_ends H_assemble2 H_priced2 H_report2 x H_shadow2) as M2.
    assert (F1 : feasible p x) by apply H_shadow. assert (F2 : feasible p2 x2) by apply H_shadow2.
    assert (S2 : forall d, In d l2 -> supplied m2 dirs (de_region d)).
    { intros d Hd. apply Su. assert (X : In (de_region d) (map de_region l1)) by (apply H_regions; now apply in_map).
      apply in_map_iff in X. destruct X as [d1 [E1 Hd1]]. rewrite <- E1. now apply H_supplied. }
    specialize (M2 S2).
    assert (B1 : boxed p x2) by (intros w Hw; apply F2; now rewrite Tv).
    assert (B2 : boxed p2 x) by (intros w Hw; apply F1; now rewrite <- Tv).
    specialize (M1 B1). specialize (M2 B2).
    assert (C1 : forall con, In con (p_cons p) -> (forall r, ~ balance_con m r con) -> met_or_free pi x2 con).
    { intros con Hc N. left. destruct (con_present m p con W H_assemble Hc) as [r [Hr [Er Hl]]].
      apply (SolverFacts.con_row m p x2 con r W H_assemble Hc Hr (eq_sym Er)).
      destruct (rest_before m f n O r Hr) as [R|[rows [row [D [Hrow Ei]]]]].
      - exact (rest_con l2 m m2 f n O H_again p p2 x2 r H_assemble H_assemble2 W W2 R Hl F2).
      - exfalso. destruct (held_demand _ _ _ _ H_demand) as [_ [_ [k [D1 _]]]]. assert (rows = energy_rhs l1 k) by congruence. subst rows.
        destruct (demand_rows l1 k row Hrow) as [d [Hd [Hi E]]]. apply (N (de_region d)). exists (energy_rhs l1 k), row.
        split; [exact D1|]. split; [exact Hrow|]. split; [rewrite E; reflexivity|congruence]. }
    assert (C2 : forall con, In con (p_cons p2) -> (forall r, ~ balance_con m2 r con) -> met_or_free pi2 x con).
    { intros con Hc N. left. destruct (con_present m2 p2 con W2 H_assemble2 Hc) as [r [Hr [Er Hl]]].
      apply (SolverFacts.con_row m2 p2 x con r W2 H_assemble2 Hc Hr (eq_sym Er)).
      destruct (rest_after l2 m m2 f n O H_again r Hr) as [R|[rows [row [D [Hrow Ei]]]]].
      - exact (rest_con' l2 m m2 f n O H_again p p2 x r H_assemble H_assemble2 W W2 R Hl F1).
      - exfalso. destruct (held_demand _ _ _ _ held_again) as [_ [_ [k [D1 _]]]]. assert (rows = energy_rhs l2 k) by congruence. subst rows.
        destruct (demand_rows l2 k row Hrow) as [d [Hd [Hi E]]]. apply (N (de_region d)). exists (energy_rhs l2 k), row.
        split; [exact D1|]. split; [exact Hrow|]. split; [rewrite E; reflexivity|congruence]. }
    specialize (M1 C1 ltac:(intros i Hi; rewrite H_hard in Hi; destruct Hi)). specialize (M2 C2 ltac:(intros i Hi; rewrite V in Hi; destruct Hi)).
    assert (E1 : qsum (map (fun a => snd a * (energy_balance m x2 dirs [] (fst a) - energy_balance m x dirs [] (fst a))) ps) == change_value ps l1 l2).
    { unfold change_value. apply sumQ_ext_in. intros [r q] Ha. cbn [fst snd].
      assert (Hr : In r (map de_region l1)). { rewrite <- (price_regions m l1 pi ps (ex_intro _ v H_demand) H_report). exact (in_map fst _ _ Ha). }
      rewrite (met1 r Hr x F1). rewrite <- (EB x2 r), (met2 r (proj1 (H_regions r) Hr) x2 F2). reflexivity. }
    assert (E2 : qsum (map (fun a => snd a * (energy_balance m2 x dirs [] (fst a) - energy_balance m2 x2 dirs [] (fst a))) ps2) == - change_value ps2 l1 l2).
    { transitivity (qsum (map (fun a => snd a * (demand_of l1 (fst a) - demand_of l2 (fst a))) ps2)).
      - apply sumQ_ext_in. intros [r q] Ha. cbn [fst snd].
        assert (Hr : In r (map de_region l2)). { rewrite <- (price_regions m2 l2 pi2 ps2 (ex_intro _ None held_again) H_report2). exact (in_map fst _ _ Ha). }
        rewrite (met2 r Hr x2 F2). rewrite (EB x r), (met1 r (proj2 (H_regions r) Hr) x F1). reflexivity.
      - unfold change_value. clear. change (sumQ (fun a => snd a * (demand_of l1 (fst a) - demand_of l2 (fst a))) ps2
          == - sumQ (fun a => snd a * (demand_of l2 (fst a) - demand_of l1 (fst a))) ps2).
        induction ps2 as [|a t IH]; [reflexivity|]. rewrite !sumQ_cons, IH. ring. }
    rewrite E1 in M1. rewrite E2 in M2. unfold objective in *. rewrite To in *. clear - M1 M2. lra.
  Qed.

  Lemma rise_total : change_value ps l1 l2 <= change_value ps2 l1 l2.
  Proof. destruct cost_between as [A B]. clear - A B. lra. Qed.

  (** Demand changes in one region only: its price moves with it. *)
  Lemma rise_one r price price2 : In (r, price) ps -> In (r, price2) ps2 ->
    (forall r', r' <> r -> demand_of l2 r' == demand_of l1 r') -> demand_of l1 r < demand_of l2 r -> price <= price2.
  Proof.
    intros P1 P2 Same Up. pose proof rise_total as T.
    assert (K : forall mm l q rows pr, (exists w, held c (OpDemand l w) mm) -> energy_prices mm q = Ok rows -> In (r, pr) rows ->
      change_value rows l1 l2 == pr * (demand_of l2 r - demand_of l1 r)).
    { intros mm l q rows pr H R Hp. pose proof (price_regions mm l q rows H R) as Ef. destruct H as [w H].
      pose proof (demand_once c l w mm H) as ND. rewrite <- Ef in ND. clear - Hp ND Same.
      unfold change_value. change (sumQ (fun a => snd a * (demand_of l2 (fst a) - demand_of l1 (fst a))) rows == pr * (demand_of l2 r - demand_of l1 r)).
      induction rows as [|[r' q'] t IH]; [destruct Hp|]. rewrite sumQ_cons. cbn [map fst snd] in *. inversion ND as [|? ? N1 N2]; subst.
      destruct Hp as [E|Hp].
      - injection E as -> ->. rewrite (sumQ_zero _ t); [ring|]. intros [r'' q''] Ha. cbn [fst snd].
        rewrite (Same r''); [ring|]. intros ->. apply N1. exact (in_map fst _ _ Ha).
      - rewrite (IH Hp N2). rewrite (Same r'); [ring|]. intros ->. apply N1. exact (in_map fst _ _ Hp). }
    rewrite (K m l1 pi ps price (ex_intro _ v H_demand) H_report P1) in T.
    rewrite (K m2 l2 pi2 ps2 price2 (ex_intro _ None held_again) H_report2 P2) in T. clear - T Up. nra.
  Qed.
End Twice.

(** ** What dispatch records *)

Lemma lossless_recorded c s a m old new p : reached c m -> sound s -> dispatch_market s a m old = (new, None) -> da_rerun a = false ->
  m_loss m = None -> assemble m = Ok p -> no_sets p ->
  exists x pi, d_value new = Some x /\ recorded_energy_prices m new = energy_prices m pi /\ shadow_prices p x pi /\ priced_problem m p p.
Proof.
  intros R S H A L As Z. destruct (lossless_prices c s a m old new R S H L A) as [p' [x [pi [As' [V [_ [En Sh]]]]]]].
  rewrite As in As'. injection As' as <-. destruct (Sh Z) as [Sh1 Sh2]. exists x, pi. auto.
Qed.

Lemma recorded_between c l1 l2 v dirs m m2 p p2 s a old new s2 a2 old2 new2 ps ps2 :
  reached c m -> held c (OpDemand l1 v) m -> violation_vars m "demand" = [] -> network c dirs [] [] m ->
  (forall d, In d dirs -> in_from d <> in_to d) -> (forall d, In d l1 -> supplied m dirs (de_region d)) -> m_loss m = None ->
  step (OpDemand l2 None) m = (m2, None) -> same_regions l1 l2 ->
  assemble m = Ok p -> assemble m2 = Ok p2 -> no_sets p -> no_sets p2 ->
  sound s -> dispatch_market s a m old = (new, None) -> da_rerun a = false -> recorded_energy_prices m new = Ok ps ->
  sound s2 -> dispatch_market s2 a2 m2 old2 = (new2, None) -> da_rerun a2 = false -> recorded_energy_prices m2 new2 = Ok ps2 ->
  exists x x2, d_value new = Some x /\ d_value new2 = Some x2
    /\ change_value ps l1 l2 <= objective p2 x2 - objective p x <= change_value ps2 l1 l2
    /\ forall r price price2, In (r, price) ps -> In (r, price2) ps2 ->
         (forall r', r' <> r -> demand_of l2 r' == demand_of l1 r') -> demand_of l1 r < demand_of l2 r -> price <= price2.
Proof.
  intros R Hd V Nw Ends Su L St Rg As As2 Z Z2 S D A Re S2 D2 A2 Re2.
  assert (R2 : reached c m2). { pose proof (reached_next c m (OpDemand l2 None) R I) as X. now rewrite St in X. }
  assert (L2 : m_loss m2 = None).
  { destruct (reached_owned c m R) as [[_ [f [n O]]] _]. destruct (again l2 m m2 f n O St) as [n' ->]. exact L. }
  destruct (lossless_recorded c s a m old new p R S D A L As Z) as [x [pi [E1 [E2 [Sh Pb]]]]].
  destruct (lossless_recorded c s2 a2 m2 old2 new2 p2 R2 S2 D2 A2 L2 As2 Z2) as [x2 [pi2 [F1 [F2 [Sh2 Pb2]]]]].
  rewrite Re in E2. rewrite Re2 in F2. symmetry in E2, F2. exists x, x2. split; [exact E1|]. split; [exact F1|]. split.
  - exact (cost_between c l1 l2 v dirs m m2 p p2 x x2 pi pi2 ps ps2 R Hd V Nw Ends Su St Rg As As2 Sh Sh2 E2 F2 Pb Pb2).
  - intros r price price2. exact (rise_one c l1 l2 v dirs m m2 p p2 x x2 pi pi2 ps ps2 R Hd V Nw Ends Su St Rg As As2 Sh Sh2 E2 F2 Pb Pb2 r price price2).
Qed.
