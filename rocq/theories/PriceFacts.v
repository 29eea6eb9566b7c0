(** Costs and regions of the bid variables, the objective, and exchange arguments
    at the optimum. *)

From Coq Require Import QArith Qminmax Lqa String List Bool Arith Lia ZArith Permutation.
Import ListNotations.
From Verif Require Import PandasModel TablesModel VariableIdsModel MarketConstraintsModel
  UnitConstraintsModel RampModel FcasModel InterModel ElasticModel MarketModel SolverModel
  SpecLp PandasFacts SpecHistory SpecIds SpecDispatch SpecPrices StepFacts InvariantFacts OwnerFacts SolverFacts
  MeaningFacts LimitFacts TableFacts BidFacts BalanceFacts DeficitFacts ElasticFacts PriceStateFacts.
Open Scope string_scope.
Open Scope list_scope.

(** ** Lists *)

Lemma filter_flat_map {A B} (p : B -> bool) (f : A -> list B) l :
  filter p (flat_map f l) = flat_map (fun a => filter p (f a)) l.
Proof. induction l as [|a t IH]; cbn; [reflexivity|]. now rewrite filter_app, IH. Qed.

Lemma filter_map {A B} (p : B -> bool) (f : A -> B) l : filter p (map f l) = map f (filter (fun a => p (f a)) l).
Proof. induction l as [|a t IH]; cbn; [reflexivity|]. destruct (p (f a)); cbn; now rewrite IH. Qed.

Lemma filter_ext_in {A} (p q : A -> bool) l : (forall a, In a l -> p a = q a) -> filter p l = filter q l.
Proof.
  induction l as [|a t IH]; intros H; cbn; [reflexivity|]. rewrite (H a) by now left.
  rewrite IH by (intros; apply H; now right). reflexivity.
Qed.

Lemma filter_none {A} (p : A -> bool) l : (forall a, In a l -> p a = false) -> filter p l = [].
Proof.
  induction l as [|a t IH]; intros H; cbn; [reflexivity|]. rewrite (H a) by now left. apply IH. intros; apply H; now right.
Qed.

Lemma filter_one {A} (p : A -> bool) l a : NoDup l -> In a l -> p a = true ->
  (forall b, In b l -> p b = true -> b = a) -> filter p l = [a].
Proof.
  induction l as [|b t IH]; intros ND H Hp U; [destruct H|]. inversion ND as [|? ? N1 N2]; subst. cbn.
  destruct H as [->|H].
  - rewrite Hp. f_equal. apply filter_none. intros b Hb. destruct (p b) eqn:E; [|reflexivity].
    exfalso. assert (b = a) by (apply U; [now right|exact E]). congruence.
  - destruct (p b) eqn:E.
    + exfalso. assert (b = a) by (apply U; [now left|exact E]). congruence.
    + apply IH; auto. intros; apply U; [now right|assumption].
Qed.

Lemma flat_map_one {A B} (f : A -> list B) l a : NoDup l -> In a l ->
  (forall b, In b l -> b <> a -> f b = []) -> flat_map f l = f a.
Proof.
  induction l as [|b t IH]; intros ND H U; [destruct H|]. inversion ND as [|? ? N1 N2]; subst. cbn.
  destruct H as [->|H].
  - assert (E : flat_map f t = []).
    { clear IH ND N2. induction t as [|c t IH]; cbn; [reflexivity|]. rewrite (U c); [|right; now left|intros ->; apply N1; now left].
      apply IH; [|]. - intros X; apply N1; now right. - intros b [->|Hb] Hne; [now apply U; [left|]|]. apply U; [right; now right|exact Hne]. }
    rewrite E. apply app_nil_r.
  - rewrite (U b); [|now left|intros ->; contradiction]. cbn. apply IH; auto. intros; apply U; [now right|assumption].
Qed.

Lemma filter_merge_fst {A B} (p : A -> bool) (on : A -> B -> bool) l r :
  filter (fun q => p (fst q)) (merge on l r) = merge on (filter p l) r.
Proof.
  induction l as [|a t IH]; [reflexivity|]. unfold merge in *. cbn [flat_map filter].
  rewrite filter_app, IH. destruct (p a) eqn:E; cbn [flat_map].
  - f_equal. rewrite filter_map. cbn [fst]. rewrite E. f_equal. induction (filter (on a) r); cbn; congruence.
  - rewrite filter_map. cbn [fst]. rewrite E. rewrite (filter_none (fun _ => false)) by reflexivity. reflexivity.
Qed.

Lemma merge_one {A B} (on : A -> B -> bool) a r : merge on [a] r = map (fun b => (a, b)) (filter (on a) r).
Proof. unfold merge. cbn [flat_map]. now rewrite app_nil_r. Qed.

(** ** What [priced] says about the state *)

Lemma priced_inv c tv tp m : priced c tv tp m ->
  reached c m /\ in_force c (OpVolumeBids tv) m /\ owned m /\ m_cfg m = c
  /\ exists n m1 m2, m_bids m = Some (bid_variables tv n) /\ check_bids true m1 tv = None /\ check_bids false m2 tp = None
    /\ m_obj_bids m = Some (scale_by_loss_factors (objective_bids (bid_variables tv n) tp) (c_ui c)).
Proof.
  intros [m0 [pre [mid [post [H0 [S [A1 [A2 [L1 [L2 [L3 ->]]]]]]]]]]].
  set (ops := pre ++ OpVolumeBids tv :: mid ++ OpPriceBids tp :: post) in *.
  assert (R : reached c (run ops m0)) by (exists m0, ops; auto).
  assert (I : in_force c (OpVolumeBids tv) (run ops m0)).
  { exists m0, ops. repeat split; auto. exists pre, (mid ++ OpPriceBids tp :: post). repeat split; auto.
    intros k [<-|[]] o Ho. apply in_app_or in Ho. destruct Ho as [Ho|[<-|Ho]]; [now apply L1| |now apply L2].
    cbn. intuition discriminate. }
  split; [exact R|]. split; [exact I|]. destruct (reached_owned c _ R) as [O C]. split; [exact O|]. split; [exact C|].
  destruct (step (OpVolumeBids tv) (run pre m0)) as [m1 e1] eqn:E1. cbn [snd] in A1. subst e1.
  cbn [step] in E1. unfold set_volume_bids in E1. apply guard_ok in E1. destruct E1 as [K1 E1].
  apply guard_ok in E1. destruct E1 as [K2 E1].
  set (n := m_nv (run pre m0)) in *.
  assert (B1 : m_bids m1 = Some (bid_variables tv n)).
  { destruct (next_id _) in E1; [|discriminate]. inversion E1. reflexivity. }
  assert (Em : run (pre ++ OpVolumeBids tv :: mid) m0 = run mid m1).
  { rewrite run_app. cbn [run fold_left]. change (run (OpVolumeBids tv :: mid) (run pre m0)) with (run mid (fst (step (OpVolumeBids tv) (run pre m0)))).
    f_equal. cbn [step]. unfold set_volume_bids. rewrite K1. cbn [guard]. rewrite K2. cbn [guard]. fold n.
    destruct (next_id _) in *; [|discriminate]. inversion E1. reflexivity. }
  rewrite Em in A2. set (m2 := run mid m1) in *.
  assert (B2 : m_bids m2 = Some (bid_variables tv n)).
  { destruct (run_same_table "bids" mid m1 L1) as [X _]. destruct (X eq_refl) as [Y _]. unfold m2. now rewrite Y. }
  destruct (step (OpPriceBids tp) m2) as [m3 e3] eqn:E3. cbn [snd] in A2. subst e3.
  assert (Eops : run ops m0 = run post m3).
  { unfold ops. change (pre ++ OpVolumeBids tv :: mid ++ OpPriceBids tp :: post) with (pre ++ (OpVolumeBids tv :: mid) ++ OpPriceBids tp :: post).
    rewrite app_assoc, run_app, Em. fold m2. change (run (OpPriceBids tp :: post) m2) with (run post (fst (step (OpPriceBids tp) m2))).
    now rewrite E3. }
  assert (C2 : m_cfg m2 = c). { rewrite <- Em. now apply run_cfg_new. }
  cbn [step] in E3. unfold set_price_bids in E3. rewrite B2 in E3. apply guard_ok in E3. destruct E3 as [K3 E3].
  apply guard_ok in E3. destruct E3 as [K4 E3].
  exists n, (run pre m0), m2. rewrite Eops.
  destruct (run_same_table "bids" post m3 L2) as [X1 _]. destruct (X1 eq_refl) as [Y1 _].
  destruct (run_same_table "prices" post m3 L3) as [_ [X2 _]]. specialize (X2 eq_refl).
  rewrite Y1, X2. inversion E3; subst m3. fields. rewrite C2. auto.
Qed.

(** ** One variable, one cost, one region *)

Lemma bid_ids_NoDup m : wf m -> NoDup (map bv_id (rows_or_nil (m_bids m))).
Proof.
  intros W. pose proof (wf_vars_NoDup m W) as ND. unfold all_vars in ND. rewrite map_app in ND.
  apply NoDup_app_iff in ND. destruct ND as [ND _]. unfold bid_pvars in ND. now rewrite map_map in ND.
Qed.

Lemma bid_by_id m v : wf m -> In v (rows_or_nil (m_bids m)) ->
  filter (fun w => Nat.eqb (bv_id w) (bv_id v)) (rows_or_nil (m_bids m)) = [v].
Proof.
  intros W H. pose proof (bid_ids_NoDup m W) as ND. apply filter_one; auto.
  - now apply NoDup_map_inv in ND.
  - apply Nat.eqb_refl.
  - intros b Hb E. apply Nat.eqb_eq in E. now apply (NoDup_map_inj bv_id (rows_or_nil (m_bids m))).
Qed.

Lemma NoDup_flat_map {A B} (f : A -> list B) l : NoDup l -> (forall a, In a l -> NoDup (f a)) ->
  (forall a a' b, In a l -> In a' l -> In b (f a) -> In b (f a') -> a = a') -> NoDup (flat_map f l).
Proof.
  induction l as [|a t IH]; intros ND H D; cbn; [constructor|]. inversion ND as [|? ? N1 N2]; subst.
  apply NoDup_app_iff. split; [apply H; now left|]. split.
  - apply IH; auto; [intros; apply H; now right|]. intros a1 a2 b H1 H2. apply D; now right.
  - intros b Hb Hb'. apply in_flat_map in Hb'. destruct Hb' as [a' [Ha' Hb']]. apply N1.
    assert (a = a') by (apply (D a a' b); auto; [now left|now right]). now subst.
Qed.

Lemma stack_NoDup pos m t : check_bids pos m t = None -> NoDup (stack_bids t).
Proof.
  intros Ck. unfold stack_bids. apply NoDup_flat_map.
  - now apply (check_bids_bands pos m).
  - intros b _. apply FinFun.Injective_map_NoDup; [intros r r' E; now inversion E|].
    apply (FOP_NoDup same_bid); [apply same_bid_refl|]. now apply check_bids_rows in Ck.
  - intros b b' p _ _ H1 H2. apply in_map_iff in H1. apply in_map_iff in H2.
    destruct H1 as [r [<- _]], H2 as [r' [E _]]. now inversion E.
Qed.

Lemma stack_one pos m t r b : check_bids pos m t = None -> In r (bt_rows t) -> In b (bt_bands t) ->
  filter (fun p : bid_row * string * Q => let '(r', band, _) := p in
      String.eqb (br_unit r) (br_unit r') && String.eqb (br_service r) (br_service r')
      && String.eqb (br_dt r) (br_dt r') && String.eqb b band) (stack_bids t) = [(r, b, br_val r b)].
Proof.
  intros Ck Hr Hb. unfold stack_bids. rewrite filter_flat_map.
  rewrite (flat_map_one _ _ b); [|now apply (check_bids_bands pos m)|exact Hb|].
  - rewrite filter_map. rewrite (filter_one _ _ r); [reflexivity|..]; auto.
    + apply (FOP_NoDup same_bid); [apply same_bid_refl|]. now apply check_bids_rows in Ck.
    + now rewrite !String.eqb_refl.
    + intros r' Hr' E. rewrite !andb_true_iff, !String.eqb_eq in E. apply (same_row pos m t r r' Ck); intuition.
  - intros b' Hb' N. rewrite filter_map. rewrite filter_none; [reflexivity|]. intros r' _.
    rewrite (proj2 (String.eqb_neq b b')) by congruence. apply andb_false_r.
Qed.

Lemma stack_none t u s d b : (forall r, In r (bt_rows t) -> br_unit r = u -> br_service r = s -> br_dt r = d -> ~ In b (bt_bands t)) ->
  filter (fun p : bid_row * string * Q => let '(r', band, _) := p in
      String.eqb u (br_unit r') && String.eqb s (br_service r')
      && String.eqb d (br_dt r') && String.eqb b band) (stack_bids t) = [].
Proof.
  intros H. apply filter_none. intros [[r b'] q] Hi. unfold stack_bids in Hi. apply in_flat_map in Hi.
  destruct Hi as [b'' [Hb Hi]]. apply in_map_iff in Hi. destruct Hi as [r' [E Hr]]. inversion E; subst.
  destruct (String.eqb u (br_unit r) && String.eqb s (br_service r) && String.eqb d (br_dt r) && String.eqb b b') eqn:X; [|reflexivity].
  exfalso. rewrite !andb_true_iff, !String.eqb_eq in X. destruct X as [[[-> ->] ->] ->]. now apply (H r).
Qed.

Definition signed (s d : string) (q : Q) : Q := if String.eqb d "load" && String.eqb s "energy" then -(1) * q else q.

Lemma objective_of vs t i : filter (fun o => Nat.eqb (ob_var o) i) (objective_bids vs t)
  = objective_bids (filter (fun v => Nat.eqb (bv_id v) i) vs) t.
Proof.
  unfold objective_bids. rewrite filter_map.
  rewrite (filter_ext_in _ (fun q => Nat.eqb (bv_id (fst q)) i)) by (intros [v [? ?]] _; reflexivity).
  now rewrite (filter_merge_fst (fun v => Nat.eqb (bv_id v) i)).
Qed.

Lemma scaled_of obj ui i : filter (fun o => Nat.eqb (ob_var o) i) (scale_by_loss_factors obj ui)
  = scale_by_loss_factors (filter (fun o => Nat.eqb (ob_var o) i) obj) ui.
Proof.
  unfold scale_by_loss_factors. rewrite filter_map.
  rewrite (filter_ext_in _ (fun q => Nat.eqb (ob_var (fst q)) i)) by (intros [v ?] _; reflexivity).
  now rewrite (filter_merge_fst (fun o => Nat.eqb (ob_var o) i)).
Qed.

Lemma cost_rows c tv tp m v r ui : priced c tv tp m -> In v (rows_or_nil (m_bids m)) ->
  In r (bt_rows tp) -> br_unit r = bv_unit v -> br_service r = bv_service v -> br_dt r = bv_dt v -> In (bv_band v) (bt_bands tp) ->
  In ui (c_ui c) -> ui_unit ui = bv_unit v -> ui_dt ui = bv_dt v ->
  filter (fun o => Nat.eqb (ob_var o) (bv_id v)) (rows_or_nil (m_obj_bids m))
  = [Obj (bv_id v) (bv_unit v) (bv_service v) (bv_dt v) (bv_band v)
       (if String.eqb (bv_service v) "energy" then signed (bv_service v) (bv_dt v) (br_val r (bv_band v)) / ui_lf ui
        else signed (bv_service v) (bv_dt v) (br_val r (bv_band v)))].
Proof.
  intros P Hv Hr E1 E2 E3 Hb Hu U1 U2. destruct (priced_inv c tv tp m P) as [R [I [[W O] [C [n [m1 [m2 [Bs [K1 [K2 Ob]]]]]]]]]].
  pose proof (bid_by_id m v W Hv) as F. rewrite Bs in F. cbn [rows_or_nil] in F.
  rewrite Ob. cbn [rows_or_nil]. rewrite scaled_of, objective_of, F. unfold objective_bids. rewrite merge_one.
  rewrite <- E1, <- E2, <- E3. rewrite (stack_one false m2 tp r (bv_band v)) by auto. cbn [map].
  unfold scale_by_loss_factors. rewrite merge_one. cbn [ob_unit ob_dt].
  destruct (ui_unique c (bv_unit v) (bv_dt v)) as [u' [Hu' [V1 [V2 V3]]]].
  - rewrite <- C. apply (wf_cfg m W).
  - exists ui. auto.
  - rewrite V3. cbn [map ob_var ob_unit ob_service ob_dt ob_band ob_cost].
    assert (u' = ui).
    { assert (In ui [u']) as [X|[]] by (rewrite <- V3; apply filter_In; split; [auto|now rewrite U1, U2, !String.eqb_refl]). auto. }
    subst u'. unfold signed. rewrite E2, E3, E1. reflexivity.
Qed.

Lemma obj_no_def m i : tidy m -> paired m -> wf m -> In i (map bv_id (rows_or_nil (m_bids m))) ->
  filter (fun k => Nat.eqb (co_var k) i) (dconcat (m_obj_def m)) = [].
Proof.
  intros T P W H. apply filter_none. intros k Hk. apply Nat.eqb_neq. intros <-.
  apply (cost_is_def m k P) in Hk. pose proof (wf_vars_NoDup m W) as ND. unfold all_vars in ND. rewrite map_app in ND.
  apply (NoDup_app_disjoint _ _ (co_var k) ND).
  - unfold bid_pvars. now rewrite map_map.
  - rewrite !map_app, !in_app_iff. do 3 right. unfold deficit_pvars. now rewrite map_map.
Qed.

Lemma mw_cost_is lf s d q : (if String.eqb s "energy" then signed s d q / lf else signed s d q) == mw_cost lf s d q.
Proof.
  unfold signed, mw_cost. destruct (String.eqb s "energy"); [|now rewrite andb_false_r].
  rewrite andb_true_r. destruct (String.eqb d "load"); [|reflexivity]. unfold Qdiv. ring.
Qed.

Lemma cost_of_var c tv tp m p v r ui : priced c tv tp m -> assemble m = Ok p -> In v (rows_or_nil (m_bids m)) ->
  In r (bt_rows tp) -> br_unit r = bv_unit v -> br_service r = bv_service v -> br_dt r = bv_dt v -> In (bv_band v) (bt_bands tp) ->
  In ui (c_ui c) -> ui_unit ui = bv_unit v -> ui_dt ui = bv_dt v ->
  exists q, only_cost p (bv_id v) q /\ q == mw_cost (ui_lf ui) (bv_service v) (bv_dt v) (br_val r (bv_band v)).
Proof.
  intros P A Hv Hr E1 E2 E3 Hb Hu U1 U2. destruct (priced_inv c tv tp m P) as [R [I [[W O] [C _]]]].
  apply assemble_parts in A. destruct A as [_ [Ao _]]. eexists. split; [|apply mw_cost_is].
  unfold only_cost. rewrite Ao. unfold all_costs. rewrite filter_app, !filter_map. cbn [fst].
  rewrite (cost_rows c tv tp m v r ui) by auto.
  rewrite (obj_no_def m); auto.
  - now apply (reached_tidy c).
  - now apply (reached_paired c).
  - now apply in_map.
Qed.

Lemma band_var c tv tp m r b : priced c tv tp m -> In r (bt_rows tv) -> In b (bt_bands tv) -> 1#10000 <= br_val r b ->
  exists v, band_vars m (br_unit r) (br_service r) (br_dt r) b = [v] /\ In v (rows_or_nil (m_bids m))
    /\ bv_unit v = br_unit r /\ bv_service v = br_service r /\ bv_dt v = br_dt r /\ bv_band v = b /\ bv_lb v = 0 /\ bv_ub v = br_val r b.
Proof.
  intros P Hr Hb L. destruct (priced_inv c tv tp m P) as [R [I [[W O] [C [n [m1 [m2 [Bs [K1 [K2 Ob]]]]]]]]]].
  destruct (bid_variable_exists tv n r b Hr Hb L) as [i Hi]. exists (BidVar (br_unit r) b (br_service r) (br_dt r) i 0 (br_val r b)).
  rewrite Bs. cbn [rows_or_nil bv_unit bv_service bv_dt bv_band bv_ub bv_lb]. repeat split; auto.
  unfold band_vars. rewrite Bs. cbn [rows_or_nil]. apply filter_one; auto.
  - pose proof (bid_ids_NoDup m W) as ND. rewrite Bs in ND. now apply NoDup_map_inv in ND.
  - cbn. now rewrite !String.eqb_refl.
  - intros v Hv E. rewrite !andb_true_iff, !String.eqb_eq in E. destruct E as [[[E1 E2] E3] E4].
    destruct (Nat.eq_dec (bv_id v) i) as [Ei|Ni].
    + pose proof (bid_ids_NoDup m W) as ND. rewrite Bs in ND. cbn [rows_or_nil] in ND.
      now apply (NoDup_map_inj bv_id (bid_variables tv n)).
    + exfalso. clear -Hi Hv E1 E2 E3 E4 Ni K1 Hr Hb.
      assert (ND : NoDup (map snd (save_index n (sort_rows bid_le (filter (fun p => Qle_bool min_bid_volume (snd p)) (stack_bids tv)))))).
      { rewrite save_index_snd. apply (Permutation_NoDup (sort_rows_perm bid_le _)). apply NoDup_filter.
        apply stack_NoDup with (pos := true) (m := m1). exact K1. }
      unfold bid_variables in Hi, Hv. apply in_map_iff in Hi. apply in_map_iff in Hv.
      destruct Hi as [[i1 [[r1 b1] q1]] [F1 G1]]. destruct Hv as [[i2 [[r2 b2] q2]] [F2 G2]]. inversion F1; subst i1 b1. subst v.
      cbn in E1, E2, E3, E4, Ni. subst b2. apply Ni.
      assert (X : (i2, (r2, b, q2)) = (i, (r1, b, q1))); [|now inversion X].
      apply (NoDup_map_inj snd _ _ _ ND); auto. cbn.
      apply in_save_index in G1. apply in_save_index in G2. destruct G1 as [_ G1], G2 as [_ G2]. cbn [snd] in G1, G2.
      apply sort_rows_in, filter_In in G1. apply sort_rows_in, filter_In in G2. destruct G1 as [G1 _], G2 as [G2 _].
      unfold stack_bids in G1, G2. apply in_flat_map in G1. apply in_flat_map in G2.
      destruct G1 as [? [? G1]], G2 as [? [? G2]]. apply in_map_iff in G1. apply in_map_iff in G2.
      destruct G1 as [? [Q1 G1]], G2 as [? [Q2 G2]]. inversion Q1; subst. inversion Q2; subst.
      assert (r2 = r1) by (apply (same_row true m1 tv r1 r2 K1); congruence). now subst.
Qed.
