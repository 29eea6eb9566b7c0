(** Invariants about prices and left-hand sides: the costs of violations belong to
    violation variables, and only tie-break rows mention bid variables. *)

From Coq Require Import QArith Qminmax Lqa String List Bool Arith Lia ZArith Permutation.
Import ListNotations.
From Verif Require Import PandasModel TablesModel VariableIdsModel MarketConstraintsModel
  UnitConstraintsModel RampModel FcasModel InterModel ElasticModel MarketModel SolverModel
  SpecLp PandasFacts SpecHistory SpecIds SpecDispatch SpecPrices StepFacts InvariantFacts OwnerFacts SolverFacts
  MeaningFacts LimitFacts TableFacts BidFacts BalanceFacts DeficitFacts.
Open Scope string_scope.
Open Scope list_scope.

Definition dids {A} (f : A -> nat) (d : dict (list A)) : dict (list nat) := map (fun p => (fst p, map f (snd p))) d.
Definition paired (m : market) : Prop := dids df_id (m_deficits m) = dids co_var (m_obj_def m).

Lemma dids_dset {A} (f : A -> nat) k v d : dids f (dset k v d) = dset k (map f v) (dids f d).
Proof.
  induction d as [|[k' v'] t IH]; cbn; [reflexivity|]. destruct (String.eqb k k'); cbn; [reflexivity|]. f_equal. exact IH.
Qed.
Lemma dids_ddel {A} (f : A -> nat) k d : dids f (ddel k d) = ddel k (dids f d).
Proof.
  induction d as [|[k' v'] t IH]; cbn; [reflexivity|]. destruct (String.eqb k k'); cbn; [reflexivity|]. f_equal. exact IH.
Qed.
Lemma dids_concat {A} (f : A -> nat) d : dconcat (dids f d) = map f (dconcat d).
Proof.
  unfold dconcat, dids. induction d as [|[k v] t IH]; cbn; [reflexivity|]. now rewrite map_app, IH.
Qed.

Lemma deficit_costs_ids rows n : map co_var (deficit_costs rows n) = map df_id (deficit_variables rows n).
Proof.
  unfold deficit_costs, deficit_variables. rewrite !map_map. apply map_ext. now intros [[i [r c]] k].
Qed.

Lemma add_deficits_paired k rows m : paired m -> paired (fst (add_deficits k rows m)).
Proof.
  intros H. unfold add_deficits. destruct rows as [|r t]; [exact H|]. set (rows := r :: t). clearbody rows.
  destruct (next_id _); unfold paired; fields; rewrite !dids_dset, deficit_costs_ids; now f_equal.
Qed.
Lemma make_elastic_paired k v m : paired m -> paired (fst (make_elastic k v m)).
Proof.
  intros H. unfold make_elastic. destruct (group_rows k m) as [g|]; [|exact H]. destruct v.
  - now apply add_deficits_paired.
  - apply guard_fst; auto. intros _. destruct (has_set_column k); [|exact H]. now apply add_deficits_paired.
  - destruct g; exact H.
Qed.

Lemma set_losses_paired lf bps m : paired m -> paired (fst (set_losses lf bps m)).
Proof.
  intros H. destruct (set_losses_cases lf bps m) as [[e E]|[[e E]|[p [_ E]]]]; rewrite E; auto.
Qed.

Lemma step_paired o m : paired m -> paired (fst (step o m)).
Proof.
  intros H. apply (step_preserves paired (fun _ => True)) with (ok := fun _ _ => True); auto.
  - intros t m1 P. unfold set_volume_bids. do 2 (apply guard_fst; [exact P|intros _]).
    destruct (next_id _); exact P.
  - intros t m1 P. unfold set_price_bids. destruct (m_bids m1); [|exact P]. do 2 (apply guard_fst; [exact P|intros _]). exact P.
  - intros k mr mm m1 _ _ _ P. unfold new_unit_group, put_unit. destruct (m_nc m1); [destruct (next_id _)|destruct (mr 0%nat)]; exact P.
  - intros k mr mm m1 _ _ _ P. unfold new_regional_group, put_regional. destruct (m_nc m1); [destruct (next_id _)|destruct (mr 0%nat)]; exact P.
  - intros k v m1 _ P. now apply make_elastic_paired.
  - intros m1 _ P. unfold remove_fast_start. destruct (dhas "fast_start" (m_rhs m1)); fields;
      destruct (dhas "fast_start_deficit" _); unfold paired; fields; auto; rewrite !dids_ddel; now f_equal.
  - intros l m1 P. unfold set_interconnectors. apply guard_fst; auto. intros _. destruct (next_id _); exact P.
  - intros pairs m1 _ _ P. unfold put_tie. destruct (m_nc m1); exact P.
  - intros lf bps m1 _ _ P. now apply set_losses_paired.
  - intros l v m1 _ _ P. unfold put_generic. destruct (m_nc m1); exact P.
Qed.

Lemma reached_paired c m : reached c m -> paired m.
Proof.
  intros [m0 [ops [H [_ ->]]]]. apply run_preserves; [intros; now apply step_paired|].
  unfold new_market in H. destruct (check_unit_info c); [discriminate|]. now inversion H.
Qed.

(** Costs of violations are for violation variables. *)
Lemma cost_is_def m k : paired m -> In k (dconcat (m_obj_def m)) -> In (co_var k) (map df_id (dconcat (m_deficits m))).
Proof.
  intros P H. unfold paired in P. rewrite <- dids_concat, P, dids_concat. now apply in_map.
Qed.

(** Only tie-break rows mention bid variables. *)
Definition lhs_plain (m : market) : Prop :=
  forall key l r v, In (key, l) (m_lhs m) -> key <> "tie_break" -> In r l -> In v (rows_or_nil (m_bids m)) -> l_var r <> bv_id v.

Lemma bid_lt m v : wf m -> In v (rows_or_nil (m_bids m)) -> (bv_id v < m_nv m)%nat.
Proof.
  intros W H. destruct (m_bids m) as [l|] eqn:E; [|destruct H]. now apply (bid_ids_lt m l).
Qed.

(** Nothing relevant changed, or only rows with fresh variables were added. *)
Lemma plain_grow m m' : lhs_plain m -> wf m -> m_bids m' = m_bids m ->
  (forall key l r, In (key, l) (m_lhs m') -> In r l -> key = "tie_break" \/ In (key, l) (m_lhs m) \/ (m_nv m <= l_var r)%nat) -> lhs_plain m'.
Proof.
  intros P W E H key l r v H1 Nk H2 Hv. rewrite E in Hv. destruct (H key l r H1 H2) as [X|[X|X]]; [congruence|now apply (P key l r v)|].
  pose proof (bid_lt m v W Hv). lia.
Qed.

Lemma add_deficits_plain k rows m : wf m -> lhs_plain m -> lhs_plain (fst (add_deficits k rows m)).
Proof.
  intros W P. unfold add_deficits. destruct rows as [|r t]; [exact P|]. set (rows := r :: t). clearbody rows.
  destruct (next_id _); apply (plain_grow m); fields; auto; intros key l r0 H1 H2; apply in_dset in H1;
    (destruct H1 as [[-> ->]|H1]; [right; right|auto]); apply (in_map l_var) in H2;
    rewrite deficit_lhs_vars, deficit_ids in H2; apply in_seq in H2; lia.
Qed.
Lemma make_elastic_plain k v m : wf m -> lhs_plain m -> lhs_plain (fst (make_elastic k v m)).
Proof.
  intros W H. unfold make_elastic. destruct (group_rows k m) as [g|]; [|exact H]. destruct v.
  - now apply add_deficits_plain.
  - apply guard_fst; auto. intros _. destruct (has_set_column k); [|exact H]. now apply add_deficits_plain.
  - destruct g; exact H.
Qed.

Lemma set_losses_plain lf bps m : wf m -> lhs_plain m -> lhs_plain (fst (set_losses lf bps m)).
Proof.
  intros W P. destruct (set_losses_cases lf bps m) as [[e ->]|[[e ->]|[p [L ->]]]]; fields; auto.
  apply (plain_grow m); auto. intros key l r H1 H2. cbn [put_losses m_lhs] in H1.
  apply in_dset in H1. destruct H1 as [[-> ->]|H1]; [|auto]. right; right.
  destruct (m_nc m); [|destruct H2]. apply lp_lhs_vars in H2.
  destruct L as [C [ED [EI [ER [Els [Elv [Env [Ews _]]]]]]]].
  rewrite Ews, weight_variables_ids in H2. apply in_seq in H2.
  destruct (next_id_in _ _ Env) as [j [Hj Ej]].
  rewrite Elv in Hj. apply in_map_iff in Hj. destruct Hj as [v [<- Hv]]. unfold loss_variables in Hv.
  apply in_map_iff in Hv. destruct Hv as [[[i v'] q] [<- Hv]]. apply in_merge_p in Hv. destruct Hv as [Hv _].
  apply in_save_index in Hv. cbn in *. lia.
Qed.

Lemma set_volume_bids_plain t m : wf m -> tidy m -> lhs_plain m -> lhs_plain (fst (set_volume_bids t m)).
Proof.
  intros W T P. unfold set_volume_bids. do 2 (apply guard_fst; [exact P|intros _]).
  assert (X : forall m', m_lhs m' = m_lhs m -> m_bids m' = Some (bid_variables t (m_nv m)) -> lhs_plain m').
  { intros m' E1 E2 key l r v H1 _ H2 Hv. rewrite E1 in H1. rewrite E2 in Hv. cbn [rows_or_nil] in Hv.
    pose proof (td_lhs m T key l r H1 H2). unfold bid_variables in Hv. apply in_map_iff in Hv.
    destruct Hv as [[i [[r' b] q]] [<- Hv]]. apply in_save_index in Hv. cbn in *. lia. }
  destruct (next_id _); apply X; fields; auto.
Qed.

Lemma step_plain o m : wf m -> tidy m -> lhs_plain m -> lhs_plain (fst (step o m)).
Proof.
  intros W0 T0 P0.
  assert (G : (forall k, In k (touches o) -> k <> "bids") -> wf (fst (step o m)) /\ lhs_plain (fst (step o m))).
  { intros HK. apply (step_preserves_all (fun m => wf m /\ lhs_plain m) (fun k => k <> "bids")) with (ok := fun _ _ => True); auto.
    - intros t m1 N. congruence.
    - intros t m1 _ [W P]. split; [now apply set_price_bids_wf|]. unfold set_price_bids. destruct (m_bids m1) eqn:Eb; [|exact P].
      do 2 (apply guard_fst; [exact P|intros _]). exact P.
    - intros k mr mm m1 _ _ Hg [W P]. split; [now apply new_unit_group_wf|].
      unfold new_unit_group, put_unit. destruct (m_nc m1); [destruct (next_id _)|destruct (mr 0%nat)]; exact P.
    - intros k mr mm m1 _ _ Hg [W P]. split; [now apply new_regional_group_wf|].
      unfold new_regional_group, put_regional. destruct (m_nc m1); [destruct (next_id _)|destruct (mr 0%nat)]; exact P.
    - intros k v m1 _ [W P]. split; [now apply make_elastic_wf|now apply make_elastic_plain].
    - intros m1 _ [W P]. split; [now apply remove_fast_start_wf|]. unfold remove_fast_start.
      destruct (dhas "fast_start" (m_rhs m1)); fields; (destruct (dhas "fast_start_deficit" _); fields; [|exact P]);
        intros key l r v H1; apply in_ddel in H1; now apply (P key l r v).
    - intros l m1 _ [W P]. split; [now apply set_interconnectors_wf|]. unfold set_interconnectors.
      apply guard_fst; auto. intros _. destruct (next_id _); exact P.
    - intros l m1 _ [W P]. split; [|exact P]. destruct W; constructor; fields; auto.
    - intros l m1 _ [W P]. split; [|exact P]. destruct W; constructor; fields; auto.
    - intros l m1 _ [W P]. split; [|exact P]. destruct W; constructor; fields; auto.
    - intros pairs m1 _ _ [W P]. split; [now apply put_tie_wf|]. unfold put_tie.
      destruct (m_nc m1); apply (plain_grow m1); fields; auto; intros key l r H1 H2; apply in_dset in H1; intuition.
    - intros lf bps m1 _ _ _ [W P]. split; [now apply set_losses_wf|now apply set_losses_plain].
    - intros l v m1 _ _ [W P]. split; [now apply put_generic_wf|]. unfold put_generic. destruct (m_nc m1); exact P. }
  destruct o; try (apply G; intros k Hk E; subst k; cbn in Hk; intuition discriminate).
  - cbn. now apply set_volume_bids_plain.
  - cbn. now apply make_elastic_plain.
Qed.

Lemma reached_plain c m : reached c m -> lhs_plain m.
Proof.
  intros [m0 [ops [H [_ ->]]]]. apply (run_preserves (fun m => wf m /\ tidy m /\ lhs_plain m)).
  - intros o m _ [W [T P]]. split; [now apply step_wf|]. split; [now apply step_tidy|now apply step_plain].
  - unfold new_market in H. destruct (check_unit_info c) eqn:E; [discriminate|]. inversion H; subst.
    split; [now apply empty_market_wf|]. split; [apply empty_tidy|]. intros key l r v [].
Qed.

(** Right-hand sides never refer to bid variables. *)
Definition dyn_plain (m : market) : Prop :=
  forall d v, In d (rows_or_nil (m_dyn m)) -> In v (rows_or_nil (m_bids m)) -> dy_var d <> bv_id v.

Lemma inter_bid_distinct m v b : wf m -> In v (rows_or_nil (m_inter m)) -> In b (rows_or_nil (m_bids m)) -> iv_id v <> bv_id b.
Proof.
  intros W Hv Hb E. pose proof (wf_vars_NoDup m W) as ND. unfold all_vars in ND. rewrite map_app in ND.
  apply (NoDup_app_disjoint _ _ (bv_id b)) in ND; auto.
  - unfold bid_pvars. rewrite map_map. apply in_map_iff. now exists b.
  - rewrite map_app. apply in_or_app. left. unfold inter_pvars. rewrite map_map. apply in_map_iff. now exists v.
Qed.

Lemma set_losses_dyn lf bps m : wf m -> dyn_plain m -> dyn_plain (fst (set_losses lf bps m)).
Proof.
  intros W P. destruct (set_losses_cases lf bps m) as [[e ->]|[[e ->]|[p [L ->]]]]; fields; auto.
  intros d v Hd Hv. cbn [put_losses m_dyn m_bids rows_or_nil] in Hd, Hv.
  assert (Hd' : In d (lp_dyn p)) by (destruct (m_nc m); [exact Hd|destruct Hd]). clear Hd.
  destruct L as [C [ED [EI [ER [Els [Elv [Env [Ews _]]]]]]]].
  unfold lp_dyn in Hd'. rewrite in_app_iff in Hd'. destruct Hd' as [Hd|Hd].
  - unfold flow_link_rhs in Hd. apply in_map_iff in Hd. destruct Hd as [[[j w] i] [<- Hd]].
    apply in_merge_p in Hd. destruct Hd as [_ [Hd _]]. cbn [fst snd dy_var] in *.
    apply (inter_bid_distinct m); auto. now rewrite EI.
  - unfold loss_link_rhs in Hd. apply in_map_iff in Hd. destruct Hd as [[[j w] l] [<- Hd]].
    apply in_merge_p in Hd. destruct Hd as [_ [Hd _]]. cbn [fst snd dy_var] in *.
    rewrite Elv in Hd. unfold loss_variables in Hd.
    apply in_map_iff in Hd. destruct Hd as [[[i v'] q] [<- Hd]]. apply in_merge_p in Hd. destruct Hd as [Hd _].
    apply in_save_index in Hd. pose proof (bid_lt m v W Hv). cbn in *. lia.
Qed.

Lemma set_volume_bids_dyn t m : wf m -> tidy m -> dyn_plain m -> dyn_plain (fst (set_volume_bids t m)).
Proof.
  intros W T P. unfold set_volume_bids. do 2 (apply guard_fst; [exact P|intros _]).
  assert (X : forall m', m_dyn m' = m_dyn m -> m_bids m' = Some (bid_variables t (m_nv m)) -> dyn_plain m').
  { intros m' E1 E2 d v H1 Hv. rewrite E1 in H1. rewrite E2 in Hv. cbn [rows_or_nil] in Hv.
    assert (L : (dy_var d < m_nv m)%nat).
    { apply (td_vars m T). unfold table_vars. rewrite !in_app_iff. right; left. now apply in_map. }
    unfold bid_variables in Hv. apply in_map_iff in Hv.
    destruct Hv as [[i [[r' b] q]] [<- Hv]]. apply in_save_index in Hv. cbn in *. lia. }
  destruct (next_id _); apply X; fields; auto.
Qed.

Lemma make_elastic_dyn k v m : dyn_plain m -> dyn_plain (fst (make_elastic k v m)).
Proof.
  intros H. unfold make_elastic. destruct (group_rows k m) as [g|]; [|exact H]. destruct v.
  - unfold add_deficits. destruct (map _ g); [exact H|]. destruct (next_id _); exact H.
  - apply guard_fst; auto. intros _. destruct (has_set_column k); [|exact H].
    unfold add_deficits. destruct (map _ (merge _ _ _)); [exact H|]. destruct (next_id _); exact H.
  - destruct g; exact H.
Qed.

Lemma step_dyn o m : wf m -> tidy m -> dyn_plain m -> dyn_plain (fst (step o m)).
Proof.
  intros W0 T0 P0.
  assert (G : (forall k, In k (touches o) -> k <> "bids") -> wf (fst (step o m)) /\ dyn_plain (fst (step o m))).
  { intros HK. apply (step_preserves_all (fun m => wf m /\ dyn_plain m) (fun k => k <> "bids")) with (ok := fun _ _ => True); auto.
    - intros t m1 N. congruence.
    - intros t m1 _ [W P]. split; [now apply set_price_bids_wf|]. unfold set_price_bids. destruct (m_bids m1) eqn:Eb; [|exact P].
      do 2 (apply guard_fst; [exact P|intros _]). exact P.
    - intros k mr mm m1 _ _ Hg [W P]. split; [now apply new_unit_group_wf|].
      unfold new_unit_group, put_unit. destruct (m_nc m1); [destruct (next_id _)|destruct (mr 0%nat)]; exact P.
    - intros k mr mm m1 _ _ Hg [W P]. split; [now apply new_regional_group_wf|].
      unfold new_regional_group, put_regional. destruct (m_nc m1); [destruct (next_id _)|destruct (mr 0%nat)]; exact P.
    - intros k v m1 _ [W P]. split; [now apply make_elastic_wf|]. now apply make_elastic_dyn.
    - intros m1 _ [W P]. split; [now apply remove_fast_start_wf|]. unfold remove_fast_start.
      destruct (dhas "fast_start" (m_rhs m1)); fields; (destruct (dhas "fast_start_deficit" _); fields; exact P).
    - intros l m1 _ [W P]. split; [now apply set_interconnectors_wf|]. unfold set_interconnectors.
      apply guard_fst; auto. intros _. destruct (next_id _); exact P.
    - intros l m1 _ [W P]. split; [|exact P]. destruct W; constructor; fields; auto.
    - intros l m1 _ [W P]. split; [|exact P]. destruct W; constructor; fields; auto.
    - intros l m1 _ [W P]. split; [|exact P]. destruct W; constructor; fields; auto.
    - intros pairs m1 _ _ [W P]. split; [now apply put_tie_wf|]. unfold put_tie. destruct (m_nc m1); exact P.
    - intros lf bps m1 _ _ _ [W P]. split; [now apply set_losses_wf|now apply set_losses_dyn].
    - intros l v m1 _ _ [W P]. split; [now apply put_generic_wf|]. unfold put_generic. destruct (m_nc m1); exact P. }
  destruct o; try (apply G; intros k Hk E; subst k; cbn in Hk; intuition discriminate).
  - cbn. now apply set_volume_bids_dyn.
  - cbn. now apply make_elastic_dyn.
Qed.

Lemma reached_dyn c m : reached c m -> dyn_plain m.
Proof.
  intros [m0 [ops [H [_ ->]]]]. apply (run_preserves (fun m => wf m /\ tidy m /\ dyn_plain m)).
  - intros o m _ [W [T P]]. split; [now apply step_wf|]. split; [now apply step_tidy|now apply step_dyn].
  - unfold new_market in H. destruct (check_unit_info c) eqn:E; [discriminate|]. inversion H; subst.
    split; [now apply empty_market_wf|]. split; [apply empty_tidy|]. intros d v [].
Qed.
