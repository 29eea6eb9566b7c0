(** The dispatch reports. *)

From Coq Require Import QArith Qabs Lqa String List Bool Arith Lia ZArith.
Import ListNotations.
From Verif Require Import PandasModel TablesModel VariableIdsModel MarketConstraintsModel
  UnitConstraintsModel RampModel FcasModel InterModel ElasticModel MarketModel SolverModel ReportsModel
  SpecLp PandasFacts SpecHistory SpecIds SpecDispatch SpecNetwork StepFacts InvariantFacts OwnerFacts SolverFacts
  MeaningFacts LimitFacts TableFacts BidFacts JointRampFacts BalanceFacts.
Open Scope string_scope.
Open Scope list_scope.

(** ** Grouping *)

Section Group.
  Context {A K : Type}.
  Variable keq : K -> K -> bool.
  Variable key : A -> K.
  Variable val : A -> Q.
  Hypothesis keq_ok : forall a b, keq a b = true <-> a = b.

  Lemma keys_of_in l k : In k (keys_of keq l) <-> In k l.
  Proof.
    rewrite keys_of_drop. split; [apply drop_duplicates_incl|]. intros H.
    destruct (drop_duplicates_repr keq l k) as [b [Hb E]]; auto.
    - intros a b E c E2. apply keq_ok in E, E2. subst. now apply keq_ok.
    - intros a. now apply keq_ok.
    - intros a b E. apply keq_ok in E. subst. now apply keq_ok.
    - apply keq_ok in E. now subst.
  Qed.

  Lemma group_in l k q : In (k, q) (groupby_sum keq key val l) <->
    In k (map key l) /\ q = sumQ val (filter (fun a => keq (key a) k) l).
  Proof.
    unfold groupby_sum. rewrite in_map_iff. split.
    - intros [k2 [E H]]. inversion E; subst. apply -> keys_of_in in H. split; [exact H|reflexivity].
    - intros [H ->]. exists k. split; [reflexivity|]. now apply keys_of_in.
  Qed.

  Lemma group_row l k q : In (k, q) (groupby_sum keq key val l) ->
    In k (map key l) /\ q = sumQ val (filter (fun a => keq (key a) k) l).
  Proof. apply group_in. Qed.
  Lemma group_made l k : In k (map key l) ->
    In (k, sumQ val (filter (fun a => keq (key a) k) l)) (groupby_sum keq key val l).
  Proof. intros H. apply group_in. auto. Qed.

  Lemma group_NoDup l : NoDup (map fst (groupby_sum keq key val l)).
  Proof.
    unfold groupby_sum. rewrite map_map. cbn [fst]. rewrite map_id, keys_of_drop, <- (map_id (drop_duplicates keq _)).
    apply FOP_NoDup_map. eapply FOP_impl; [|apply drop_duplicates_distinct].
    cbn. intros a b E Q. apply keq_ok in Q. congruence.
  Qed.
End Group.

Lemma str_ok a b : String.eqb a b = true <-> a = b.
Proof. apply String.eqb_eq. Qed.

Lemma ukey_ok a b : ukey_eqb a b = true <-> a = b.
Proof.
  destruct a as [[u d] s], b as [[u' d'] s']. cbn. rewrite !andb_true_iff, !String.eqb_eq. split; [|intros E; inversion E; auto].
  intros [[-> ->] ->]. reflexivity.
Qed.

(** ** Units *)

Lemma unit_dispatch_rows m x rep : unit_dispatch m x = Ok rep -> NoDup (map fst rep)
  /\ (forall u d s q, In ((u, d, s), q) rep -> offers m u s d /\ q == dispatch m x u s d)
  /\ (forall u d s, offers m u s d -> exists q, In ((u, d, s), q) rep).
Proof.
  unfold unit_dispatch, need. destruct (m_bids m) as [vs|] eqn:E; [|discriminate]. intros H; injection H as <-.
  split; [apply group_NoDup, ukey_ok|]. split.
  - intros u d s q H. apply group_row in H; [|exact ukey_ok]. destruct H as [H ->].
    apply in_map_iff in H. destruct H as [v [Ev Hv]]. unfold bid_key in Ev. injection Ev as <- <- <-. split.
    + exists v. rewrite E. auto.
    + rewrite dispatch_sum, E. cbn [rows_or_nil]. rewrite !sumQ_filter. apply sumQ_ext. intros w. unfold bid_key. cbn [ukey_eqb].
      rewrite (String.eqb_sym (bv_unit w)), (String.eqb_sym (bv_dt w)), (String.eqb_sym (bv_service w)).
      destruct (String.eqb (bv_unit v) (bv_unit w)), (String.eqb (bv_dt v) (bv_dt w)), (String.eqb (bv_service v) (bv_service w)); reflexivity.
  - intros u d s [v [Hv [<- [<- <-]]]]. rewrite E in Hv. eexists. apply group_made; [exact ukey_ok|].
    apply in_map_iff. exists v. auto.
Qed.

(** Totals over any group of rows. *)
Lemma unit_dispatch_total m x rep (w : string -> string -> string -> Q) : unit_dispatch m x = Ok rep ->
  sumQ (fun p => w (fst (fst (fst p))) (snd (fst (fst p))) (snd (fst p)) * snd p) rep
  == sumQ (fun v => w (bv_unit v) (bv_dt v) (bv_service v) * x (bv_id v)) (rows_or_nil (m_bids m)).
Proof.
  unfold unit_dispatch, need. destruct (m_bids m) as [vs|] eqn:E; [|discriminate]. intros H; injection H as <-.
  exact (groupby_sum_total ukey_eqb bid_key (fun v => x (bv_id v)) (fun k => w (fst (fst k)) (snd (fst k)) (snd k)) vs ukey_ok).
Qed.

Lemma unit_dispatch_group m x rep (g : string -> string -> string -> bool) : unit_dispatch m x = Ok rep ->
  qsum (map snd (filter (fun p => g (fst (fst (fst p))) (snd (fst (fst p))) (snd (fst p))) rep))
  == qsum (map (fun v => x (bv_id v)) (filter (fun v => g (bv_unit v) (bv_dt v) (bv_service v)) (rows_or_nil (m_bids m)))).
Proof.
  intros H. pose proof (unit_dispatch_total m x rep (fun u d s => if g u d s then 1 else 0) H) as T.
  change (sumQ snd (filter (fun p => g (fst (fst (fst p))) (snd (fst (fst p))) (snd (fst p))) rep)
    == sumQ (fun v => x (bv_id v)) (filter (fun v => g (bv_unit v) (bv_dt v) (bv_service v)) (rows_or_nil (m_bids m)))).
  rewrite !sumQ_filter. eapply Qeq_trans; [|eapply Qeq_trans; [exact T|]]; apply sumQ_ext; intros a; destruct (g _ _ _); ring.
Qed.

Lemma apply_rows_ok {A B} (f : A -> B) l l' : apply_rows f l = Ok l' -> l' = map f l.
Proof. unfold apply_rows. destruct l; [discriminate|]. intros H. now injection H as <-. Qed.

Lemma dispatch_weighted m x u s d vs : m_bids m = Some vs ->
  dispatch m x u s d == sumQ (fun v => (if String.eqb u (bv_unit v) && String.eqb s (bv_service v) && String.eqb d (bv_dt v) then 1 else 0) * x (bv_id v)) vs.
Proof.
  intros E. rewrite dispatch_sum, E. cbn [rows_or_nil]. rewrite sumQ_filter. apply sumQ_ext. intros v. destruct (_ && _ && _); ring.
Qed.

Lemma net_dispatch_rows m x rep : net_dispatch m x = Ok rep -> NoDup (map fst rep)
  /\ (forall r q, In (r, q) rep -> region_offers m r "energy" /\ q == region_supply m x r "energy")
  /\ (forall r, region_offers m r "energy" -> exists q, In (r, q) rep).
Proof.
  unfold net_dispatch, bind. destruct (unit_dispatch m x) as [ud|e] eqn:E; [|discriminate].
  destruct (apply_rows _ _) as [l|e] eqn:A; [|discriminate]. apply apply_rows_ok in A. intros H; injection H as <-.
  destruct (unit_dispatch_rows m x ud E) as [_ [U1 U2]]. split; [apply group_NoDup, str_ok|]. split.
  - intros r q H. apply group_row in H; [|exact str_ok]. destruct H as [H ->]. split.
    + subst l. rewrite map_map in H. apply in_map_iff in H. destruct H as [[[[[u d] s] q] ui] [Er Hp]]. cbn [fst snd] in Er. subst r.
      apply in_merge in Hp. destruct Hp as [Hp [Hu M]]. cbn [fst snd] in M. apply andb_true_iff in M. rewrite !String.eqb_eq in M.
      destruct M as [-> ->]. apply filter_In in Hp. destruct Hp as [Hp Es]. cbn [fst snd] in Es. apply String.eqb_eq in Es. subst s.
      destruct (U1 _ _ _ _ Hp) as [O _]. exists ui. auto.
    + assert (EB : exists vs, m_bids m = Some vs).
      { unfold unit_dispatch, need in E. destruct (m_bids m); [eauto|discriminate]. }
      destruct EB as [vs EB]. rewrite region_supply_sum. subst l. rewrite sumQ_filter, sumQ_map. cbn [fst snd].
      rewrite sumQ_merge.
      transitivity (sumQ (fun p : ukey * Q => sumQ (fun u => (if String.eqb r (ui_region u) then
          (if String.eqb (ui_unit u) (fst (fst (fst p))) && String.eqb "energy" (snd (fst p)) && String.eqb (ui_dt u) (snd (fst (fst p)))
           then rsign u "energy" else 0) else 0) * snd p) (c_ui (m_cfg m))) ud).
      * rewrite sumQ_filter. apply sumQ_ext. intros [[[u d] s] q]. cbn [fst snd]. rewrite (String.eqb_sym "energy" s).
        destruct (String.eqb s "energy").
        -- rewrite sumQ_filter. apply sumQ_ext. intros ui. cbn [fst snd]. rewrite (String.eqb_sym (ui_unit ui)), (String.eqb_sym (ui_dt ui)), (String.eqb_sym r).
           destruct (String.eqb u (ui_unit ui)); cbn [andb]; [|destruct (String.eqb (ui_region ui) r); ring].
           destruct (String.eqb d (ui_dt ui)) eqn:Ed; cbn [andb]; [|destruct (String.eqb (ui_region ui) r); ring].
           apply String.eqb_eq in Ed. subst d. destruct (String.eqb (ui_region ui) r); [|ring]. unfold rsign.
           rewrite String.eqb_refl, andb_true_r. destruct (String.eqb (ui_dt ui) "load"); ring.
        -- symmetry. apply sumQ_zero. intros ui _. rewrite andb_false_r. cbn [andb]. destruct (String.eqb r (ui_region ui)); ring.
      * rewrite sumQ_swap, sumQ_filter. apply sumQ_ext. intros ui. destruct (String.eqb r (ui_region ui)); [|apply sumQ_zero; intros; ring].
        rewrite (dispatch_weighted m x _ _ _ vs EB), <- sumQ_scale.
        pose proof (unit_dispatch_total m x ud (fun u d s => if String.eqb (ui_unit ui) u && String.eqb "energy" s && String.eqb (ui_dt ui) d
           then rsign ui "energy" else 0) E) as T. cbv beta in T. eapply Qeq_trans; [exact T|]. rewrite EB. cbn [rows_or_nil].
        apply sumQ_ext. intros v. destruct (_ && _ && _); ring.
  - intros r [ui [Hu [Er O]]]. destruct (U2 _ _ _ O) as [q Hq].
    eexists. apply group_made; [exact str_ok|]. subst l. rewrite map_map. apply in_map_iff.
    exists (((ui_unit ui, ui_dt ui, "energy"), q), ui). cbn [fst snd]. split; [exact Er|].
    apply in_merge. split; [|split; [exact Hu|]]; cbn [fst snd].
    + apply filter_In. auto.
    + now rewrite !String.eqb_refl.
Qed.
