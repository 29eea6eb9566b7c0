(** The problem that a history builds admits exactly the dispatch that obeys its hard calls. *)

From Coq Require Import QArith Qminmax Lqa String List Bool Arith Lia ZArith.
Import ListNotations.
From Verif Require Import PandasModel TablesModel VariableIdsModel MarketConstraintsModel
  UnitConstraintsModel RampModel FcasModel InterModel ElasticModel MarketModel SolverModel
  SpecLp SpecHistory SpecDispatch SpecRamp SpecFastStart SpecElastic SpecNetwork SpecTrap SpecOrder SpecExact
  SpecSoft SpecMixed PandasFacts StepFacts InvariantFacts OwnerFacts SolverFacts MeaningFacts LimitFacts CompositeFacts RampFacts TableFacts
  BidFacts TrapFacts JointRampFacts BalanceFacts LossFacts GenericFacts ReplaceFacts PlanFacts BookFacts ExactFacts
  DeficitFacts ElasticStateFacts ElasticFacts ElasticTheoremFacts SoftFacts.
Open Scope string_scope.
Open Scope list_scope.

(** ** Calls that stand *)

Lemma accepted_at pre o post m0 : accepted (pre ++ o :: post) m0 -> snd (step o (run pre m0)) = None.
Proof. unfold accepted. intros H. apply along_app in H. apply H. Qed.

Lemma in_settings o ops : In o (settings ops) <-> In o ops /\ forall k v, o <> OpElastic k v.
Proof.
  unfold settings. rewrite filter_In. split; intros [H1 H2]; split; auto.
  - intros k v ->. discriminate H2.
  - destruct o; try reflexivity. exfalso. now apply (H2 k v).
Qed.

Lemma settings_app a b : settings (a ++ b) = settings a ++ settings b.
Proof. apply filter_app. Qed.

(** A call stands if it is the only one to set its groups and they were not made elastic later. *)
Lemma one_stands m0 pre o post : accepted (pre ++ o :: post) m0 -> one_each (settings (pre ++ o :: post)) ->
  (forall k v, In (OpElastic k v) (pre ++ o :: post) -> ~ In k (touches o)) ->
  stands m0 (pre ++ o :: post) o.
Proof.
  intros A N El. exists pre, post. split; [reflexivity|]. split; [now apply accepted_at in A|].
  intros k Hk o' Ho' Hk'.
  assert (No : forall k v, o <> OpElastic k v).
  { intros k1 v ->. apply (El k1 v); [apply in_or_app; right; now left|now left]. }
  assert (No' : forall k v, o' <> OpElastic k v).
  { intros k1 v ->. destruct Hk' as [<-|[]]. apply (El k1 v); [apply in_or_app; right; now right|exact Hk]. }
  unfold one_each in N. rewrite settings_app in N. cbn [settings filter] in N. rewrite flat_map_app in N.
  apply NoDup_app_inv in N. destruct N as [_ [N _]].
  assert (E : settings (o :: post) = o :: settings post).
  { cbn [settings filter]. destruct o; try reflexivity. exfalso. now apply (No k0 v). }
  unfold settings in E. cbn [filter] in E. rewrite E in N. cbn [flat_map] in N.
  apply NoDup_app_inv in N. destruct N as [_ [_ N]]. apply (N k Hk). apply in_flat_map. exists o'. split; [|exact Hk'].
  apply (in_settings o' post). auto.
Qed.

Lemma in_ops_stands m0 ops o : accepted ops m0 -> one_each (settings ops) -> In o ops ->
  (forall k v, In (OpElastic k v) ops -> ~ In k (touches o)) -> stands m0 ops o.
Proof. intros A N H. apply in_split in H. destruct H as [pre [post ->]]. now apply one_stands. Qed.

Lemma flat_settings {A} (f : op -> list A) ops : (forall k v, f (OpElastic k v) = []) -> flat_map f ops = flat_map f (settings ops).
Proof.
  intros F. induction ops as [|o t IH]; [reflexivity|]. cbn [settings filter flat_map]. fold (settings t). rewrite IH.
  destruct o; try reflexivity. now rewrite F.
Qed.

Lemma one_table {A} (f : op -> list A) k ops o : one_each (settings ops) -> In o (settings ops) -> In k (touches o) ->
  (forall o', ~ In k (touches o') -> f o' = []) -> (forall k v, f (OpElastic k v) = []) -> flat_map f ops = f o.
Proof.
  intros N Ho Hk F Fe. rewrite (flat_settings f ops Fe). generalize dependent (settings ops). clear ops. intros ops N Ho.
  apply in_split in Ho. destruct Ho as [pre [post ->]]. unfold one_each in N.
  rewrite flat_map_app in *. cbn [flat_map] in *. apply NoDup_app_inv in N. destruct N as [_ [N N3]].
  apply NoDup_app_inv in N. destruct N as [_ [_ N2]].
  assert (Z : forall l, (forall o', In o' l -> ~ In k (touches o')) -> flat_map f l = []).
  { induction l as [|a t IH]; intros H; [reflexivity|]. cbn. rewrite (F a), IH; auto. intros; apply H; now right. apply H; now left. }
  rewrite (Z pre), (Z post), app_nil_r; [reflexivity|..]; intros o' Ho' Hk'.
  - apply (N2 k Hk). apply in_flat_map. eauto.
  - apply (N3 k); [apply in_flat_map; eauto|]. apply in_or_app. now left.
Qed.

(** Two calls that set the same are the same. *)
Lemma one_setter ops o o' k : one_each ops -> In o ops -> In o' ops -> In k (touches o) -> In k (touches o') -> o = o'.
Proof.
  intros N Ho Ho' Hk Hk'. apply in_split in Ho. destruct Ho as [pre [post ->]]. unfold one_each in N.
  rewrite flat_map_app in N. cbn [flat_map] in N. apply NoDup_app_inv in N. destruct N as [_ [N N3]].
  apply NoDup_app_inv in N. destruct N as [_ [_ N2]]. apply in_app_or in Ho'. destruct Ho' as [H|[H|H]]; [exfalso|exact H|exfalso].
  - apply (N3 k); [apply in_flat_map; eauto|]. apply in_or_app. now left.
  - apply (N2 k Hk). apply in_flat_map. eauto.
Qed.

Lemma hard_or ops o : hard ops o \/ exists k o', In k (touches o) /\ In o' ops /\ In k (touches o') /\ cost_arg o' <> None.
Proof.
  unfold hard. induction ops as [|a t IH]; [left; intros k o' _ []|].
  destruct IH as [H|[k [o' [H1 [H2 H3]]]]]; [|right; exists k, o'; split; [exact H1|split; [now right|exact H3]]].
  destruct (cost_arg a) as [v|] eqn:Ca.
  2:{ left. intros k o' Hk [<-|Ho']; [auto|eauto]. }
  destruct (existsb (fun k => mem_str k (touches a)) (touches o)) eqn:E.
  - right. apply existsb_exists in E. destruct E as [k [Hk Ea]]. apply mem_str_in in Ea. exists k, a.
    split; [exact Hk|]. split; [now left|]. split; [exact Ea|congruence].
  - left. intros k o' Hk [<-|Ho'] Hk'; [exfalso|now apply (H k o')].
    assert (X : existsb (fun k => mem_str k (touches a)) (touches o) = true); [|congruence].
    apply existsb_exists. exists k. split; [exact Hk|now apply mem_str_in].
Qed.

Lemma touches_some o : exists k, In k (touches o).
Proof. destruct o; eexists; now left. Qed.

(** Every constraint of the problem has a left-hand side. *)
Lemma con_lhs m p c : assemble m = Ok p -> In c (p_cons p) -> exists l, In l (all_lhs m) /\ l_con l = pc_id c.
Proof.
  intros H Hc. apply assemble_parts in H. destruct H as [_ [_ [_ [_ [A _]]]]].
  unfold add_constraints in A. destruct (no_rhs_tables m) eqn:E0.
  - inversion A as [A']. rewrite <- A' in Hc. destruct Hc.
  - assert (B : build_cons (all_vars m) (all_rhs m) (all_lhs m) (con_ids (all_lhs m)) = Ok (p_cons p)).
    { destruct (all_lhs m); [discriminate|exact A]. }
    apply (build_cons_in _ _ _ _ _ B) in Hc. destruct Hc as [i [Hi Hc]]. unfold build_con in Hc.
    destruct (forallb _ _); [|discriminate]. destruct (find_rhs (all_rhs m) i) as [r'|] eqn:Ef; [|discriminate].
    destruct (mem_str _ _) eqn:Em; [|discriminate]. inversion Hc; subst c. apply find_rhs_in in Ef. destruct Ef as [_ <-] || destruct Ef as [_ Ef].
    cbn [pc_id]. apply con_ids_in in Hi. try rewrite Ef in Hi. exact Hi.
Qed.

Definition table_keys : list string :=
  ["bids"; "prices"; "interconnectors"; "losses"; "unit links"; "region links"; "interconnector links"].

Lemma planned_keys o k : planned o -> In k (touches o) -> ~ In k table_keys.
Proof. unfold table_keys. destruct o; try contradiction; cbn; intros _ H; decompose [or] H; subst; try contradiction; intuition discriminate. Qed.

Definition isb (f : op -> bool) ops : {o | In o ops /\ f o = true} + {forall o, In o ops -> f o = false}.
Proof.
  induction ops as [|a t [[o [H1 H2]]|IH]].
  - right. intros o [].
  - left. exists o. split; [now right|exact H2].
  - destruct (f a) eqn:E; [left; exists a; split; [now left|exact E]|]. right. intros o [<-|Ho]; auto.
Defined.

Lemma FOP_nth {A} (R : A -> A -> Prop) l : ForallOrdPairs R l -> forall i j a b, (i < j)%nat ->
  nth_error l i = Some a -> nth_error l j = Some b -> R a b.
Proof.
  induction 1 as [|x t F H IH]; intros i j a b L Ea Eb; [destruct i; discriminate Ea|].
  destruct j as [|j]; [lia|]. cbn in Eb. destruct i as [|i]; cbn in Ea.
  - inversion Ea; subst. rewrite Forall_forall in F. apply F. now apply nth_error_In in Eb.
  - apply (IH i j); auto; lia.
Qed.

Lemma FOP_map_save {A B} (R : B -> B -> Prop) (S : A -> A -> Prop) (f : nat * A -> B) l n :
  (forall i j a b, S a b -> R (f (i, a)) (f (j, b))) -> ForallOrdPairs S l -> ForallOrdPairs R (map f (save_index n l)).
Proof.
  intros H F. revert n. induction F as [|a t Fa Ft IH]; intros n; [constructor|]. rewrite save_index_cons. cbn [map]. constructor; [|apply IH].
  apply Forall_forall. intros b Hb. apply in_map_iff in Hb. destruct Hb as [[j z] [<- Hz]]. apply H.
  rewrite Forall_forall in Fa. apply Fa. now apply in_save_index in Hz.
Qed.

Section History.
Variable c : config.
Variable m0 : market.
Variable ops : list op.
Hypothesis H0 : new_market c = Ok m0.
Hypothesis Hs : sane ops m0.
Hypothesis Ha : accepted ops m0.
Hypothesis H1 : one_each (settings ops).
Hypothesis Hp : forall o, In o ops -> cost_arg o = None -> in_scope_losses c ops o.
Let m := run ops m0.

Lemma flex_planned k v : In (OpElastic k v) ops ->
  (exists o, planned o /\ In k (touches o)) \/ (k = "interpolation_weights" /\ lossy ops = true).
Proof.
  intros H. destruct (booked c ops m0 ops H0 Hs Ha H1 Hp) as [B [F [[A1 A2] [Bk [_ El]]]]].
  pose proof (bk_flex _ _ _ _ Bk k (El k v H)) as G.
  assert (X : (exists w, In w (flat_map en_ws B) /\ wkey w = k) \/ (k = "interpolation_weights" /\ lossy ops = true)).
  { unfold group in G. destruct (dget k (m_mrhs (run ops m0))) as [g|] eqn:E1.
    - destruct (bk_mrhs _ _ _ _ Bk _ _ E1) as [w [W1 [W2 _]]]. left. eauto.
    - destruct (dget k (m_rhs (run ops m0))) as [g|] eqn:E2; [|congruence].
      destruct (bk_rhs _ _ _ _ Bk _ _ E2) as [[w [W1 [W2 _]]]|X]; [left; eauto|now right]. }
  destruct X as [[w [Hw <-]]|X]; [left|now right]. apply in_flat_map in Hw. destruct Hw as [e [He Hw]]. destruct (A2 e He) as [Wr _].
  exists (en_op e). unfold wrote in Wr. destruct (plan (en_op e) (en_at e)) as [[ws fs]|] eqn:E; [|rewrite Wr in Hw; destruct Hw].
  subst ws. split; [|now apply (plan_keys _ _ _ _ E)]. destruct (planned_dec (en_op e)) as [P|P]; [exact P|].
  rewrite (quiet_plan _ _ P) in E. discriminate E.
Qed.

Lemma no_elastic k v : In k table_keys -> ~ In (OpElastic k v) ops.
Proof. intros Hk H. destruct (flex_planned k v H) as [[o [P Ho]]|[-> _]]; [exact (planned_keys o k P Ho Hk)|]. cbn in Hk. intuition discriminate. Qed.

(** Without losses nothing can be made elastic under the name of their constraints. *)
Lemma no_weights v : lossy ops = false -> ~ In (OpElastic "interpolation_weights" v) ops.
Proof.
  intros Z H. destruct (flex_planned _ v H) as [[o [P Ho]]|[_ X]]; [|congruence].
  destruct o; try contradiction P; cbn in Ho; intuition discriminate.
Qed.
Hypothesis Hw : forall v, ~ In (OpElastic "interpolation_weights" v) ops.

Lemma table_stands o : In o ops -> (forall k, In k (touches o) -> In k table_keys) -> stands m0 ops o.
Proof. intros Ho T. apply in_ops_stands; auto. intros k v He Hk. now apply (no_elastic k v (T k Hk)). Qed.

Lemma lossy_out : lossy ops = false -> forall a b, ~ In (OpLosses a b) ops.
Proof.
  intros Z a b H. unfold lossy in Z. assert (X : existsb is_losses ops = true); [|congruence].
  apply existsb_exists. exists (OpLosses a b). auto.
Qed.
Lemma lossy_in : lossy ops = true -> exists a b, In (OpLosses a b) ops.
Proof.
  intros Z. unfold lossy in Z. apply existsb_exists in Z. destruct Z as [o [H E]]. destruct o; try discriminate E. eauto.
Qed.

Lemma leaves_losses : lossy ops = false -> leaves "losses" ops.
Proof.
  intros Z o Ho Hk. destruct o; cbn in Hk; try (intuition discriminate).
  - exact (lossy_out Z _ _ Ho).
  - apply (no_elastic k v); [|exact Ho]. destruct Hk as [->|[]]. cbn. auto 10.
Qed.

(** The break points given. *)
Definition break_points : list bp_row := flat_map (fun o => match o with OpLosses _ bps => bps | _ => [] end) ops.

Lemma loss_tables_given a b : In (OpLosses a b) ops -> loss_functions ops = a /\ break_points = b.
Proof.
  intros H. unfold loss_functions, break_points.
  split; rewrite (one_table _ "losses" ops (OpLosses a b)); auto; try (apply in_settings; split; [exact H|discriminate]);
    try (right; now left); intros o' N; destruct o'; try reflexivity; exfalso; apply N; right; now left.
Qed.
Lemma no_loss_tables : lossy ops = false -> loss_functions ops = [] /\ break_points = [].
Proof.
  intros Z. pose proof (lossy_out Z) as N. unfold loss_functions, break_points. clear -N.
  induction ops as [|a t IH]; [split; reflexivity|]. cbn. destruct IH as [I1 I2]; [intros u v H; apply (N u v); now right|].
  rewrite I1, I2. destruct a; try (split; reflexivity). exfalso. apply (N lf bps). now left.
Qed.

Lemma table_network : network c (directions ops) (loss_functions ops) break_points m.
Proof.
  exists m0, ops. split; [exact H0|]. split; [exact Hs|]. split; [|reflexivity].
  assert (Di : forall l, In (OpInterconnectors l) ops -> directions ops = l).
  { intros l Ho. unfold directions.
    rewrite (one_table _ "interconnectors" ops (OpInterconnectors l)); auto; [apply in_settings; split; [exact Ho|discriminate]|now left|].
    intros o' N. destruct o'; try reflexivity. exfalso. apply N. now left. }
  destruct (lossy ops) eqn:Z.
  - right. right. destruct (lossy_in Z) as [a [b Hl]]. destruct (loss_tables_given a b Hl) as [-> ->].
    apply in_split in Hl. destruct Hl as [pre [post E]]. exists pre, post. split; [exact E|].
    assert (Ac : snd (step (OpLosses a b) (run pre m0)) = None) by (apply (accepted_at _ _ post); rewrite <- E; exact Ha).
    assert (Ne : forall z k v, In z ops -> In k (touches z) -> In k ("interpolation_weights" :: table_keys) -> z <> OpElastic k v).
    { intros z k v Hz Hkz Hk ->. destruct Hk as [<-|Hk]; [exact (Hw v Hz)|exact (no_elastic k v Hk Hz)]. }
    assert (Lv : forall k, In k (touches (OpLosses a b)) -> leaves k post).
    { intros k Hk o Ho Hko.
      assert (Hto : In k ("interpolation_weights" :: table_keys)) by (cbn in Hk; destruct Hk as [<-|[<-|[]]]; cbn; auto 10).
      assert (Hin : In o ops) by (rewrite E; apply in_or_app; right; now right).
      assert (Hs' : In o (settings post)).
      { apply in_settings. split; [exact Ho|]. intros k1 v ->. destruct Hko as [<-|[]]. apply (Ne _ k1 v Hin); [now left|exact Hto|reflexivity]. }
      pose proof H1 as N. unfold one_each in N. rewrite E, settings_app, flat_map_app in N. apply NoDup_app_inv in N. destruct N as [_ [N _]].
      change (settings (OpLosses a b :: post)) with (OpLosses a b :: settings post) in N. cbn [flat_map] in N. apply NoDup_app_inv in N.
      destruct N as [_ [_ N]]. apply (N k Hk). apply in_flat_map. exists o. auto. }
    assert (I : exists l, In (OpInterconnectors l) pre).
    { destruct (isb (fun o => match o with OpInterconnectors _ => true | _ => false end) pre) as [[o [Ho Eo]]|N].
      - destruct o; try discriminate Eo. eauto.
      - exfalso. assert (L : leaves "interconnectors" pre).
        { intros o Ho Hk. specialize (N o Ho). destruct o; cbn in Hk; try (intuition discriminate).
          apply (no_elastic k v); [|rewrite E; apply in_or_app; now left]. destruct Hk as [->|[]]. cbn. auto 10. }
        destruct (run_same_table "interconnectors" pre m0 L) as [_ [_ [T _]]]. destruct (T eq_refl) as [_ [_ T3]].
        cbn [step] in Ac. destruct (set_losses_cases a b (run pre m0)) as [[e X]|[[e X]|[p [[_ [X _]] _]]]]; try (rewrite X in Ac; discriminate Ac).
        rewrite T3 in X. unfold new_market in H0. destruct (check_unit_info c); inversion H0; subst. discriminate X. }
    destruct I as [l Hl].
    assert (Hlo : In (OpInterconnectors l) ops) by (rewrite E; apply in_or_app; now left).
    rewrite (Di l Hlo). split.
    { apply in_ops_stands; auto.
      - rewrite E in Ha. unfold accepted in Ha. apply along_app in Ha. apply Ha.
      - pose proof H1 as N. unfold one_each in N. rewrite E, settings_app, flat_map_app in N. apply NoDup_app_inv in N. apply N.
      - intros k v He [<-|[]]. apply (no_elastic "interconnectors" v); [cbn; auto 10|]. rewrite E. apply in_or_app. now left. }
    split; [exact Ac|]. split; [|split; apply Lv; cbn; auto].
    intros o Ho Hko. assert (Hin : In o ops) by (rewrite E; apply in_or_app; right; now right).
    pose proof H1 as N. unfold one_each in N. rewrite E, settings_app, flat_map_app in N. apply NoDup_app_inv in N. destruct N as [_ [_ N]].
    apply (N "interconnectors"); apply in_flat_map.
    + exists (OpInterconnectors l). split; [apply in_settings; split; [exact Hl|discriminate]|now left].
    + exists o. split; [|exact Hko]. apply in_settings. split; [now right|]. intros k v ->. destruct Hko as [->|[]].
      apply (no_elastic "interconnectors" v); [cbn; auto 10|exact Hin].
  - destruct (no_loss_tables Z) as [-> ->].
    destruct (isb (fun o => match o with OpInterconnectors _ => true | _ => false end) ops) as [[o [Ho E]]|N].
    + right. left. destruct o; try discriminate E. split; [reflexivity|]. split; [reflexivity|]. split; [|now apply leaves_losses].
      rewrite (Di l Ho). apply table_stands; [exact Ho|intros k [<-|[]]; cbn; auto 10].
    + left. assert (L : leaves "interconnectors" ops).
      { intros o Ho Hk. specialize (N o Ho). destruct o; cbn in Hk; try (intuition discriminate). apply (no_elastic k v); [|exact Ho]. destruct Hk as [->|[]]. cbn. auto 10. }
      repeat split; auto; [|now apply leaves_losses]. unfold directions. clear -N. induction ops as [|a t IH]; [reflexivity|]. cbn.
      rewrite IH by (intros; apply N; now right). specialize (N a (or_introl eq_refl)). destruct a; try reflexivity. discriminate N.
Qed.

Ltac link_case C is f key :=
    destruct (isb is ops) as [[o [Ho E]]|N];
    [left; destruct o; try discriminate E;
     match goal with Hin : In (C ?u) ops |- stands _ _ (C ?t) => replace t with u; [apply table_stands; [exact Hin|intros ? [<-|[]]; cbn; auto 10]|]; symmetry; unfold f;
       rewrite (one_table _ key ops (C u)); auto; [apply in_settings; split; [exact Hin|discriminate]|now left|];
       intros o' N; destruct o'; try reflexivity; exfalso; apply N; now left end
    |right; split;
      [unfold f; clear -N; induction ops as [|a t IH]; [reflexivity|]; cbn;
       rewrite IH by (intros; apply N; now right); specialize (N a (or_introl eq_refl)); destruct a; try reflexivity; discriminate N
      |intros k [<-|[]] o Ho Hk; specialize (N o Ho); destruct o; cbn in Hk; try (intuition discriminate);
       match goal with Hin : In (OpElastic ?a ?b) ops |- _ => apply (no_elastic a b); [|exact Hin] end; destruct Hk as [->|[]]; cbn; auto 10]].

Lemma table_links : links c (unit_links ops) (region_links ops) (inter_links ops) m.
Proof.
  exists m0, ops. split; [exact H0|]. split; [exact Hs|]. split; [reflexivity|]. split; [|split].
  - link_case OpLinkUnits (fun o => match o with OpLinkUnits _ => true | _ => false end) unit_links "unit links".
  - link_case OpLinkRegions (fun o => match o with OpLinkRegions _ => true | _ => false end) region_links "region links".
  - link_case OpLinkInters (fun o => match o with OpLinkInters _ => true | _ => false end) inter_links "interconnector links".
Qed.

Lemma hist_reached : reached c m.
Proof. exists m0, ops. auto. Qed.

Lemma hist_force o : In o ops -> (forall k, In k (touches o) -> In k table_keys) -> in_force c o m.
Proof. intros H T. exists m0, ops. split; [exact H0|]. split; [exact Hs|]. split; [now apply table_stands|reflexivity]. Qed.

(** ** Bids *)

Lemma bids_or_none : (exists t n, In (OpVolumeBids t) ops /\ rows_or_nil (m_bids m) = bid_variables t n
     /\ exists m', m_cfg m' = c /\ check_bids true m' t = None)
  \/ (m_bids m = None /\ forall t, ~ In (OpVolumeBids t) ops).
Proof.
  destruct (isb (fun o => match o with OpVolumeBids _ => true | _ => false end) ops) as [[o [Ho E]]|N].
  - left. destruct o; try discriminate E. destruct (volume_bids_inv c t m (hist_force _ Ho (fun k Hk => match Hk with or_introl E => or_introl E | or_intror F => match F with end end))) as [n [Eb Ck]]. exists t, n. auto.
  - right. split; [|intros t Ht; specialize (N _ Ht); discriminate N].
    assert (L : leaves "bids" ops).
    { intros o Ho Hk. specialize (N o Ho). destruct o; cbn in Hk; try (intuition discriminate). apply (no_elastic k v); [|exact Ho]. destruct Hk as [->|[]]. cbn. auto 10. }
    destruct (run_same_table "bids" ops m0 L) as [K _]. destruct (K eq_refl) as [K1 _]. unfold m. rewrite K1.
    unfold new_market in H0. destruct (check_unit_info c); inversion H0. reflexivity.
Qed.

Variable x : assignment.

Definition bids_ok : Prop := forall v, In v (bid_pvars (rows_or_nil (m_bids m))) -> in_bounds x v.
Definition flows_ok : Prop := (forall v, In v (inter_pvars (rows_or_nil (m_inter m))) -> in_bounds x v)
  /\ forall s, In s (sos1_sets (rows_or_nil (m_inter m))) -> sos1_ok x s.

Lemma bids_bound v : bids_ok -> In v (rows_or_nil (m_bids m)) -> bv_lb v <= x (bv_id v) <= bv_ub v.
Proof.
  intros B Hv. apply (B (PVar (bv_id v) (bv_lb v) (Some (bv_ub v)))). unfold bid_pvars. apply in_map_iff. exists v. auto.
Qed.

(** The dispatch of a band is the value of its only variable. *)
Lemma equal_sum {A} (f : A -> Q) q l : (forall a, In a l -> f a == q) -> 0 < q -> sumQ f l == q -> exists a, l = [a].
Proof.
  intros E P S. destruct l as [|a [|b t]]; [cbn in S; lra|eauto|]. exfalso. rewrite !sumQ_cons in S.
  rewrite (E a), (E b) in S by (cbn; auto).
  assert (0 <= sumQ f t) by (apply sumQ_nonneg; intros z Hz; rewrite (E z) by (cbn; auto); lra). lra.
Qed.

Definition band_rows r b := filter (fun v => String.eqb (br_unit r) (bv_unit v) && String.eqb (br_service r) (bv_service v)
                && String.eqb (br_dt r) (bv_dt v) && String.eqb b (bv_band v)) (rows_or_nil (m_bids m)).

Lemma band_one t n m' r b : rows_or_nil (m_bids m) = bid_variables t n -> check_bids true m' t = None ->
  In r (bt_rows t) -> In b (bt_bands t) -> min_bid_volume <= br_val r b -> exists v, band_rows r b = [v] /\ bv_ub v = br_val r b.
Proof.
  intros E Ck Hr Hb L. assert (U : forall v, In v (band_rows r b) -> bv_ub v = br_val r b).
  { intros v Hv. apply filter_In in Hv. destruct Hv as [Hv K]. rewrite E in Hv. apply in_bid_variables in Hv.
    destruct Hv as [r' [b' [Hr' [Hb' [_ [E1 [E2 [E3 [E4 [_ ->]]]]]]]]]].
    rewrite !andb_true_iff, !String.eqb_eq in K. destruct K as [[[K1 K2] K3] K4].
    assert (r' = r) by (apply (same_row true m' t); congruence). congruence. }
  pose proof (band_volume m' t n r b Ck Hr Hb) as S. apply Qle_bool_iff in L. rewrite L in S. rewrite <- E in S. fold (band_rows r b) in S.
  destruct (equal_sum bv_ub (br_val r b) (band_rows r b)) as [v Ev]; auto.
  - intros v Hv. now rewrite U.
  - apply Qle_bool_iff in L. unfold min_bid_volume in L. lra.
  - exists v. split; [exact Ev|]. apply U. rewrite Ev. now left.
Qed.

Lemma band_none t n m' r b : rows_or_nil (m_bids m) = bid_variables t n -> check_bids true m' t = None ->
  In r (bt_rows t) -> In b (bt_bands t) -> ~ min_bid_volume <= br_val r b -> band_rows r b = [].
Proof.
  intros E Ck Hr Hb L. destruct (band_rows r b) as [|v l] eqn:B; [reflexivity|]. exfalso.
  assert (Hv : In v (band_rows r b)) by (rewrite B; now left). apply filter_In in Hv. destruct Hv as [Hv K].
  rewrite E in Hv. apply in_bid_variables in Hv. destruct Hv as [r' [b' [Hr' [Hb' [Lv [E1 [E2 [E3 [E4 _]]]]]]]]].
  rewrite !andb_true_iff, !String.eqb_eq in K. destruct K as [[[K1 K2] K3] K4].
  assert (r' = r) by (apply (same_row true m' t); congruence). subst. apply L. congruence.
Qed.

Lemma bids_exact : bids_ok <-> forall t, In (OpVolumeBids t) ops -> obeys ops m x (OpVolumeBids t).
Proof.
  destruct bids_or_none as [[t [n [Ht [E [m' [_ Ck]]]]]]|[E N]].
  2:{ split; [intros _ t Ht; now apply N in Ht|]. intros _ v Hv. rewrite E in Hv. destruct Hv. }
  assert (NN : forall r b, In r (bt_rows t) -> In b (bt_bands t) -> 0 <= br_val r b).
  { intros r b Hr Hb. unfold check_bids in Ck.
    pose proof (all_rows_in (fun r => forallb (fun b => non_neg (br_val r b)) (bt_bands t)) (bt_rows t) _ r Ck
       ltac:(cbn; auto 10) Hr) as F. cbn beta in F. rewrite forallb_forall in F. now apply Qle_bool_iff, F. }
  split.
  - intros B t' Ht'. assert (t' = t).
    { assert (X : OpVolumeBids t' = OpVolumeBids t); [|now inversion X].
      apply (one_setter (settings ops) _ _ "bids" H1); [apply in_settings; split; [auto|discriminate]|apply in_settings; split; [auto|discriminate]|now left|now left]. }
    subst t'. cbn [obeys]. intros r b Hr Hb. rewrite band_dispatch_sum. fold (band_rows r b). pose proof (NN r b Hr Hb) as NNr.
    destruct (Qlt_le_dec (br_val r b) min_bid_volume) as [L|L].
    + rewrite (band_none t n m' r b) by (auto; lra). cbn. split; lra.
    + destruct (band_one t n m' r b) as [v [Ev U]]; auto.
      assert (Hv : In v (band_rows r b)) by (rewrite Ev; now left). apply filter_In in Hv.
      pose proof (bids_bound v B (proj1 Hv)) as Bv. rewrite (reached_bids c m v hist_reached (proj1 Hv)) in Bv. rewrite U in Bv.
      rewrite Ev. unfold sumQ. cbn. split; lra.
  - intros Ob v Hv. specialize (Ob t Ht). cbn [obeys] in Ob. unfold bid_pvars in Hv. apply in_map_iff in Hv. destruct Hv as [a [<- Hv]].
    cbn [in_bounds pv_id pv_lb pv_ub]. rewrite (reached_bids c m a hist_reached Hv). pose proof Hv as Hv'.
    rewrite E in Hv'. apply in_bid_variables in Hv'. destruct Hv' as [r [b [Hr [Hb [L [E1 [E2 [E3 [E4 [_ E5]]]]]]]]]].
    specialize (Ob r b Hr Hb). rewrite band_dispatch_sum in Ob. fold (band_rows r b) in Ob.
    destruct (band_one t n m' r b) as [v [Ev U]]; auto.
    assert (In a (band_rows r b)).
    { apply filter_In. split; [exact Hv|]. now rewrite E1, E2, E3, E4, !String.eqb_refl. }
    rewrite Ev in H, Ob. destruct H as [->|[]]. unfold sumQ in Ob. cbn in Ob. rewrite E5. unfold in_bounds. cbn. split; lra.
Qed.

Lemma bids_dispatch : bids_ok -> forall u s d, 0 <= dispatch m x u s d.
Proof.
  intros B u s d. rewrite dispatch_sum. apply sumQ_nonneg. intros v Hv. apply filter_In in Hv.
  rewrite <- (reached_bids c m v hist_reached (proj1 Hv)). now apply bids_bound.
Qed.

(** ** Flows *)

Lemma flows_exact : flows_ok <-> forall l, In (OpInterconnectors l) ops -> obeys ops m x (OpInterconnectors l).
Proof.
  pose proof (network_inv _ _ _ _ _ table_network) as [_ [_ [n [nv T]]]].
  assert (D : (exists l, In (OpInterconnectors l) ops) \/ directions ops = []).
  { destruct (isb (fun o => match o with OpInterconnectors _ => true | _ => false end) ops) as [[o [Ho Eo]]|N].
    - left. destruct o; try discriminate Eo. eauto.
    - right. unfold directions. clear -N. induction ops as [|a t IH]; [reflexivity|]. cbn.
      rewrite IH by (intros; apply N; now right). specialize (N a (or_introl eq_refl)). destruct a; try reflexivity. discriminate N. }
  assert (Dl : forall l, In (OpInterconnectors l) ops -> directions ops = l).
  { intros l Hl. unfold directions. rewrite (one_table _ "interconnectors" ops (OpInterconnectors l)); auto; [apply in_settings; split; [exact Hl|discriminate]|now left|].
    intros o' N. destruct o'; try reflexivity. exfalso. apply N. now left. }
  unfold flows_ok. rewrite (nt_inter _ _ _ _ _ T).
  set (iv := fun i d => InterVar (in_inter d) (in_link d) i (in_min d) (in_max d) (in_gcf d)).
  assert (Iv : forall v, In v (inter_variables (directions ops) n) <-> exists i d, v = iv i d /\ In (i, d) (save_index n (directions ops))).
  { intros v. unfold inter_variables. rewrite in_map_iff. split.
    - intros [[i d] [<- H]]. exists i, d. auto.
    - intros [i [d [-> H]]]. exists (i, d). auto. }
  split.
  - intros [B S] l Hl. pose proof (Dl l Hl) as El. cbn [obeys]. rewrite <- El. split.
    + intros d Hd. destruct (save_index_in n _ _ Hd) as [i Hi]. rewrite (flow_of m x _ _ n nv i d T Hi).
      apply (B (PVar i (in_min d) (Some (in_max d)))). unfold inter_pvars. apply in_map_iff. exists (iv i d). split; [reflexivity|].
      apply Iv. eauto.
    + intros d1 d2 Hd1 Hd2 E D12 N1 N2.
      destruct (save_index_in n _ _ Hd1) as [i1 I1]. destruct (save_index_in n _ _ Hd2) as [i2 I2].
      rewrite (flow_of m x _ _ n nv i1 d1 T I1), (flow_of m x _ _ n nv i2 d2 T I2).
      destruct (Qeq_dec (x i1) 0) as [Z1|Z1]; [now left|]. destruct (Qeq_dec (x i2) 0) as [Z2|Z2]; [now right|]. exfalso.
      set (lk := filter (fun v => negb (String.eqb (iv_inter v) (iv_link v))) (inter_variables (directions ops) n)).
      assert (Hlk : forall i d, In (i, d) (save_index n (directions ops)) -> in_link d <> in_inter d -> In (iv i d) lk).
      { intros i d Hi Nd. apply filter_In. split; [apply Iv; eauto|]. cbn. apply negb_true_iff, String.eqb_neq. congruence. }
      set (s := map iv_id (filter (fun v => String.eqb (iv_inter v) (in_inter d1)) lk)).
      assert (Ss : sos1_ok x s).
      { apply S. unfold sos1_sets. fold lk. apply in_map_iff. exists (in_inter d1). split; [reflexivity|].
        rewrite keys_of_drop.
        destruct (drop_duplicates_repr String.eqb (map iv_inter lk) (in_inter d1)) as [k [K1 K2]].
        - intros a b Hab e He. apply String.eqb_eq in Hab, He. apply String.eqb_eq. congruence.
        - apply String.eqb_refl.
        - intros a b Hab. now rewrite String.eqb_sym.
        - apply in_map_iff. exists (iv i1 d1). split; [reflexivity|]. now apply Hlk.
        - apply String.eqb_eq in K2. now subst k. }
      assert (M1 : In i1 s).
      { unfold s. apply in_map_iff. exists (iv i1 d1). split; [reflexivity|]. apply filter_In. split; [now apply Hlk|]. apply String.eqb_refl. }
      assert (M2 : In i2 s).
      { unfold s. apply in_map_iff. exists (iv i2 d2). split; [reflexivity|]. apply filter_In. split; [now apply Hlk|].
        cbn. rewrite E. apply String.eqb_refl. }
      assert (Ne : i1 <> i2).
      { intros Ei. subst i2. assert (X : (i1, d1) = (i1, d2)) by (apply (save_index_inj n (directions ops)); auto). inversion X. congruence. }
      destruct (in_two s i1 i2 M1 M2 Ne) as [a [b [L [[P1 P2]|[P1 P2]]]]]; exact (Ss a b _ _ L P1 P2 ltac:(assumption) ltac:(assumption)).
  - intros Ob. destruct D as [[l Hl]|D].
    2:{ rewrite D. split; [intros v []|intros s []]. }
    pose proof (Dl l Hl) as El. specialize (Ob l Hl). cbn [obeys] in Ob. rewrite <- El in Ob. destruct Ob as [B S]. split.
    + intros v Hv. unfold inter_pvars in Hv. apply in_map_iff in Hv. destruct Hv as [a [<- Hv]]. apply Iv in Hv.
      destruct Hv as [i [d [-> Hi]]]. specialize (B d (proj2 (in_save_index _ _ _ Hi))).
      rewrite (flow_of m x _ _ n nv i d T Hi) in B. exact B.
    + intros s Hs' i j a b L Pa Pb Za Zb. unfold sos1_sets in Hs'. apply in_map_iff in Hs'. destruct Hs' as [k [<- _]].
      set (lk := filter _ _) in *. rewrite nth_error_map in Pa, Pb.
      destruct (nth_error lk i) as [va|] eqn:Ea; [|discriminate Pa]. destruct (nth_error lk j) as [vb|] eqn:Eb; [|discriminate Pb].
      inversion Pa; subst a. inversion Pb; subst b. clear Pa Pb.
      assert (F : ForallOrdPairs (fun a b => same_link (iv_inter a) (iv_link a) (iv_inter b) (iv_link b) = false) lk).
      { apply FOP_filter, FOP_filter. unfold inter_variables. eapply FOP_map_save; [|exact (nt_links _ _ _ _ _ T)]. cbn. auto. }
      pose proof (FOP_nth _ _ F i j va vb L Ea Eb) as Ff.
      apply nth_error_In in Ea, Eb. unfold lk in Ea, Eb. rewrite !filter_In in Ea, Eb.
      destruct Ea as [[Ea Na] Ka], Eb as [[Eb Nb] Kb]. apply Iv in Ea, Eb. destruct Ea as [ia [da [-> Ia]]], Eb as [ib [db [-> Ib]]].
      unfold iv in *. cbn in *. apply String.eqb_eq in Ka, Kb. apply negb_true_iff, String.eqb_neq in Na, Nb.
      destruct (S da db) as [Z|Z]; try (apply in_save_index in Ia, Ib; cbn in *; tauto); try congruence.
      * intros E. unfold same_link in Ff. rewrite Ka, Kb, E, !String.eqb_refl in Ff. discriminate Ff.
      * apply Za. rewrite <- Z. symmetry. apply (flow_of m x _ _ n nv ia da T Ia).
      * apply Zb. rewrite <- Z. symmetry. apply (flow_of m x _ _ n nv ib db T Ib).
Qed.

(** ** Rows *)

(** The rows other than those of the groups [S]. *)
(** The part of the problem that links losses to flows. *)
Definition weight_rows : list rrow :=
  static_rrows (rows_or_nil (dget "interpolation_weights" (m_rhs m))) ++ dyn_rrows (rows_or_nil (m_dyn m)).
Definition loss_rows_ok : Prop := forall r, In r weight_rows ->
  (exists l, In l (all_lhs m) /\ l_con l = r_id r) ->
  relation (r_type r) (row_value (all_lhs m) x (r_id r)) (rhs_value (r_rhs r) x).
Definition loss_ok : Prop :=
  (forall v, In v (loss_pvars (rows_or_nil (m_loss m)) ++ weight_pvars (rows_or_nil (m_weights m))) -> in_bounds x v)
  /\ loss_rows_ok /\ forall s, In s (sos2_sets (rows_or_nil (m_weights m))) -> sos2_ok x s.

Lemma rows_exact L F z (S : list string) : book L F z m -> ~ In "interpolation_weights" S ->
  ((forall r, In r (all_rhs m) -> (forall k g a, In k S -> group m k = Some g -> In a g -> cr_id a <> r_id r) ->
      (exists l, In l (all_lhs m) /\ l_con l = r_id r) ->
      relation (r_type r) (row_value (all_lhs m) x (r_id r)) (rhs_value (r_rhs r) x))
   <-> loss_rows_ok /\ forall w, In w L -> ~ In (wkey w) S -> write_ok m x w).
Proof.
  intros B Ni. destruct (reached_owned c m hist_reached) as [[W [f [n O]]] _]. destruct (ow_keys _ _ _ O) as [K1 [K2 _]].
  assert (Ow : forall k g a, group m k = Some g -> In a g -> f (cr_id a) = GRhs k \/ f (cr_id a) = GMkt k).
  { intros k g a G Ha'. unfold group in G. destruct (dget k (m_mrhs m)) as [g'|] eqn:D.
    - inversion G; subst g'. right. apply dget_in in D. apply (ow_mrhs _ _ _ O _ _ _ D Ha').
    - left. apply dget_in in G. apply (ow_rhs _ _ _ O _ _ _ G Ha'). }
  split.
  - intros H. split.
    { intros r Hr. apply H.
      - unfold weight_rows in Hr. unfold all_rhs. apply in_app_or in Hr. destruct Hr as [Hr|Hr].
        + unfold static_rrows in Hr. apply in_map_iff in Hr. destruct Hr as [a [<- Hr]].
          destruct (dget "interpolation_weights" (m_rhs m)) as [rows|] eqn:D; [|destruct Hr].
          apply (in_all_rhs_unit m "interpolation_weights" rows a D Hr).
        + apply in_or_app. right. apply in_or_app. now right.
      - intros k g a Hk G Ha' E. specialize (Ow k g a G Ha'). rewrite E in Ow. unfold weight_rows in Hr. apply in_app_or in Hr.
        destruct Hr as [Hr|Hr].
        + unfold static_rrows in Hr. apply in_map_iff in Hr. destruct Hr as [b [<- Hr]].
          destruct (dget "interpolation_weights" (m_rhs m)) as [rows|] eqn:D; [|destruct Hr].
          apply dget_in in D. pose proof (ow_rhs _ _ _ O _ _ _ D Hr) as X. cbn [r_id] in Ow.
          destruct X as [X _]. assert (k = "interpolation_weights") by (destruct Ow as [Ow|Ow]; congruence). congruence.
        + unfold dyn_rrows in Hr. apply in_map_iff in Hr. destruct Hr as [b [<- Hr]].
          destruct (ow_dyn _ _ _ O b Hr) as [X _]. cbn [r_id] in Ow. destruct Ow as [Ow|Ow]; congruence. }
    intros w Hww Nw. assert (R : forall r, In (RRow (cr_id r) (cr_type r) (RNum (cr_rhs r))) (all_rhs m) ->
      (f (cr_id r) = GRhs (wkey w) \/ f (cr_id r) = GMkt (wkey w)) -> row_ok m x r).
    { intros r Hr Fr Hl. apply (H _ Hr); [|exact Hl]. cbn [r_id]. intros k g a Hk G Ha' E. apply Nw.
      specialize (Ow k g a G Ha'). rewrite E in Ow. assert (wkey w = k) by (destruct Ow as [Ow|Ow], Fr as [Fr|Fr]; congruence). congruence. }
    assert (R1 : forall rows, dget (wkey w) (m_rhs m) = Some rows -> rows_ok m x rows).
    { intros rows G r Hr. apply R; [now apply (in_all_rhs_unit m (wkey w) rows)|]. left. apply dget_in in G. apply (ow_rhs _ _ _ O _ _ _ G Hr). }
    assert (R2 : forall rows, dget (wkey w) (m_mrhs m) = Some rows -> rows_ok m x rows).
    { intros rows G r Hr. apply R; [now apply (in_all_rhs_regional m (wkey w) rows)|]. right. apply dget_in in G. apply (ow_mrhs _ _ _ O _ _ _ G Hr). }
    destruct w; cbn [write_ok wkey] in *; intros rows G; [now apply R1|now apply R2|now apply R1|now apply R1].
  - intros [Lr H] r Hr Ns. unfold all_rhs in Hr. rewrite app_assoc in Hr.
    apply in_app_or in Hr. destruct Hr as [Hr|Hr]; [|intros Hl; apply (Lr r); [unfold weight_rows; apply in_or_app; now right|exact Hl]].
    apply in_app_or in Hr. unfold static_rrows in Hr. destruct Hr as [Hr|Hr]; apply in_map_iff in Hr; destruct Hr as [a [<- Hr]];
      apply in_dconcat in Hr; destruct Hr as [k [rows [Hk Hr]]]; apply in_dget in Hk; auto; cbn [r_type r_id r_rhs rhs_value] in *; intros Hl.
    + destruct (bk_rhs _ _ _ _ B _ _ Hk) as [[w [Hww [E Nr]]]|[-> _]].
      2:{ apply (Lr (RRow (cr_id a) (cr_type a) (RNum (cr_rhs a)))); [|exact Hl]. unfold weight_rows. apply in_or_app. left.
          unfold static_rrows. apply in_map_iff. exists a. split; [reflexivity|]. now rewrite Hk. }
      assert (Nk : ~ In (wkey w) S).
      { rewrite E. intros Hs'. assert (G : group m k = Some rows); [|exact (Ns k rows a Hs' G Hr eq_refl)].
        unfold group. destruct (dget k (m_mrhs m)) as [g|] eqn:D; [|exact Hk]. exfalso.
        pose proof (reached_keyed c m hist_reached) as Ky. exact (ky_rhs _ Ky _ _ Hk (ky_reg _ Ky _ _ D)). }
      specialize (H w Hww Nk). destruct w; try discriminate Nr; cbn [write_ok wkey] in *; subst k;
        exact (H rows Hk a Hr Hl).
    + destruct (bk_mrhs _ _ _ _ B _ _ Hk) as [w [Hww [E Nr]]].
      assert (Nk : ~ In (wkey w) S).
      { rewrite E. intros Hs'. apply (Ns k rows a Hs'); auto. unfold group. now rewrite Hk. }
      specialize (H w Hww Nk). destruct w; try discriminate Nr; cbn [write_ok wkey] in *; subst k;
        exact (H rows Hk a Hr Hl).
Qed.

(** The problem without its soft groups. *)
Lemma mixed_exact L F z ss p : book L F z m -> ~ In "interpolation_weights" (map so_key ss) -> all_held m ss -> (forall k, In k F -> In k (map so_key ss)) -> assemble m = Ok p ->
  (hard_feasible p m ss x <-> (bids_ok /\ flows_ok) /\ loss_ok /\ forall w, In w L -> ~ In (wkey w) (map so_key ss) -> write_ok m x w).
Proof.
  intros B Ni [ND Held] Fk A. destruct (reached_owned c m hist_reached) as [[W _] _].
  assert (Rows : (forall k, In k (p_cons p) -> (forall s, In s ss -> ~ of_group (so_rows s) k) -> con_holds x k)
    <-> loss_rows_ok /\ forall w, In w L -> ~ In (wkey w) (map so_key ss) -> write_ok m x w).
  { rewrite <- (rows_exact L F z (map so_key ss) B Ni). split.
    - intros H r Hr Ns [l [Hl El]]. destruct (lhs_con m p l A Hl (ex_intro _ r Hr)) as [k [Hk Ek]].
      rewrite El in Ek. apply (con_row m p x k r W A Hk Hr Ek). apply H; [exact Hk|].
      intros s Hs' [a [Ha' Ea]]. destruct (Held s Hs') as [n Hh]. apply (Ns (so_key s) (so_rows s) a); auto; [now apply in_map|apply (hs_G _ _ _ Hh)|congruence].
    - intros H k Hk Ns. destruct (con_rhs m p k W A Hk) as [r [Hr Er]]. destruct (con_lhs m p k A Hk) as [l [Hl El]].
      apply (con_row m p x k r W A Hk Hr (eq_sym Er)). apply H; [exact Hr| |exists l; split; [exact Hl|congruence]].
      intros key g a Hkey G Ha' Ea. apply in_map_iff in Hkey. destruct Hkey as [s [Es Hs']]. destruct (Held s Hs') as [n Hh].
      pose proof (hs_G _ _ _ Hh) as G'. rewrite Es, G in G'. inversion G'; subst g. apply (Ns s Hs'). exists a. split; [exact Ha'|congruence]. }
  unfold hard_feasible. rewrite Rows. apply assemble_parts in A. destruct A as [-> [_ [-> [-> _]]]].
  assert (Vars : (forall v, In v (all_vars m) -> is_slack m ss (pv_id v) = false -> in_bounds x v)
    <-> bids_ok /\ (forall v, In v (inter_pvars (rows_or_nil (m_inter m))) -> in_bounds x v)
        /\ forall v, In v (loss_pvars (rows_or_nil (m_loss m)) ++ weight_pvars (rows_or_nil (m_weights m))) -> in_bounds x v).
  { pose proof (wf_vars_NoDup m W) as NDv. unfold all_vars in *.
    set (Vl := loss_pvars _ ++ weight_pvars _).
    assert (Plain : forall v, In v (bid_pvars (rows_or_nil (m_bids m)) ++ inter_pvars (rows_or_nil (m_inter m)) ++ Vl) -> is_slack m ss (pv_id v) = false).
    { intros v Hv. apply slack_out. intros s Hs' Hi. unfold Vl in Hv. rewrite !app_assoc in NDv. rewrite !app_assoc in Hv. rewrite map_app in NDv. apply NoDup_app_inv in NDv. destruct NDv as [_ [_ Nv]].
      apply (Nv (pv_id v)); [now apply in_map|]. unfold violation_vars in Hi. apply in_map_iff in Hi. destruct Hi as [d [Ed Hd]].
      apply in_map_iff. exists (PVar (df_id d) (df_lb d) (df_ub d)). split; [exact Ed|]. unfold deficit_pvars. apply in_map_iff. exists d. split; [reflexivity|].
      destruct (dget _ (m_deficits m)) as [ds|] eqn:D; [|destruct Hd]. apply dget_in in D. apply in_dconcat. eauto. }
    assert (Slack : forall v, In v (deficit_pvars (dconcat (m_deficits m))) -> is_slack m ss (pv_id v) = true).
    { intros v Hv. apply slack_in. unfold deficit_pvars in Hv. apply in_map_iff in Hv. destruct Hv as [d [<- Hd]].
      apply in_dconcat in Hd. destruct Hd as [key [ds [Hk Hd]]]. destruct (bk_def _ _ _ _ B _ _ Hk) as [k [Hf ->]].
      apply Fk in Hf. apply in_map_iff in Hf. destruct Hf as [s [Es Hs']]. exists s. split; [exact Hs'|].
      unfold violation_vars. rewrite Es. change (k ++ "_deficit")%string with (deficit_key k).
      rewrite (in_dget _ _ _ (proj1 (td_keys _ (reached_tidy c m hist_reached))) Hk). cbn [rows_or_nil pv_id]. now apply in_map. }
    unfold bids_ok. split.
    - intros H. split; [|split]; intros v Hv; apply H; try (apply Plain); unfold Vl in *; rewrite ?in_app_iff in *; tauto.
    - intros [V1 [V2 V3]] v Hv Ns. unfold Vl in V3. rewrite !in_app_iff in Hv. setoid_rewrite in_app_iff in V3. destruct Hv as [Hv|[Hv|[Hv|[Hv|Hv]]]]; auto. rewrite (Slack v Hv) in Ns. discriminate Ns. }
  rewrite Vars. unfold flows_ok, loss_ok. tauto.
Qed.

(** ** One call *)

Lemma hist_cfg : m_cfg m = c.
Proof. now apply run_cfg_new. Qed.

Lemma not_bdu u : ~ two_sided c u -> mem_str u (m_bdu m) = false.
Proof.
  intros N. destruct (mem_str u (m_bdu m)) eqn:E; [|reflexivity]. exfalso. apply N.
  destruct (reached_owned c m hist_reached) as [[W _] C].
  apply (bidirectional_iff c); [rewrite <- C; apply W|]. apply mem_str_in. unfold m_bdu in E. now rewrite C in E.
Qed.

Lemma entry_bids pre o post vs : ops = pre ++ o :: post -> m_bids (run pre m0) = Some vs ->
  ~ In "bids" (touches o) -> m_bids m = Some vs.
Proof.
  intros E Hb No. assert (L : leaves "bids" (o :: post)).
  { intros o' [<-|Ho'] Hk; [now apply No|].
    assert (Lp : leaves "bids" pre).
    { intros a Hain Hka. assert (Ne : forall z, In z ops -> In "bids" (touches z) -> forall k v, z <> OpElastic k v).
      { intros z Hz Hkz k v ->. destruct Hkz as [->|[]]. apply (no_elastic "bids" v); [now left|exact Hz]. }
      unfold one_each in H1. rewrite E, settings_app, flat_map_app in H1. apply NoDup_app_inv in H1. destruct H1 as [_ [_ N]].
      apply (N "bids"); apply in_flat_map; [exists a|exists o']; split; auto; apply in_settings; split; auto; [|now right|];
        apply Ne; auto; rewrite E; apply in_or_app; auto. right. now right. }
    destruct (run_same_table "bids" pre m0 Lp) as [K _]. destruct (K eq_refl) as [K1 _]. rewrite K1 in Hb.
    unfold new_market in H0. destruct (check_unit_info c); inversion H0; subst. discriminate Hb. }
  destruct (run_same_table "bids" (o :: post) (run pre m0) L) as [K _]. destruct (K eq_refl) as [K1 _].
  unfold m. rewrite E, run_app. now rewrite K1.
Qed.

(** What is offered in the end is what the bid table offers. *)
Lemma offers_bids u s d : offers m u s d <-> bids_for ops u s d.
Proof.
  unfold offers, bids_for. destruct bids_or_none as [[t [n [Ht [E _]]]]|[E N]].
  - rewrite E. split.
    + intros [v [Hv [E1 [E2 E3]]]]. apply in_bid_variables in Hv. destruct Hv as [r [b [Hr [Hb [L [F1 [F2 [F3 _]]]]]]]].
      exists t, r, b. repeat split; congruence || exact L || assumption.
    + intros [t' [r [b [Ht' [Hr [Hb [E1 [E2 [E3 L]]]]]]]]].
      assert (X : OpVolumeBids t' = OpVolumeBids t).
      { apply (one_setter (settings ops) _ _ "bids" H1); [apply in_settings; split; [auto|discriminate]|apply in_settings; split; [auto|discriminate]|now left|now left]. }
      inversion X; subst t'. destruct (bid_variable_exists t n r b Hr Hb L) as [i Hi]. eexists. split; [exact Hi|]. cbn. auto.
  - rewrite E. split; [intros [v [[] _]]|]. intros [t' [r [b [Ht' _]]]]. now apply N in Ht'.
Qed.

Lemma one_call w (P : Prop) : (write_ok m x w <-> P) -> ((forall w', In w' [w] -> write_ok m x w') /\ True <-> P).
Proof. intros H. rewrite <- H. split; [intros [F _]; apply F; now left|]. intros F. split; [|exact I]. intros w' [<-|[]]. exact F. Qed.

Lemma call_exact B Fs z e : accounts m0 ops B -> book (flat_map en_ws B) Fs z m ->
  (forall k, In k Fs -> exists o, In o ops /\ In k (touches o) /\ cost_arg o <> None) ->
  bids_ok -> In e B -> hard ops (en_op e) -> is_losses (en_op e) = false ->
  ((forall w, In w (en_ws e) -> write_ok m x w)
   /\ match en_op e with OpVolumeBids _ | OpInterconnectors _ => obeys ops m x (en_op e) | _ => True end
   <-> obeys ops m x (en_op e)).
Proof.
  intros [A1 A2] Bk Fl Bd He Hd Nl. destruct (A2 e He) as [Wr [pre [post [Eo Em]]]].
  assert (St : forall w, In w (en_ws e) -> firm m w).
  { intros w Hww. split; [apply (bk_stand _ _ _ _ Bk); apply in_flat_map; eauto|]. unfold quiet.
    destruct (dget (deficit_key (wkey w)) (m_lhs m)) as [ls|] eqn:D; [exfalso|reflexivity].
    destruct (Fl (wkey w)) as [o' [Ho' [Hk' Hc']]]; [apply (bk_lhs _ _ _ _ Bk); congruence|]. apply Hc'. apply (Hd (wkey w)); auto.
    unfold wrote in Wr. destruct (plan (en_op e) (en_at e)) as [[ws fs]|] eqn:E; [|rewrite Wr in Hww; destruct Hww].
    subst ws. now apply (plan_keys _ _ _ _ E). }
  assert (Ho : In (en_op e) ops) by (rewrite Eo; apply in_or_app; right; now left).
  assert (Co : cost_arg (en_op e) = None) by (destruct (touches_some (en_op e)) as [k Hk]; now apply (Hd k)).
  assert (Sco : in_scope c ops (en_op e)) by (pose proof (Hp _ Ho Co) as X; destruct (en_op e); try exact X; discriminate Nl).
  destruct Sco as [Ca Sc]. clear Co Hd Fl.
  destruct (reached_owned c m hist_reached) as [O C].
  pose proof (bids_dispatch Bd) as HN.
  assert (Cm : m_cfg (en_at e) = m_cfg m) by (rewrite Em, C; now apply run_cfg_new).
  assert (Bm : m_bdu (en_at e) = m_bdu m) by (unfold m_bdu; now rewrite Cm).
  assert (Ac : snd (step (en_op e) (en_at e)) = None) by (rewrite Em; apply (accepted_at _ _ post); now rewrite <- Eo).
  unfold wrote in Wr. destruct (en_op e) as [t|t|l v|l v|t s p rt v|l v| |l v|l v|l v|l p rt v|l v|l v|l|lf bps|l v|l|l|l|k v|v] eqn:Eop;
    cbn [plan] in Wr; cbn [cost_arg] in Ca; try discriminate Ca; try contradiction Sc; try (subst v);
    try (rewrite Wr in *; clear; cbn [obeys]; split; [tauto|]; intros H; split; [intros w []|exact H]; fail).
  - (* capacity *) rewrite Bm in Wr. rewrite Wr in *. apply one_call. apply capacity_exact; auto. apply St. now left.
  - rewrite Wr in *. apply one_call. apply uigf_exact; auto. apply St. now left.
  - (* ramp *)
    destruct Sc as [-> [Su [Sd Sb]]]. cbn [step] in Ac. unfold set_ramp in Ac.
    apply guard_none in Ac. destruct Ac as [Cr Ac]. apply guard_none in Ac. destruct Ac as [_ Ac].
    apply guard_none in Ac. destruct Ac as [_ Ac]. apply guard_none in Ac. destruct Ac as [Cs _].
    unfold ramp_step, fast_start_adjust in Wr. cbn [String.eqb] in Wr. cbn in Wr. rewrite Bm, Cm in Wr.
    rewrite <- C in Sb.
    set (b := bdu_ramp_step t (m_bdu m) s (c_interval (m_cfg m))) in *.
    pose proof (bdu_ramp_exact m x O (en_at e) t s (c_interval (m_cfg m)) Cr Cs eq_refl Sb) as XB. cbv zeta in XB. fold b in XB.
    pose proof (ramp_exact m x O (en_at e) t s (c_interval (m_cfg m)) Cs Su Sd eq_refl) as XO. cbv zeta in XO.
    match type of XO with firm m ?u -> firm m ?d -> _ => set (wu := u) in *; set (wd := d) in * end.
    match type of XB with (firm m ?u /\ firm m ?d) \/ _ -> _ => set (wbu := u) in *; set (wbd := d) in * end.
    assert (Ws : en_ws e = wu :: wd :: w_if b wbu ++ w_if b wbd) by exact Wr. clear Wr. clearbody wu wd wbu wbd.
    rewrite Ws in *. cbn [obeys].
    rewrite <- XO by (apply St; [now left|right; now left] || (apply St; first [now left|right; now left])).
    rewrite <- XB; [|destruct b as [|b0 bt] eqn:Eb; [now right|left]; split; apply St; cbn; auto].
    split.
    + intros [H _]. split; [split; apply H; cbn; auto|]. intros Nb. destruct b as [|b0 bt]; [now elim Nb|]. split; apply H; cbn; auto.
    + intros [[W1 W2] W3]. split; [|exact I]. intros w [<-|[<-|Hin]]; [exact W1|exact W2|].
      destruct b as [|b0 bt]; [destruct Hin|]. destruct W3 as [W3 W4]; [discriminate|]. destruct Hin as [<-|[<-|[]]]; assumption.
  - (* fast start *)
    assert (Nb : forall f, In f l -> mem_str (fs_unit f) (m_bdu m) = false
       /\ (fs_end_mode f = 2%Z -> 0 < fs_mode_two_length f) /\ (fs_end_mode f = 4%Z -> 0 < fs_mode_four_length f)).
    { intros f Hf. destruct (Sc f Hf) as [S1 S2]. split; [now apply not_bdu|exact S2]. }
    pose proof (fast_start_exact ops m x O HN l Nb) as F. cbv zeta in F. rewrite Cm in Wr.
    destruct (fast_start_rhs (fs_with_dt (c_ui (m_cfg m)) l) 0) as [|r0 rt] eqn:Ef.
    + rewrite Wr. rewrite <- F by now right. split; [intros _ N; now elim N|]. intros _. split; [intros w []|exact I].
    + rewrite Wr in *. rewrite <- F by (left; apply St; now left).
      split; [intros [H _] _; apply H; now left|]. intros H. split; [|exact I]. intros w [<-|[]]. apply H. discriminate.
  - (* demand *) rewrite Wr in *. apply one_call.
    destruct (network_inv _ _ _ _ _ table_network) as [_ [_ [n0 [nv T]]]].
    apply (demand_exact ops m x O l n0 nv T Sc). apply St. now left.
  - (* fcas *) rewrite Wr in *. apply one_call. apply fcas_exact; auto; [apply (reached_energy_only c), hist_reached|apply (links_inv c), table_links|].
    apply St. now left.
  - (* max availability *)
    cbn [step] in Ac. unfold set_max_avail in Ac. apply guard_none in Ac. destruct Ac as [Ck _].
    rewrite Wr in *. apply one_call. apply max_avail_exact; auto; [|apply St; now left].
    intros r Hr E. unfold check_max_avail in Ck.
    pose proof (all_rows_in (fun r => mem_str (ma_service r) allowed_fcas) l _ r Ck ltac:(cbn; auto 10) Hr) as F. cbn beta in F.
    rewrite E in F. discriminate F.
  - (* joint ramping *)
    destruct Sc as [-> Sb]. cbn [step] in Ac. unfold set_joint_ramping in Ac.
    apply guard_none in Ac. destruct Ac as [Ck Ac]. apply guard_none in Ac. destruct Ac as [_ Ac].
    destruct (m_bids (en_at e)) as [vs|] eqn:Eb; [clear Ac|discriminate Ac].
    assert (Ef : m_bids m = Some vs).
    { rewrite Em in Eb. apply (entry_bids pre (OpJointRamping l p "no_fast_start_units" None) post); auto. cbn. intuition discriminate. }
    assert (Sb' : forall r, In r l -> two_sided (m_cfg m) (rg_unit r) -> forall s, In s ["raise_reg"; "lower_reg"] ->
       (offers m (rg_unit r) s "generator" <-> offers m (rg_unit r) s "load")).
    { intros r Hr T s Hsv. rewrite C in T. rewrite !offers_bids. now apply Sb. }
    pose proof (joint_ramping_exact ops m x O (en_at e) l p Ck Sb') as F. cbv zeta in F. rewrite Ef in F. cbn [rows_or_nil] in F.
    unfold fast_start_adjust in Wr. cbn in Wr. rewrite Cm, Bm in Wr. unfold jr_ordinary, jr_bdu in F.
    match type of F with firm m ?a \/ ?la = [] -> firm m ?b \/ ?lb = [] -> firm m ?c' \/ ?lc = [] -> firm m ?d \/ ?ld = [] -> _ =>
      set (L1 := la) in *; set (L2 := lb) in *; set (L3 := lc) in *; set (L4 := ld) in *;
      set (w1 := a) in *; set (w2 := b) in *; set (w3 := c') in *; set (w4 := d) in * end.
    assert (Ws : en_ws e = w_if L1 w1 ++ w_if L2 w2 ++ w_if L3 w3 ++ w_if L4 w4) by exact Wr. clear Wr.
    assert (Ap : forall w, In w (en_ws e) <-> (In w (w_if L1 w1) \/ In w (w_if L2 w2) \/ In w (w_if L3 w3) \/ In w (w_if L4 w4))).
    { intros w. rewrite Ws, !in_app_iff. tauto. }
    assert (If : forall (L : list reg_limit) w, L <> [] -> In w (w_if L w)) by (intros [|L0 Lt] w N; [now elim N|now left]).
    assert (Fi : forall (L : list reg_limit) w w', In w' (w_if L w) -> w' = w /\ L <> []) by (intros [|L0 Lt] w w' Hin; [destruct Hin|destruct Hin as [Hin|[]]; split; [congruence|discriminate]]).
    assert (Or : forall (L : list reg_limit) w, (L <> [] -> In w (en_ws e)) -> firm m w \/ L = []).
    { intros L w H. destruct L as [|L0 Lt]; [now right|left]. apply St, H. discriminate. }
    rewrite <- F; [clear F|apply Or; intros N; apply Ap; auto 10..].
    split.
    + intros [H _]. split; [|split; [|split]]; intros N; apply H; apply Ap; [left|right; left|right; right; left|right; right; right]; apply If; exact N.
    + intros [F1 [F2 [F3 F4]]]. split; [|exact I]. intros w Hin. apply Ap in Hin.
      destruct Hin as [Hin|[Hin|[Hin|Hin]]]; apply Fi in Hin; destruct Hin as [-> N]; auto.
  - (* joint capacity *) rewrite Bm in Wr. rewrite Wr in *. apply one_call. apply joint_capacity_exact; auto; [|apply St; now left].
    intros t Ht. apply not_bdu. now apply Sc.
  - (* energy and regulation *)
    cbn [step] in Ac. unfold set_energy_reg in Ac. apply guard_none in Ac. destruct Ac as [Ck _].
    rewrite Wr in *. apply one_call. apply energy_reg_exact; auto; [..|apply St; now left].
    + intros t Ht E. unfold check_traps in Ck. 
      pose proof (all_rows_in (fun r => mem_str (tz_service r) allowed_regulation) l _ t Ck ltac:(cbn; auto 10) Ht) as F. cbn beta in F.
      rewrite E in F. discriminate F.
    + intros t Ht. destruct (mem_str (tz_unit t) (m_bdu m)) eqn:Bt; [|now apply sign_ordinary].
      rewrite (proj2 (Sc t Ht)); [apply sign_gen|].
      apply (bidirectional_iff c); [rewrite <- C; apply O|]. apply mem_str_in. unfold m_bdu in Bt. now rewrite C in Bt.
  - (* generic *) rewrite Wr in *. apply one_call. apply generic_exact; auto; [apply (reached_unit_keys c), hist_reached|apply (links_inv c), table_links|].
    apply St. now left.
Qed.

Lemma table_hard o : In o ops -> (forall k, In k (touches o) -> In k table_keys) -> hard ops o.
Proof.
  intros Ho T k o' Hk Ho' Hk'. destruct (cost_arg o') as [v|] eqn:E; [exfalso|reflexivity].
  specialize (T k Hk). destruct (planned_dec o') as [P|P]; [exact (planned_keys o' k P Hk' T)|].
  destruct o'; try discriminate E; try (exfalso; exact (P I)). destruct Hk' as [->|[]]. exact (no_elastic _ _ T Ho').
Qed.

(** The dispatch obeys the hard calls other than those for losses. *)
Definition obeys_rest : Prop := forall o, In o ops -> hard ops o -> is_losses o = false -> obeys ops m x o.

Lemma weights_not_soft ss : soft_groups ops m ss -> ~ In "interpolation_weights" (map so_key ss).
Proof.
  intros Sg H. apply Sg in H. destruct H as [_ [o [Ho [Hk Hc]]]].
  destruct o; cbn in Hk; try (intuition discriminate); (destruct Hk as [->|[]]; exact (Hw _ Ho)).
Qed.

Lemma losses_region ss p : all_softened c m ss -> soft_groups ops m ss -> together ops m -> assemble m = Ok p ->
  (hard_feasible p m ss x <-> obeys_rest /\ loss_ok).
Proof.
  intros So Sg To A. destruct (booked c ops m0 ops H0 Hs Ha H1 Hp) as [B [F [Ac [Bk [Fl El]]]]]. fold m in Bk.
  assert (Fk : forall k, In k F -> In k (map so_key ss)).
  { intros k Hk. apply Sg. split; [now apply (bk_flex _ _ _ _ Bk)|now apply Fl]. }
  rewrite (mixed_exact _ F _ ss p Bk (weights_not_soft ss Sg) (softened_all c m ss So) Fk A). pose proof Ac as [Em Ae]. unfold obeys_rest. split.
  - intros [[Bd Flo] [Lo W]]. split; [|exact Lo]. intros o Ho Hd Nl. pose proof Ho as Ho'. rewrite <- Em in Ho'. apply in_map_iff in Ho'. destruct Ho' as [e [<- He]].
    apply (call_exact B F _ e Ac Bk Fl Bd He Hd Nl). split.
    + intros w Hww. apply W; [apply in_flat_map; eauto|]. intros Hk. apply Sg in Hk. destruct Hk as [_ [o' [Ho' [Hk' Hc']]]].
      apply Hc'. apply (Hd (wkey w)); auto. destruct (Ae e He) as [Wr _]. unfold wrote in Wr.
      destruct (plan (en_op e) (en_at e)) as [[ws fs]|] eqn:E; [|rewrite Wr in Hww; destruct Hww]. subst ws. now apply (plan_keys _ _ _ _ E).
    + destruct (en_op e) eqn:Eo; try exact I; [now apply (proj1 bids_exact)|now apply (proj1 flows_exact)].
  - intros [Ob Lo]. assert (Bd : bids_ok).
    { apply bids_exact. intros t Ht. apply Ob; [exact Ht| |reflexivity]. apply table_hard; [exact Ht|]. intros k [<-|[]]. now left. }
    split; [split; [exact Bd|apply flows_exact; intros l Hl; apply Ob; [exact Hl|apply table_hard; [exact Hl|intros k [<-|[]]; cbn; auto 10]|reflexivity]]|].
    split; [exact Lo|]. intros w Hww Nk. pose proof Hww as Hw0. apply in_flat_map in Hww. destruct Hww as [e [He Hww]].
    assert (Ho : In (en_op e) ops) by (rewrite <- Em; now apply in_map).
    destruct (hard_or ops (en_op e)) as [Hd|[k [o' [Hk [Ho' [Hk' Hc']]]]]].
    + destruct (is_losses (en_op e)) eqn:Nl.
      * destruct (Ae e He) as [Wr _]. unfold wrote in Wr. destruct (en_op e); try discriminate Nl. cbn [plan] in Wr. rewrite Wr in Hww. destruct Hww.
      * now apply (proj1 (proj2 (call_exact B F _ e Ac Bk Fl Bd He Hd Nl) (Ob _ Ho Hd Nl))).
    + exfalso. apply Nk. apply Sg. destruct (Ae e He) as [Wr _]. unfold wrote in Wr.
      destruct (plan (en_op e) (en_at e)) as [[ws fs]|] eqn:E; [|rewrite Wr in Hww; destruct Hww]. subst ws.
      pose proof (proj1 (plan_keys _ _ _ _ E) w Hww) as Kw.
      assert (Gw : group m (wkey w) <> None).
      { pose proof (bk_stand _ _ _ _ Bk w Hw0) as S. unfold group. destruct w; cbn [standing wkey] in *.
        - destruct S as [_ [n [S _]]]. rewrite S. destruct (dget k0 (m_mrhs m)); discriminate.
        - destruct S as [_ [n [S _]]]. rewrite S. discriminate.
        - destruct S as [n S]. rewrite S. destruct (dget "generic" (m_mrhs m)); discriminate.
        - destruct (dget "tie_break" (m_mrhs m)); [discriminate|exact S]. }
      destruct (isb (fun o => match o with OpElastic _ _ => true | _ => false end) [o']) as [[o2 [[<-|[]] Ee]]|Ne].
      * destruct o'; try discriminate Ee. destruct Hk' as [<-|[]]. apply (To (en_op e) k0 (wkey w)); auto.
        split; [apply (bk_flex _ _ _ _ Bk), (El k0 v Ho')|]. exists (OpElastic k0 v). split; [exact Ho'|]. split; [now left|discriminate].
      * assert (o' = en_op e).
        { apply (one_setter (settings ops) o' (en_op e) k H1); auto; apply in_settings; split; auto.
          - intros k1 v ->. specialize (Ne _ (or_introl eq_refl)). discriminate Ne.
          - intros k1 v Ek. rewrite Ek in E. discriminate E. }
        subst o'. split; [exact Gw|]. exists (en_op e). auto.
Qed.

End History.

(** Without losses. *)
Section Plain.
Variable c : config.
Variable m0 : market.
Variable ops : list op.
Hypothesis H0 : new_market c = Ok m0.
Hypothesis Hs : sane ops m0.
Hypothesis Ha : accepted ops m0.
Hypothesis H1 : one_each (settings ops).
Hypothesis Hp : forall o, In o ops -> cost_arg o = None -> in_scope c ops o.
Let m := run ops m0.

Lemma plain_scope o : In o ops -> cost_arg o = None -> in_scope_losses c ops o.
Proof. intros Ho Co. apply scope_wide. auto. Qed.
Lemma plain_lossless : lossy ops = false.
Proof.
  destruct (lossy ops) eqn:Z; [exfalso|reflexivity]. unfold lossy in Z. apply existsb_exists in Z. destruct Z as [o [Ho Z]].
  destruct o; try discriminate Z. destruct (Hp _ Ho eq_refl) as [_ []].
Qed.
Lemma plain_weights v : ~ In (OpElastic "interpolation_weights" v) ops.
Proof. exact (no_weights c m0 ops H0 Hs Ha H1 plain_scope v plain_lossless). Qed.

Lemma plain_network : network c (directions ops) [] [] m.
Proof.
  pose proof (table_network c m0 ops H0 Hs Ha H1 plain_scope plain_weights) as T.
  destruct (no_loss_tables ops plain_lossless) as [E1 E2]. now rewrite E1, E2 in T.
Qed.

Lemma mixed_region x ss p : all_softened c m ss -> soft_groups ops m ss -> together ops m -> assemble m = Ok p ->
  (hard_feasible p m ss x <-> obeys_hard ops m x).
Proof.
  intros So Sg To A. unfold m. rewrite (losses_region c m0 ops H0 Hs Ha H1 plain_scope plain_weights x ss p So Sg To A).
  destruct (booked c ops m0 ops H0 Hs Ha H1 plain_scope) as [B [F [_ [Bk _]]]]. rewrite plain_lossless in Bk.
  pose proof (no_loss_tables ops plain_lossless) as [E1 _].
  destruct (network_inv _ _ _ _ _ plain_network) as [_ [_ [n [nv T]]]].
  assert (El : rows_or_nil (m_loss (run ops m0)) = []).
  { fold m. rewrite (nt_loss _ _ _ _ _ T). cbn [loss_shares merge flat_map map]. unfold loss_variables, loss_rows. now rewrite merge_nil_r. }
  destruct (bk_none _ _ _ _ Bk eq_refl) as [Ew Ed].
  assert (Eg : dget "interpolation_weights" (m_rhs (run ops m0)) = None).
  { destruct (dget _ _) as [rows|] eqn:D; [exfalso|reflexivity]. destruct (bk_rhs _ _ _ _ Bk _ _ D) as [[w [Hw [Ek Nr]]]|[_ X]]; [|discriminate X].
    pose proof (bk_stand _ _ _ _ Bk w Hw) as S. destruct w; try discriminate Nr; cbn [wkey standing] in *; try discriminate Ek.
    subst. destruct S as [S _]. now apply unit_key_ok in S. }
  assert (Lo : loss_ok m0 ops x).
  { unfold loss_ok, loss_rows_ok, weight_rows. rewrite El, Ew, Ed, Eg. split; [intros v []|]. split; [intros r []|intros s []]. }
  unfold obeys_rest, obeys_hard. split.
  - intros [O _] o Ho Hd. apply O; auto. destruct (is_losses o) eqn:Z; [exfalso|reflexivity]. destruct o; try discriminate Z.
    exact (lossy_out ops plain_lossless _ _ Ho).
  - intros O. split; [|exact Lo]. auto.
Qed.

End Plain.

(** ** What follows for dispatch with violation costs *)
Section Weigh.
Variables (c : config) (m0 : market) (ops : list op) (p : problem) (ss : list soft).
Hypothesis H0 : new_market c = Ok m0.
Hypothesis Hs : sane ops m0.
Hypothesis Ha : accepted ops m0.
Hypothesis H1 : one_each (settings ops).
Hypothesis Hp : forall o, In o ops -> cost_arg o = None -> in_scope c ops o.
Let m := run ops m0.
Hypothesis So : all_softened c m ss.
Hypothesis Sg : soft_groups ops m ss.
Hypothesis To : together ops m.
Hypothesis A : assemble m = Ok p.

Lemma mixed_extends x : obeys_hard ops m x -> exists y, same_plain m ss x y /\ feasible p y /\ objective p y == weighed p m ss x.
Proof. intros O. apply (soft_extends c m p ss x So A). now apply (mixed_region c m0 ops H0 Hs Ha H1 Hp x ss p). Qed.
Lemma mixed_empty : (exists x, feasible p x) <-> exists x, obeys_hard ops m x.
Proof.
  split.
  - intros [x F]. exists x. apply (mixed_region c m0 ops H0 Hs Ha H1 Hp x ss p So Sg To A). now apply hard_of_feasible.
  - intros [x O]. destruct (mixed_extends x O) as [y [_ [F _]]]. now exists y.
Qed.
Lemma mixed_optimum x : optimal p x ->
  obeys_hard ops m x /\ objective p x == weighed p m ss x /\ forall y, obeys_hard ops m y -> weighed p m ss x <= weighed p m ss y.
Proof.
  intros O. destruct (soft_optimum c m p ss x So A O) as [F [E L]]. split; [|split; [exact E|]].
  - now apply (mixed_region c m0 ops H0 Hs Ha H1 Hp x ss p So Sg To A).
  - intros y Hy. apply L. now apply (mixed_region c m0 ops H0 Hs Ha H1 Hp y ss p So Sg To A).
Qed.
Lemma mixed_achieved x : obeys_hard ops m x -> (forall y, obeys_hard ops m y -> weighed p m ss x <= weighed p m ss y) ->
  exists y, same_plain m ss x y /\ optimal p y /\ objective p y == weighed p m ss x.
Proof.
  intros O L. apply (soft_achieved c m p ss x So A).
  - now apply (mixed_region c m0 ops H0 Hs Ha H1 Hp x ss p So Sg To A).
  - intros y Hy. apply L. now apply (mixed_region c m0 ops H0 Hs Ha H1 Hp y ss p So Sg To A).
Qed.
End Weigh.
