(** Invariants of every market reached through the API: ids, and the tables that
    are always made together. *)

From Coq Require Import QArith String List Bool Arith Lia ZArith Permutation.
Import ListNotations.
From Verif Require Import PandasModel TablesModel VariableIdsModel MarketConstraintsModel
  UnitConstraintsModel RampModel FcasModel InterModel ElasticModel MarketModel SolverModel
  PandasFacts SpecHistory SpecIds StepFacts.
Open Scope string_scope.
Open Scope list_scope.

(** ** Lists of ids *)

Lemma NoDup_app_iff {A} (l1 l2 : list A) :
  NoDup (l1 ++ l2) <-> NoDup l1 /\ NoDup l2 /\ (forall a, In a l1 -> In a l2 -> False).
Proof.
  induction l1 as [|a t IH]; cbn.
  - split; [intros H; repeat split; auto; constructor|tauto].
  - rewrite !NoDup_cons_iff, in_app_iff, IH. split.
    + intros [H1 [H2 [H3 H4]]]. repeat split; auto. intros b [<-|Hb] Hb2; eauto.
    + intros [[H1 H2] [H3 H4]]. repeat split; auto; [|eauto].
      intros [H|H]; eauto.
Qed.

Lemma NoDup_drop_mid {A} (l1 old l2 : list A) : NoDup (l1 ++ old ++ l2) -> NoDup (l1 ++ l2).
Proof.
  rewrite !NoDup_app_iff. intros [D1 [[D2 [D3 D4]] D5]]. repeat split; auto.
  intros a Ha Hb. apply (D5 a); auto. apply in_or_app; auto.
Qed.

Lemma NoDup_replace (l1 old l2 mid : list nat) n :
  NoDup (l1 ++ old ++ l2) -> (forall i, In i (l1 ++ old ++ l2) -> i < n)%nat ->
  NoDup mid -> (forall i, In i mid -> n <= i)%nat ->
  NoDup (l1 ++ mid ++ l2).
Proof.
  intros ND LT NDm GE.
  rewrite !NoDup_app_iff in *. destruct ND as [N1 [[N2 [N3 N4]] N5]].
  repeat split; auto.
  - intros a H1 H2. specialize (GE _ H1). assert (a < n)%nat by (apply LT; rewrite !in_app_iff; auto). lia.
  - intros a H1 H2. apply in_app_or in H2. destruct H2 as [H2|H2].
    + specialize (GE _ H2). assert (a < n)%nat by (apply LT; rewrite !in_app_iff; auto). lia.
    + apply (N5 a); auto. apply in_or_app; auto.
Qed.

Lemma lt_replace (l1 old l2 mid : list nat) n n' :
  (forall i, In i (l1 ++ old ++ l2) -> i < n)%nat -> (n <= n')%nat ->
  (forall i, In i mid -> i < n')%nat ->
  (forall i, In i (l1 ++ mid ++ l2) -> i < n')%nat.
Proof.
  intros H Hn Hm i Hi. rewrite !in_app_iff in Hi. destruct Hi as [Hi|[Hi|Hi]].
  - assert (i < n)%nat by (apply H; rewrite !in_app_iff; auto). lia.
  - auto.
  - assert (i < n)%nat by (apply H; rewrite !in_app_iff; auto). lia.
Qed.

(** A dictionary assignment replaces a block of the concatenation. *)
Lemma dconcat_dset {A} k (v : list A) d :
  exists l1 old l2, dconcat d = l1 ++ old ++ l2 /\ dconcat (dset k v d) = l1 ++ v ++ l2.
Proof.
  induction d as [|[k' v'] t IH].
  - exists [], [], []. unfold dconcat; cbn. auto.
  - cbn [dset]. destruct (String.eqb k k').
    + exists [], v', (dconcat t). split; reflexivity.
    + destruct IH as [l1 [old [l2 [E1 E2]]]].
      exists (v' ++ l1), old, l2. unfold dconcat in *. cbn [flat_map snd]. rewrite E1, E2.
      rewrite <- !app_assoc. split; reflexivity.
Qed.

Lemma dconcat_ddel {A} k (d : dict (list A)) :
  exists l1 old l2, dconcat d = l1 ++ old ++ l2 /\ dconcat (ddel k d) = l1 ++ l2.
Proof.
  induction d as [|[k' v'] t IH].
  - exists [], [], []. unfold dconcat; cbn. auto.
  - cbn [ddel]. destruct (String.eqb k k').
    + exists [], v', (dconcat t). split; reflexivity.
    + destruct IH as [l1 [old [l2 [E1 E2]]]].
      exists (v' ++ l1), old, l2. unfold dconcat in *. cbn [flat_map snd]. rewrite E1, E2.
      rewrite <- !app_assoc. split; reflexivity.
Qed.

(** ** The id columns *)

Definition var_ids (m : market) : list nat :=
  map bv_id (rows_or_nil (m_bids m)) ++ map iv_id (rows_or_nil (m_inter m))
  ++ map lv_id (rows_or_nil (m_loss m)) ++ map wv_id (rows_or_nil (m_weights m))
  ++ map df_id (dconcat (m_deficits m)).

Lemma var_ids_all m : map pv_id (all_vars m) = var_ids m.
Proof.
  unfold all_vars, var_ids, bid_pvars, inter_pvars, loss_pvars, weight_pvars, deficit_pvars.
  rewrite !map_app, !map_map. reflexivity.
Qed.

Definition rhs_ids (m : market) : list nat :=
  map cr_id (dconcat (m_rhs m)) ++ map cr_id (dconcat (m_mrhs m))
  ++ map dy_id (rows_or_nil (m_dyn m)).

Lemma rhs_ids_all m : map r_id (all_rhs m) = rhs_ids m.
Proof.
  unfold all_rhs, rhs_ids, static_rrows, dyn_rrows. rewrite !map_app, !map_map. reflexivity.
Qed.

(** [ids_fresh l n n']: the ids are distinct and between n and n'. *)
Definition ids_fresh (l : list nat) (n n' : nat) : Prop :=
  NoDup l /\ (forall i, In i l -> n <= i < n')%nat /\ (n <= n')%nat.

Lemma ids_fresh_replace l1 old l2 mid n n' :
  NoDup (l1 ++ old ++ l2) -> (forall i, In i (l1 ++ old ++ l2) -> i < n)%nat ->
  ids_fresh mid n n' ->
  NoDup (l1 ++ mid ++ l2) /\ (forall i, In i (l1 ++ mid ++ l2) -> i < n')%nat.
Proof.
  intros ND LT [F1 [F2 F3]]. split.
  - eapply NoDup_replace; eauto. intros i Hi. apply F2 in Hi. lia.
  - eapply lt_replace; eauto. intros i Hi. apply F2 in Hi. lia.
Qed.

Lemma ids_fresh_seq n k : ids_fresh (seq n k) n (n + k).
Proof.
  split; [apply seq_NoDup|]. split; [|lia]. intros i Hi. apply in_seq in Hi. lia.
Qed.

Lemma ids_fresh_next l n n' :
  NoDup l -> (forall i, In i l -> n <= i)%nat -> next_id l = Some n' -> ids_fresh l n n'.
Proof.
  intros ND GE E. split; auto. split.
  - intros i Hi. split; auto. eapply next_id_gt; eauto.
  - destruct (next_id_in _ _ E) as [i [Hi ->]]. specialize (GE _ Hi). lia.
Qed.

(** ** Variables are made with fresh ids *)

Lemma bid_variables_ids t n :
  exists k, map bv_id (bid_variables t n) = seq n k.
Proof.
  unfold bid_variables. rewrite map_map.
  set (l := sort_rows _ _). exists (length l). rewrite <- (save_index_fst n l).
  apply map_ext. intros [i [[r b] v]]; reflexivity.
Qed.

Lemma inter_variables_ids l n : map iv_id (inter_variables l n) = seq n (length l).
Proof.
  unfold inter_variables. rewrite map_map, <- (save_index_fst n l).
  apply map_ext. intros [i r]; reflexivity.
Qed.

Lemma weight_variables_ids l n : map wv_id (weight_variables l n) = seq n (length l).
Proof.
  unfold weight_variables. rewrite map_map, <- (save_index_fst n l).
  apply map_ext. intros [i r]; reflexivity.
Qed.

Lemma deficit_ids l n :
  map df_id (deficit_variables l n)
  = seq n (length (inequalities l) + length (equalities l) + length (equalities l)).
Proof.
  unfold deficit_variables, deficit_rows. rewrite map_map.
  rewrite !map_app, !map_map, !seq_app, <- app_assoc.
  rewrite <- (save_index_fst n (inequalities l)),
          <- (save_index_fst (n + length (inequalities l)) (equalities l)),
          Nat.add_assoc,
          <- (save_index_fst (n + length (inequalities l) + length (equalities l)) (equalities l)).
  f_equal; [|f_equal]; apply map_ext; intros [i [r c]]; reflexivity.
Qed.

(** Rows about the same link in a table with unique links. *)
Lemma same_link_eq i1 l1 i2 l2 : same_link i1 l1 i2 l2 = true <-> i1 = i2 /\ l1 = l2.
Proof. unfold same_link. rewrite andb_true_iff, !String.eqb_eq. tauto. Qed.

Lemma same_link_sym i1 l1 i2 l2 : same_link i1 l1 i2 l2 = same_link i2 l2 i1 l1.
Proof. unfold same_link. now rewrite (String.eqb_sym i1), (String.eqb_sym l1). Qed.

(** A join with a table of unique keys gives at most one row per left row. *)
Lemma merge_NoDup_fst {A B} (on : A -> B -> bool) l r :
  NoDup l -> (forall a, In a l -> length (filter (on a) r) <= 1)%nat ->
  NoDup (map fst (merge on l r)).
Proof.
  induction l as [|a t IH]; intros ND H; [constructor|].
  unfold merge. cbn [flat_map]. rewrite map_app. apply NoDup_app_iff.
  inversion ND as [|? ? N1 N2]; subst. repeat split.
  - rewrite map_map. cbn [fst]. specialize (H a (or_introl eq_refl)).
    destruct (filter (on a) r) as [|b [|c u]]; cbn in *; try lia; constructor; auto; constructor.
  - apply IH; auto. intros; apply H; now right.
  - intros b Hb Hb2. apply in_map_iff in Hb. destruct Hb as [[b1 b2] [E Hb]]. cbn in E; subst b1.
    apply in_map_iff in Hb. destruct Hb as [c [E Hc]]. inversion E; subst.
    apply in_map_iff in Hb2. destruct Hb2 as [[d1 d2] [E2 Hd]]. cbn in E2; subst d1.
    apply in_merge in Hd. tauto.
Qed.

Lemma filter_unique {A} (same : A -> A -> bool) (p : A -> bool) l :
  ForallOrdPairs (fun a b => same a b = false) l ->
  (forall a b, p a = true -> p b = true -> same a b = true) ->
  (length (filter p l) <= 1)%nat.
Proof.
  intros F H. induction F as [|a l H1 H2 IH]; cbn; [lia|].
  destruct (p a) eqn:E; [|exact IH]. cbn.
  replace (filter p l) with (@nil A); [cbn; lia|].
  symmetry. rewrite Forall_forall in H1. clear -H1 H E.
  induction l as [|b t IHt]; cbn; auto. destruct (p b) eqn:Eb.
  - specialize (H1 b (or_introl eq_refl)).
    rewrite (H a b E Eb) in H1. discriminate.
  - apply IHt. intros; apply H1; now right.
Qed.

(** ** Validation *)

Lemma first_err_none l : first_err l = None <-> forall b e, In (b, e) l -> b = true.
Proof.
  induction l as [|[b e] t IH]; cbn.
  - split; [intros _ b e []|auto].
  - destruct b.
    + rewrite IH. split; intros H b e'; [intros [E|Hi]; [now inversion E|eauto]|]. intros Hi; eapply H; eauto.
    + split; [discriminate|]. intros H. specialize (H false e (or_introl eq_refl)). discriminate.
Qed.

Lemma first_err_in l b e : first_err l = None -> In (b, e) l -> b = true.
Proof. rewrite first_err_none. eauto. Qed.

Lemma all_rows_in {A} (f : A -> bool) l cs a :
  first_err cs = None -> In (all_rows f l) cs -> In a l -> f a = true.
Proof.
  intros H Hin Ha. apply (first_err_in _ _ _ H) in Hin. rewrite forallb_forall in Hin. auto.
Qed.

Lemma no_repeats_in {A} (same : A -> A -> bool) l cs :
  first_err cs = None -> In (no_repeats same l) cs ->
  ForallOrdPairs (fun a b => same a b = false) l.
Proof.
  intros H Hin. apply (first_err_in _ _ _ H) in Hin. apply Nat.eqb_eq in Hin.
  now apply no_repeats_distinct.
Qed.

Lemma check_inter_unique m l : check_inter m l = None ->
  ForallOrdPairs (fun a b => same_link (in_inter a) (in_link a) (in_inter b) (in_link b) = false) l.
Proof.
  unfold check_inter. intros H. apply (no_repeats_in _ _ _ H). cbn. auto 20.
Qed.

Lemma check_losses_unique lf bps : check_losses lf bps = None ->
  ForallOrdPairs (fun a b => same_link (lf_inter a) (lf_link a) (lf_inter b) (lf_link b) = false) lf.
Proof.
  unfold check_losses. intros H. apply (no_repeats_in _ _ _ H). cbn. auto 20.
Qed.

(** Checks only read the configuration. *)
Lemma check_inter_cfg m m' l : m_cfg m = m_cfg m' -> check_inter m l = check_inter m' l.
Proof. intros E. unfold check_inter, is_region. now rewrite E. Qed.
Lemma check_bids_cfg b m m' t : m_cfg m = m_cfg m' -> check_bids b m t = check_bids b m' t.
Proof. intros E. unfold check_bids, is_unit. now rewrite E. Qed.

(** ** Losses *)

Lemma loss_shares_unique lf dirs :
  ForallOrdPairs (fun a b => same_link (lf_inter a) (lf_link a) (lf_inter b) (lf_link b) = false) lf ->
  ForallOrdPairs (fun a b => same_link (in_inter a) (in_link a) (in_inter b) (in_link b) = false) dirs ->
  ForallOrdPairs (fun p q => same_link (lf_inter (fst p)) (lf_link (fst p))
                                       (lf_inter (fst q)) (lf_link (fst q)) = false)
                 (loss_shares lf dirs).
Proof.
  intros F1 F2. unfold loss_shares. apply FOP_map. cbn [fst].
  induction F1 as [|f t H1 H2 IH]; [constructor|].
  unfold merge; cbn [flat_map].
  assert (L : (length (filter (fun d => same_link (lf_inter f) (lf_link f) (in_inter d) (in_link d)) dirs) <= 1)%nat).
  { eapply filter_unique; [exact F2|]. cbn. intros a b Ha Hb.
    apply same_link_eq in Ha, Hb. apply same_link_eq. intuition congruence. }
  destruct (filter _ dirs) as [|d [|d2 u]] eqn:E; cbn [map app length] in *; try lia.
  - exact IH.
  - constructor; [|exact IH]. apply Forall_forall. intros [g d2] Hg. apply in_merge in Hg.
    cbn [fst]. rewrite Forall_forall in H1. apply H1. tauto.
Qed.

Lemma loss_rows_NoDup vs ls n :
  ForallOrdPairs (fun p q => same_link (lf_inter (fst p)) (lf_link (fst p))
                                       (lf_inter (fst q)) (lf_link (fst q)) = false) ls ->
  NoDup (map fst (loss_rows vs ls n)).
Proof.
  intros F. apply merge_NoDup_fst; [apply save_index_NoDup|]. intros [i v] _.
  eapply filter_unique; [exact F|]. cbn. intros a b Ha Hb.
  apply same_link_eq in Ha, Hb. apply same_link_eq. intuition congruence.
Qed.

Lemma loss_variables_ids vs ls n :
  map lv_id (loss_variables vs ls n) = map (fun p => fst (fst p)) (loss_rows vs ls n).
Proof.
  unfold loss_variables. rewrite map_map. apply map_ext. intros [[i v] q]; reflexivity.
Qed.

Lemma loss_variables_fresh vs ls n :
  ForallOrdPairs (fun p q => same_link (lf_inter (fst p)) (lf_link (fst p))
                                       (lf_inter (fst q)) (lf_link (fst q)) = false) ls ->
  NoDup (map lv_id (loss_variables vs ls n))
  /\ (forall i, In i (map lv_id (loss_variables vs ls n)) -> n <= i)%nat.
Proof.
  intros F. rewrite loss_variables_ids. split.
  - rewrite <- (map_map fst fst). apply NoDup_map_in; [|apply loss_rows_NoDup; exact F].
    intros p q Hp Hq E. apply in_map_iff in Hp, Hq. destruct Hp as [a [<- Ha]], Hq as [b [<- Hb]].
    apply in_merge_p in Ha, Hb. eapply save_index_inj; [apply Ha|apply Hb|exact E].
  - intros i Hi. apply in_map_iff in Hi. destruct Hi as [p [<- Hp]]. apply in_merge_p in Hp.
    destruct Hp as [Hp _]. apply in_save_index in Hp. lia.
Qed.

(** Loss variables have different links when the flow variables have. *)
Lemma loss_variables_unique vs ls n :
  ForallOrdPairs (fun a b => same_link (iv_inter a) (iv_link a) (iv_inter b) (iv_link b) = false) vs ->
  ForallOrdPairs (fun p q => same_link (lf_inter (fst p)) (lf_link (fst p))
                                       (lf_inter (fst q)) (lf_link (fst q)) = false) ls ->
  ForallOrdPairs (fun a b => same_link (lv_inter a) (lv_link a) (lv_inter b) (lv_link b) = false)
                 (loss_variables vs ls n).
Proof.
  intros F1 F2. unfold loss_variables, loss_rows. apply FOP_map. revert n.
  induction F1 as [|v t H1 H2 IH]; intros n; [constructor|].
  rewrite save_index_cons. unfold merge; cbn [flat_map].
  assert (L : (length (filter (fun q : lossfn_row * string => same_link (iv_inter (snd (n, v))) (iv_link (snd (n, v)))
       (lf_inter (fst q)) (lf_link (fst q))) ls) <= 1)%nat).
  { eapply filter_unique; [exact F2|]. cbn. intros a b Ha Hb.
    apply same_link_eq in Ha, Hb. apply same_link_eq. intuition congruence. }
  destruct (filter _ ls) as [|q [|q2 u]] eqn:E; cbn [map app length] in *; try lia.
  - apply IH.
  - constructor; [|apply IH]. apply Forall_forall. intros [[j w] q2] Hg. apply in_merge in Hg.
    destruct Hg as [Hg _]. apply in_save_index in Hg. cbn.
    rewrite Forall_forall in H1. apply (H1 w). tauto.
Qed.

Lemma link_ids_fst ws n : map fst (link_ids ws n)
  = seq n (length (drop_duplicates (fun a b => same_link (wv_inter a) (wv_link a) (wv_inter b) (wv_link b)) ws)).
Proof. apply save_index_fst. Qed.

Lemma link_ids_NoDup ws n : NoDup (link_ids ws n).
Proof. apply save_index_NoDup. Qed.

Lemma in_link_ids ws n p : In p (link_ids ws n) -> (n <= fst p)%nat.
Proof. intros H. apply in_save_index in H. lia. Qed.

Lemma sum_rhs_ids ws n : map cr_id (weights_sum_rhs ws n) = map fst (link_ids ws n).
Proof. unfold weights_sum_rhs. rewrite map_map. reflexivity. Qed.

(** Ids of the rows that tie a link's constraint to a variable of the link. *)
Lemma link_join_NoDup {A} (li ll : A -> string) (l : list A) ws n :
  ForallOrdPairs (fun a b => same_link (li a) (ll a) (li b) (ll b) = false) l ->
  NoDup (map (fun p : (nat * weightvar) * A => fst (fst p))
    (merge (fun (p : nat * weightvar) v =>
       same_link (wv_inter (snd p)) (wv_link (snd p)) (li v) (ll v)) (link_ids ws n) l)).
Proof.
  intros F. rewrite <- (map_map fst fst). apply NoDup_map_in.
  - intros p q Hp Hq E. apply in_map_iff in Hp, Hq. destruct Hp as [a [<- Ha]], Hq as [b [<- Hb]].
    apply in_merge_p in Ha, Hb. eapply save_index_inj; [apply Ha|apply Hb|exact E].
  - apply merge_NoDup_fst; [apply link_ids_NoDup|]. intros a _.
    eapply filter_unique; [exact F|]. cbn. intros x y Hx Hy.
    apply same_link_eq in Hx, Hy. apply same_link_eq. intuition congruence.
Qed.

Lemma loss_link_rhs_ids ws lv n : map dy_id (loss_link_rhs ws lv n)
  = map (fun p : (nat * weightvar) * lossvar => fst (fst p))
    (merge (fun (p : nat * weightvar) v =>
       same_link (wv_inter (snd p)) (wv_link (snd p)) (lv_inter v) (lv_link v)) (link_ids ws n) lv).
Proof. unfold loss_link_rhs. rewrite map_map. apply map_ext. intros [[i w] v]; reflexivity. Qed.

Lemma flow_link_rhs_ids ws vs n : map dy_id (flow_link_rhs ws vs n)
  = map (fun p : (nat * weightvar) * intervar => fst (fst p))
    (merge (fun (p : nat * weightvar) v =>
       same_link (wv_inter (snd p)) (wv_link (snd p)) (iv_inter v) (iv_link v)) (link_ids ws n) vs).
Proof. unfold flow_link_rhs. rewrite map_map. apply map_ext. intros [[i w] v]; reflexivity. Qed.

Lemma link_join_ge {A} (on : nat * weightvar -> A -> bool) (l : list A) ws n i :
  In i (map (fun p : (nat * weightvar) * A => fst (fst p)) (merge on (link_ids ws n) l)) -> (n <= i)%nat.
Proof.
  intros H. apply in_map_iff in H. destruct H as [p [<- Hp]]. apply in_merge_p in Hp.
  now apply (in_link_ids ws).
Qed.

Lemma inter_variables_unique l n :
  ForallOrdPairs (fun a b => same_link (in_inter a) (in_link a) (in_inter b) (in_link b) = false) l ->
  ForallOrdPairs (fun a b => same_link (iv_inter a) (iv_link a) (iv_inter b) (iv_link b) = false)
                 (inter_variables l n).
Proof.
  intros F. unfold inter_variables. apply FOP_map. revert n.
  induction F as [|a t H1 H2 IH]; intros n; [constructor|].
  rewrite save_index_cons. constructor; [|apply IH].
  apply Forall_forall. intros [j b] Hb. apply in_save_index in Hb. cbn in *.
  rewrite Forall_forall in H1. apply H1. tauto.
Qed.

(** ** The invariant *)

(** The bid tables are made together. *)
Definition bids_wf (m : market) : Prop :=
  match m_bids m with
  | None => m_reg_bids m = None /\ m_unit_bids m = None
  | Some vs =>
    exists t n, check_bids true m t = None /\ check_bdu m (energy_units t) = None
      /\ vs = bid_variables t n
      /\ m_reg_bids m = Some (bid_regional_map vs (c_ui (m_cfg m)))
      /\ m_unit_bids m = Some (bid_unit_map vs (c_ui (m_cfg m)) (m_bdu m))
  end.

(** The flow variables are made from the interconnector table. *)
Definition inter_wf (m : market) : Prop :=
  match m_directions m with
  | None => m_inter m = None /\ m_reg_inter m = None
  | Some l =>
    check_inter m l = None
    /\ exists n, m_inter m = Some (inter_variables l n) /\ m_reg_inter m = Some (inter_regional_map l n)
  end.

Definition vars_wf (m : market) : Prop :=
  NoDup (var_ids m) /\ (forall i, In i (var_ids m) -> i < m_nv m)%nat.

Definition cons_wf (m : market) : Prop :=
  NoDup (rhs_ids m) /\ (forall n, m_nc m = Some n -> forall i, In i (rhs_ids m) -> i < n)%nat.

Record wf (m : market) : Prop := {
  wf_cfg : check_unit_info (m_cfg m) = None;
  wf_vars : vars_wf m;
  wf_cons : cons_wf m;
  wf_bids : bids_wf m;
  wf_inter : inter_wf m }.

(** States that differ only in fields the invariant does not read. *)
Lemma check_bids_nil_false b m t : check_bids b m t = None -> mem_str "1" (bt_bands t) = true.
Proof.
  unfold check_bids. intros H. apply (first_err_in _ _ EMissingColumn H). cbn. auto.
Qed.

Ltac fields := cbn [m_cfg m_bids m_inter m_loss m_weights m_deficits m_reg_bids m_reg_inter m_reg_loss
  m_unit_bids m_c2v_reg m_c2v_unit m_lhs m_gen_unit m_gen_region m_gen_inter m_rhs m_mrhs m_dyn
  m_obj_bids m_obj_def m_directions m_shares m_nv m_nc
  set_m_bids set_m_inter set_m_loss set_m_weights set_m_deficits set_m_reg_bids set_m_reg_inter
  set_m_reg_loss set_m_unit_bids set_m_c2v_reg set_m_c2v_unit set_m_lhs set_m_gen_unit set_m_gen_region
  set_m_gen_inter set_m_rhs set_m_mrhs set_m_dyn set_m_obj_bids set_m_obj_def set_m_directions
  set_m_shares set_m_nv set_m_nc fst snd raise done].

(** Fresh deficits. *)
Lemma add_deficits_wf k rows m : wf m -> wf (fst (add_deficits k rows m)).
Proof.
  intros [H1 [V1 V2] H3 H4 H5]. unfold add_deficits. destruct rows as [|r t]; [now constructor|].
  set (rows := r :: t).
  assert (A : exists n', (next_id (map df_id (deficit_variables rows (m_nv m))) = Some n'
     \/ (next_id (map df_id (deficit_variables rows (m_nv m))) = None /\ n' = m_nv m))
     /\ ids_fresh (map df_id (deficit_variables rows (m_nv m))) (m_nv m) n').
  { rewrite deficit_ids. set (k0 := (_ + _ + _)%nat). destruct k0.
    - exists (m_nv m). split; [right; split; reflexivity|].
      pose proof (ids_fresh_seq (m_nv m) 0) as F. now rewrite Nat.add_0_r in F.
    - exists (m_nv m + S k0)%nat. rewrite next_id_seq. split; [left; reflexivity|]. apply ids_fresh_seq. }
  destruct A as [n' [A1 A2]].
  assert (B : vars_wf (set_m_nv n' (set_m_deficits (dset (deficit_key k) (deficit_variables rows (m_nv m)) (m_deficits m)) m))).
  { unfold vars_wf, var_ids in *. fields.
    destruct (dconcat_dset (deficit_key k) (deficit_variables rows (m_nv m)) (m_deficits m))
      as [l1 [old [l2 [E1 E2]]]].
    rewrite E1 in V1, V2. rewrite E2. rewrite !map_app in *.
    rewrite !app_assoc in *. rewrite <- !(app_assoc _ _ (map df_id l2)) in *.
    eapply ids_fresh_replace; eauto. }
  destruct A1 as [A1|[A1 ->]]; rewrite A1; fields; constructor; fields; auto.
Qed.

Lemma make_elastic_wf k v m : wf m -> wf (fst (make_elastic k v m)).
Proof.
  intros H. unfold make_elastic. destruct (group_rows k m); [|exact H].
  destruct v.
  - now apply add_deficits_wf.
  - apply guard_fst; [exact H|]. intros _. destruct (has_set_column k); [|exact H].
    now apply add_deficits_wf.
  - destruct l; exact H.
Qed.

Lemma rhs_ids_unit k r c m :
  exists l1 old l2, rhs_ids m = l1 ++ old ++ l2 /\ rhs_ids (put_unit k r c m) = l1 ++ map cr_id r ++ l2.
Proof.
  unfold rhs_ids, put_unit. fields.
  destruct (dconcat_dset k r (m_rhs m)) as [l1 [old [l2 [E1 E2]]]]. rewrite E1, E2.
  exists (map cr_id l1), (map cr_id old),
    (map cr_id l2 ++ map cr_id (dconcat (m_mrhs m)) ++ map dy_id (rows_or_nil (m_dyn m))).
  rewrite !map_app, <- !app_assoc. auto.
Qed.

Lemma rhs_ids_regional k r c m :
  exists l1 old l2, rhs_ids m = l1 ++ old ++ l2 /\ rhs_ids (put_regional k r c m) = l1 ++ map cr_id r ++ l2.
Proof.
  unfold rhs_ids, put_regional. fields.
  destruct (dconcat_dset k r (m_mrhs m)) as [l1 [old [l2 [E1 E2]]]]. rewrite E1, E2.
  exists (map cr_id (dconcat (m_rhs m)) ++ map cr_id l1), (map cr_id old),
    (map cr_id l2 ++ map dy_id (rows_or_nil (m_dyn m))).
  rewrite !map_app, <- !app_assoc. auto.
Qed.

(** A group is replaced by rows with fresh ids. *)
Lemma cons_replace m m' l1 old l2 new :
  cons_wf m -> rhs_ids m = l1 ++ old ++ l2 -> rhs_ids m' = l1 ++ new ++ l2 ->
  match m_nc m with
  | Some n => NoDup new /\ (forall i, In i new -> n <= i)%nat
              /\ (m_nc m' = next_id new \/ (m_nc m' = Some n /\ new = []))
  | None => new = [] /\ m_nc m' = None
  end -> cons_wf m'.
Proof.
  intros [C1 C2] E1 E2 H. unfold cons_wf. rewrite E2. rewrite E1 in C1, C2.
  destruct (m_nc m) as [n|].
  - destruct H as [N1 [N2 N3]]. specialize (C2 n eq_refl).
    split; [eapply NoDup_replace; eauto|].
    intros n' En'. destruct N3 as [N3|[N3 ->]].
    + rewrite N3 in En'. pose proof (ids_fresh_next _ _ _ N1 N2 En') as F.
      apply (ids_fresh_replace l1 old l2 new n n'); auto.
    + rewrite N3 in En'. inversion En'; subst n'.
      intros i Hi. apply C2. rewrite !in_app_iff in *. cbn in Hi. tauto.
  - destruct H as [-> N]. split.
    + cbn. rewrite NoDup_app_iff in *. rewrite NoDup_app_iff in C1.
      destruct C1 as [D1 [[D2 [D3 D4]] D5]]. repeat split; auto.
      intros a Ha Hb. apply (D5 a); auto. apply in_or_app; auto.
    + intros n'. rewrite N. discriminate.
Qed.

Lemma new_unit_group_wf k mr mm m : unit_group_ok mr mm -> wf m -> wf (fst (new_unit_group k mr mm m)).
Proof.
  intros [G1 G2] [H1 H2 H3 H4 H5]. unfold new_unit_group. destruct (m_nc m) as [n|] eqn:En.
  - destruct (rhs_ids_unit k (mr n) (mm n) m) as [l1 [old [l2 [E1 E2]]]].
    destruct (G1 n) as [N1 N2].
    destruct (next_id (map cr_id (mr n))) as [n'|] eqn:E; fields; constructor; auto.
    + eapply cons_replace; [exact H3|exact E1|exact E2|]. rewrite En. repeat split; auto.
    + eapply cons_replace; [exact H3|exact E1|exact E2|]. rewrite En. repeat split; auto.
      apply next_id_none in E. unfold put_unit; fields. auto.
  - destruct (rhs_ids_unit k [] [] m) as [l1 [old [l2 [E1 E2]]]].
    assert (W : wf (put_unit k [] [] m)).
    { constructor; auto. eapply cons_replace; [exact H3|exact E1|exact E2|]. rewrite En. auto. }
    destruct (mr 0%nat); exact W.
Qed.

Lemma new_regional_group_wf k mr mm m :
  regional_group_ok mr mm -> wf m -> wf (fst (new_regional_group k mr mm m)).
Proof.
  intros [G1 G2] [H1 H2 H3 H4 H5]. unfold new_regional_group. destruct (m_nc m) as [n|] eqn:En.
  - destruct (rhs_ids_regional k (mr n) (mm n) m) as [l1 [old [l2 [E1 E2]]]].
    destruct (G1 n) as [N1 N2].
    destruct (next_id (map cr_id (mr n))) as [n'|] eqn:E; fields; constructor; auto.
    + eapply cons_replace; [exact H3|exact E1|exact E2|]. rewrite En. repeat split; auto.
    + eapply cons_replace; [exact H3|exact E1|exact E2|]. rewrite En. repeat split; auto.
      apply next_id_none in E. unfold put_regional; fields. auto.
  - destruct (rhs_ids_regional k [] [] m) as [l1 [old [l2 [E1 E2]]]].
    assert (W : wf (put_regional k [] [] m)).
    { constructor; auto. eapply cons_replace; [exact H3|exact E1|exact E2|]. rewrite En. auto. }
    destruct (mr 0%nat); exact W.
Qed.

Lemma set_volume_bids_wf t m : wf m -> wf (fst (set_volume_bids t m)).
Proof.
  intros H. unfold set_volume_bids. apply guard_fst; [exact H|]. intros C1.
  apply guard_fst; [exact H|]. intros C2. destruct H as [H1 [V1 V2] H3 H4 H5].
  destruct (bid_variables_ids t (m_nv m)) as [k Ek].
  assert (A : exists n', (next_id (map bv_id (bid_variables t (m_nv m))) = Some n'
     \/ (next_id (map bv_id (bid_variables t (m_nv m))) = None /\ n' = m_nv m))
     /\ ids_fresh (map bv_id (bid_variables t (m_nv m))) (m_nv m) n').
  { rewrite Ek. destruct k.
    - exists (m_nv m). split; [right; split; reflexivity|].
      pose proof (ids_fresh_seq (m_nv m) 0) as F. now rewrite Nat.add_0_r in F.
    - exists (m_nv m + S k)%nat. rewrite next_id_seq. split; [left; reflexivity|]. apply ids_fresh_seq. }
  destruct A as [n' [A1 A2]].
  assert (B : vars_wf (set_m_nv n' (set_m_bids (Some (bid_variables t (m_nv m))) m))).
  { unfold vars_wf, var_ids in *. fields. cbn [rows_or_nil].
    rewrite <- (app_nil_l (map bv_id (bid_variables t (m_nv m)) ++ _)).
    apply (ids_fresh_replace [] (map bv_id (rows_or_nil (m_bids m))) _ _ (m_nv m) n'); auto. }
  fields. destruct A1 as [A1|[A1 ->]]; rewrite A1; fields; constructor; fields; auto;
    exists t, (m_nv m); fields; repeat split; auto.
Qed.

Lemma set_price_bids_wf t m : wf m -> wf (fst (set_price_bids t m)).
Proof.
  intros H. unfold set_price_bids. destruct (m_bids m) eqn:E; [|exact H].
  apply guard_fst; [exact H|]. intros _. apply guard_fst; [exact H|]. intros _.
  destruct H as [H1 H2 H3 H4 H5]. fields. constructor; fields; auto.
Qed.

Lemma remove_fast_start_wf m : wf m -> wf (fst (remove_fast_start m)).
Proof.
  intros H. unfold remove_fast_start. fields.
  assert (A : wf (if dhas "fast_start" (m_rhs m)
           then set_m_c2v_unit (ddel "fast_start" (m_c2v_unit m))
                  (set_m_rhs (ddel "fast_start" (m_rhs m)) m)
           else m)).
  { destruct (dhas "fast_start" (m_rhs m)); [|exact H]. destruct H as [H1 H2 [C1 C2] H4 H5].
    constructor; fields; auto. unfold cons_wf, rhs_ids in *. fields.
    destruct (dconcat_ddel "fast_start" (m_rhs m)) as [l1 [old [l2 [E1 E2]]]]. rewrite E1 in *. rewrite E2.
    rewrite !map_app in *. split.
    - rewrite <- !app_assoc in *. now apply NoDup_drop_mid in C1.
    - intros n En i Hi. apply (C2 n En). rewrite !in_app_iff in *. tauto. }
  set (m1 := if dhas "fast_start" (m_rhs m) then _ else m) in *. clearbody m1. clear m H.
  destruct (dhas "fast_start_deficit" (m_deficits m1)); [|exact A].
  destruct A as [H1 [V1 V2] H3 H4 H5]. constructor; fields; auto.
  unfold vars_wf, var_ids in *. fields.
  destruct (dconcat_ddel "fast_start_deficit" (m_deficits m1)) as [l1 [old [l2 [E1 E2]]]].
  rewrite E1 in *. rewrite E2. rewrite !map_app in *. split.
  - rewrite !app_assoc in *. rewrite <- (app_assoc _ (map df_id old)) in V1.
    now apply NoDup_drop_mid in V1.
  - intros i Hi. apply V2. rewrite !in_app_iff in *. tauto.
Qed.

Lemma set_interconnectors_wf l m : wf m -> wf (fst (set_interconnectors l m)).
Proof.
  intros H. unfold set_interconnectors. apply guard_fst; [exact H|]. intros C.
  destruct H as [H1 [V1 V2] H3 H4 H5].
  assert (A : exists n', (next_id (map iv_id (inter_variables l (m_nv m))) = Some n'
     \/ (next_id (map iv_id (inter_variables l (m_nv m))) = None /\ n' = m_nv m))
     /\ ids_fresh (map iv_id (inter_variables l (m_nv m))) (m_nv m) n').
  { rewrite inter_variables_ids. destruct (length l) as [|k].
    - exists (m_nv m). split; [right; split; reflexivity|].
      pose proof (ids_fresh_seq (m_nv m) 0) as F. now rewrite Nat.add_0_r in F.
    - exists (m_nv m + S k)%nat. rewrite next_id_seq. split; [left; reflexivity|]. apply ids_fresh_seq. }
  destruct A as [n' [A1 A2]].
  assert (B : vars_wf (set_m_nv n' (set_m_inter (Some (inter_variables l (m_nv m))) m))).
  { unfold vars_wf, var_ids in *. fields. cbn [rows_or_nil].
    eapply ids_fresh_replace with (old := map iv_id (rows_or_nil (m_inter m))); eauto. }
  fields. destruct A1 as [A1|[A1 ->]]; rewrite A1; fields; constructor; fields; auto;
    unfold inter_wf; fields; split; auto; exists (m_nv m); auto.
Qed.

Lemma put_generic_wf l m : wf m -> wf (put_generic l m).
Proof.
  intros [H1 H2 H3 H4 H5]. unfold put_generic. destruct (m_nc m) as [n|] eqn:En.
  - constructor; fields; auto.
    destruct (rhs_ids_unit "generic" (generic_rhs l n) [] m) as [l1 [old [l2 [E1 E2]]]].
    eapply cons_replace; [exact H3|exact E1|exact E2|]. rewrite En. fields.
    rewrite generic_rhs_ids. split; [apply seq_NoDup|]. split; [|left; reflexivity].
    intros i Hi. apply in_seq in Hi. lia.
  - constructor; fields; auto.
    destruct (rhs_ids_unit "generic" [] [] m) as [l1 [old [l2 [E1 E2]]]].
    eapply cons_replace; [exact H3|exact E1|exact E2|]. rewrite En. auto.
Qed.

Lemma put_tie_wf pairs m : wf m -> wf (put_tie pairs m).
Proof.
  intros [H1 H2 H3 H4 H5]. unfold put_tie. destruct (m_nc m) as [n|] eqn:En.
  - constructor; fields; auto.
    destruct (rhs_ids_unit "tie_break" (tie_rhs pairs n) [] m) as [l1 [old [l2 [E1 E2]]]].
    eapply cons_replace; [exact H3|exact E1|exact E2|]. rewrite En. fields.
    rewrite tie_rhs_ids. split; [apply seq_NoDup|]. split; [|left; reflexivity].
    intros i Hi. apply in_seq in Hi. lia.
  - constructor; fields; auto.
    destruct (rhs_ids_unit "tie_break" [] [] m) as [l1 [old [l2 [E1 E2]]]].
    eapply cons_replace; [exact H3|exact E1|exact E2|]. rewrite En. auto.
Qed.

(** ** set_interconnector_losses *)

(** Everything the call makes. *)
Record loss_parts := LossParts {
  lp_dirs : list inter_row; lp_vs : list intervar; lp_im : list irow;
  lp_ls : list (lossfn_row * string); lp_lv : list lossvar; lp_ws : list weightvar;
  lp_nv : nat; lp_n0 : nat; lp_n1 : nat; lp_n2 : nat }.

Definition lp_sum_rhs (p : loss_parts) : list crow := weights_sum_rhs (lp_ws p) (lp_n0 p).
Definition lp_lhs (p : loss_parts) : list lrow :=
  weights_sum_lhs (lp_ws p) (lp_n0 p) ++ flow_link_lhs (lp_ws p) (lp_n2 p)
  ++ loss_link_lhs (lp_ws p) (lp_ls p) (lp_n1 p).
Definition lp_dyn (p : loss_parts) : list dynrow :=
  flow_link_rhs (lp_ws p) (lp_vs p) (lp_n2 p) ++ loss_link_rhs (lp_ws p) (lp_lv p) (lp_n1 p).

Definition loss_parts_ok (lf : list lossfn_row) (bps : list bp_row) (m : market) (p : loss_parts) : Prop :=
  check_losses lf bps = None
  /\ m_directions m = Some (lp_dirs p) /\ m_inter m = Some (lp_vs p) /\ m_reg_inter m = Some (lp_im p)
  /\ lp_ls p = loss_shares lf (lp_dirs p)
  /\ lp_lv p = loss_variables (lp_vs p) (lp_ls p) (m_nv m)
  /\ next_id (map lv_id (lp_lv p)) = Some (lp_nv p)
  /\ lp_ws p = weight_variables bps (lp_nv p)
  /\ lp_n0 p = match m_nc m with Some n => n | None => 0%nat end
  /\ next_id (map cr_id (lp_sum_rhs p)) = Some (lp_n1 p)
  /\ loss_link_lhs (lp_ws p) (lp_ls p) (lp_n1 p) <> []
  /\ next_id (map dy_id (loss_link_rhs (lp_ws p) (lp_lv p) (lp_n1 p))) = Some (lp_n2 p).

Definition put_losses (lf : list lossfn_row) (p : loss_parts) (m : market) : market :=
  let live := match m_nc m with Some _ => true | None => false end in
  Market (m_cfg m) (m_bids m) (m_inter m) (Some (lp_lv p)) (Some (lp_ws p)) (m_deficits m)
    (m_reg_bids m) (m_reg_inter m)
    (Some (loss_regional_map (lp_vs p) (lp_im p) (lp_ls p) (m_nv m))) (m_unit_bids m)
    (m_c2v_reg m) (m_c2v_unit m)
    (dset "interconnector_losses" (if live then lp_lhs p else []) (m_lhs m))
    (m_gen_unit m) (m_gen_region m) (m_gen_inter m)
    (dset "interpolation_weights" (if live then lp_sum_rhs p else []) (m_rhs m))
    (m_mrhs m) (Some (if live then lp_dyn p else [])) (m_obj_bids m) (m_obj_def m) (m_directions m)
    (Some lf)
    (S (list_max (map lv_id (lp_lv p) ++ map wv_id (lp_ws p))))
    (if live then Some (S (list_max (map cr_id (lp_sum_rhs p) ++ map dy_id (lp_dyn p)))) else m_nc m).

Lemma market_eta m : m = Market (m_cfg m) (m_bids m) (m_inter m) (m_loss m) (m_weights m) (m_deficits m) (m_reg_bids m) (m_reg_inter m) (m_reg_loss m) (m_unit_bids m) (m_c2v_reg m) (m_c2v_unit m) (m_lhs m) (m_gen_unit m) (m_gen_region m) (m_gen_inter m) (m_rhs m) (m_mrhs m) (m_dyn m) (m_obj_bids m) (m_obj_def m) (m_directions m) (m_shares m) (m_nv m) (m_nc m).
Proof. now destruct m. Qed.

Lemma set_losses_cases lf bps m :
  (exists e, set_losses lf bps m = (m, Some e))
  \/ (exists e, set_losses lf bps m = (set_m_shares (Some lf) m, Some e))
  \/ exists p, loss_parts_ok lf bps m p /\ set_losses lf bps m = (put_losses lf p m, None).
Proof.
  unfold set_losses. unfold guard, raise. destruct (check_losses lf bps) as [e|] eqn:EC.
  { left. eauto. }
  right. fields.
  destruct (m_directions m) as [dirs|] eqn:ED; [|left; eexists; reflexivity].
  destruct (m_inter m) as [vs|] eqn:EI; [|left; eexists; reflexivity].
  destruct (m_reg_inter m) as [im|] eqn:ER; [|left; eexists; reflexivity].
  destruct (next_id (map lv_id _)) as [nv|] eqn:E1; [|left; eexists; reflexivity].
  destruct (next_id (map cr_id _)) as [n1|] eqn:E2; [|left; eexists; reflexivity].
  destruct (loss_link_lhs _ _ n1) as [|r0 rs] eqn:E3; [left; eexists; reflexivity|].
  destruct (next_id (map dy_id _)) as [n2|] eqn:E4; [|left; eexists; reflexivity].
  right.
  exists (LossParts dirs vs im (loss_shares lf dirs)
    (loss_variables vs (loss_shares lf dirs) (m_nv m)) (weight_variables bps nv) nv
    (match m_nc m with Some n => n | None => 0%nat end) n1 n2).
  split.
  - unfold loss_parts_ok, lp_sum_rhs, lp_dyn. cbn [lp_dirs lp_vs lp_im lp_ls lp_lv lp_ws lp_nv lp_n0 lp_n1 lp_n2].
    repeat split; auto. rewrite E3. congruence.
  - rewrite <- E3. unfold put_losses, lp_lhs, lp_dyn, lp_sum_rhs.
    cbn [lp_dirs lp_vs lp_im lp_ls lp_lv lp_ws lp_nv lp_n0 lp_n1 lp_n2].
    unfold done. destruct (m_nc m) eqn:En;
      match goal with |- (?a, None) = _ => rewrite (market_eta a) end;
      fields; rewrite ?ED, ?EI, ?ER, ?En; reflexivity.
Qed.

Lemma loss_parts_unique lf bps m p :
  wf m -> loss_parts_ok lf bps m p ->
  ForallOrdPairs (fun a b => same_link (iv_inter a) (iv_link a) (iv_inter b) (iv_link b) = false) (lp_vs p)
  /\ ForallOrdPairs (fun a b => same_link (lv_inter a) (lv_link a) (lv_inter b) (lv_link b) = false) (lp_lv p)
  /\ ForallOrdPairs (fun p q => same_link (lf_inter (fst p)) (lf_link (fst p))
                                       (lf_inter (fst q)) (lf_link (fst q)) = false) (lp_ls p).
Proof.
  intros [_ _ _ _ H5] [C [ED [EI [ER [Els [Elv _]]]]]].
  unfold inter_wf in H5. rewrite ED in H5. destruct H5 as [CI [n [EI2 ER2]]].
  rewrite EI in EI2. inversion EI2 as [Evs].
  assert (U1 := check_inter_unique _ _ CI).
  assert (U2 := check_losses_unique _ _ C).
  assert (U3 := loss_shares_unique _ _ U2 U1).
  assert (U4 := inter_variables_unique _ n U1).
  rewrite Elv, Els. rewrite Evs. repeat split; auto.
  now apply loss_variables_unique.
Qed.

Lemma seq_fresh_next n k n' : next_id (seq n k) = Some n' -> n' = (n + k)%nat /\ k <> 0%nat.
Proof.
  destruct k; [discriminate|]. rewrite next_id_seq. intros E; inversion E. auto.
Qed.

(** The dynamic rows' ids lie above the weight rows' ids and are distinct. *)
Lemma lp_dyn_ids lf bps m p : wf m -> loss_parts_ok lf bps m p ->
  NoDup (map dy_id (lp_dyn p)) /\ (forall i, In i (map dy_id (lp_dyn p)) -> lp_n1 p <= i)%nat
  /\ map dy_id (lp_dyn p) <> [].
Proof.
  intros W Hp. destruct (loss_parts_unique lf bps m p W Hp) as [U1 [U2 U3]].
  destruct Hp as [C [ED [EI [ER [Els [Elv [Env [Ews [En0 [En1 [Enn En2]]]]]]]]]]].
  assert (Ge : (forall i, In i (map dy_id (loss_link_rhs (lp_ws p) (lp_lv p) (lp_n1 p))) -> lp_n1 p <= i)%nat).
  { intros i. rewrite loss_link_rhs_ids. apply link_join_ge. }
  assert (Gf : (forall i, In i (map dy_id (flow_link_rhs (lp_ws p) (lp_vs p) (lp_n2 p))) -> lp_n2 p <= i)%nat).
  { intros i. rewrite flow_link_rhs_ids. apply link_join_ge. }
  unfold lp_dyn. rewrite map_app. repeat split.
  - apply NoDup_app_iff. repeat split.
    + rewrite flow_link_rhs_ids. apply (link_join_NoDup iv_inter iv_link). exact U1.
    + rewrite loss_link_rhs_ids. apply (link_join_NoDup lv_inter lv_link). exact U2.
    + intros a Ha Hb. apply Gf in Ha. pose proof (next_id_gt _ _ _ En2 Hb). lia.
  - intros i Hi. apply in_app_or in Hi. destruct Hi as [Hi|Hi]; [|auto].
    apply Gf in Hi. destruct (next_id_in _ _ En2) as [j [Hj Ej]]. apply Ge in Hj. lia.
  - destruct (next_id_in _ _ En2) as [j [Hj _]]. intros E.
    apply app_eq_nil in E. destruct E as [_ E]. rewrite E in Hj. destruct Hj.
Qed.

Lemma put_losses_vars lf bps m p : wf m -> loss_parts_ok lf bps m p -> vars_wf (put_losses lf p m).
Proof.
  intros W Hp. destruct (loss_parts_unique lf bps m p W Hp) as [U1 [U2 U3]].
  destruct Hp as [C [ED [EI [ER [Els [Elv [Env [Ews [En0 [En1 [Enn En2]]]]]]]]]]].
  destruct (wf_vars m W) as [V1 V2].
  destruct (loss_variables_fresh (lp_vs p) (lp_ls p) (m_nv m)) as [F1 F2]; [exact U3|].
  rewrite <- Elv in F1, F2.
  pose proof (ids_fresh_next _ _ _ F1 F2 Env) as F.
  unfold vars_wf, var_ids, put_losses in *. fields. cbn [rows_or_nil].
  destruct (ids_fresh_replace (map bv_id (rows_or_nil (m_bids m)) ++ map iv_id (rows_or_nil (m_inter m)))
     (map lv_id (rows_or_nil (m_loss m)))
     (map wv_id (rows_or_nil (m_weights m)) ++ map df_id (dconcat (m_deficits m)))
     (map lv_id (lp_lv p)) (m_nv m) (lp_nv p)) as [A1 A2]; rewrite <- ?app_assoc; auto.
  assert (FW : ids_fresh (map wv_id (lp_ws p)) (lp_nv p) (lp_nv p + length bps)).
  { rewrite Ews, weight_variables_ids. apply ids_fresh_seq. }
  destruct (ids_fresh_replace
     (map bv_id (rows_or_nil (m_bids m)) ++ map iv_id (rows_or_nil (m_inter m)) ++ map lv_id (lp_lv p))
     (map wv_id (rows_or_nil (m_weights m))) (map df_id (dconcat (m_deficits m)))
     (map wv_id (lp_ws p)) (lp_nv p) (lp_nv p + length bps)) as [B1 B2]; auto.
  { rewrite <- !app_assoc in *. exact A1. }
  { rewrite <- !app_assoc in *. exact A2. }
  rewrite <- !app_assoc in B1, B2. split; [exact B1|].
  intros i Hi. apply B2 in Hi as Hlt.
  (* the new bound is the number of ids used *)
  assert (Hm : (lp_nv p + length bps <= S (list_max (map lv_id (lp_lv p) ++ map wv_id (lp_ws p))))%nat).
  { destruct (next_id_in _ _ Env) as [j [Hj Ej]].
    destruct bps as [|b t].
    - cbn [length]. assert (j <= list_max (map lv_id (lp_lv p) ++ map wv_id (lp_ws p)))%nat
        by (apply list_max_ge, in_or_app; auto). lia.
    - assert (Hw : In (lp_nv p + length t)%nat (map wv_id (lp_ws p))).
      { rewrite Ews, weight_variables_ids. apply in_seq. cbn [length]. lia. }
      assert (lp_nv p + length t <= list_max (map lv_id (lp_lv p) ++ map wv_id (lp_ws p)))%nat
        by (apply list_max_ge, in_or_app; auto). cbn [length]. lia. }
  lia.
Qed.

Lemma put_losses_cons lf bps m p : wf m -> loss_parts_ok lf bps m p -> cons_wf (put_losses lf p m).
Proof.
  intros W Hp. destruct (lp_dyn_ids lf bps m p W Hp) as [D1 [D2 D3]].
  destruct Hp as [C [ED [EI [ER [Els [Elv [Env [Ews [En0 [En1 [Enn En2]]]]]]]]]]].
  destruct (wf_cons m W) as [C1 C2].
  unfold cons_wf, rhs_ids, put_losses in *. fields. cbn [rows_or_nil].
  destruct (m_nc m) as [n|].
  - specialize (C2 _ eq_refl).
    destruct (dconcat_dset "interpolation_weights" (lp_sum_rhs p) (m_rhs m)) as [l1 [old [l2 [E1 E2]]]].
    rewrite E2. rewrite E1 in C1, C2. rewrite !map_app in *. rewrite <- !app_assoc in *.
    assert (S0 : ids_fresh (map cr_id (lp_sum_rhs p)) n (lp_n1 p)).
    { apply ids_fresh_next; auto; unfold lp_sum_rhs; rewrite sum_rhs_ids, En0.
      - rewrite link_ids_fst. apply seq_NoDup.
      - intros i Hi. apply in_map_iff in Hi. destruct Hi as [q [<- Hq]]. now apply in_link_ids in Hq. }
    destruct (ids_fresh_replace _ _ _ _ _ _ C1 C2 S0) as [A1 A2].
    set (nn := S (list_max (map cr_id (lp_sum_rhs p) ++ map dy_id (lp_dyn p)))).
    assert (Hd : forall i, In i (map dy_id (lp_dyn p)) -> (lp_n1 p <= i < nn)%nat).
    { intros i Hi. split; auto.
      assert (i <= list_max (map cr_id (lp_sum_rhs p) ++ map dy_id (lp_dyn p)))%nat
        by (apply list_max_ge, in_or_app; auto). unfold nn. lia. }
    assert (Fd : ids_fresh (map dy_id (lp_dyn p)) (lp_n1 p) nn).
    { split; [exact D1|]. split; [exact Hd|].
      destruct (map dy_id (lp_dyn p)) as [|i t] eqn:E; [congruence|].
      specialize (Hd i (or_introl eq_refl)). lia. }
    destruct (ids_fresh_replace
       (map cr_id l1 ++ map cr_id (lp_sum_rhs p) ++ map cr_id l2 ++ map cr_id (dconcat (m_mrhs m)))
       (map dy_id (rows_or_nil (m_dyn m))) [] (map dy_id (lp_dyn p)) (lp_n1 p) nn) as [B1 B2]; auto.
    { rewrite app_nil_r, <- !app_assoc. exact A1. }
    { rewrite app_nil_r, <- !app_assoc. exact A2. }
    rewrite app_nil_r, <- !app_assoc in B1, B2. split; [exact B1|].
    intros n' E. inversion E. exact B2.
  - split; [|discriminate].
    destruct (dconcat_dset "interpolation_weights" (@nil crow) (m_rhs m)) as [l1 [old [l2 [E1 E2]]]].
    rewrite E2. rewrite E1 in C1. cbn [map]. rewrite app_nil_r. cbn [app] in *.
    rewrite !map_app in *. rewrite <- !app_assoc in *.
    rewrite !NoDup_app_iff in C1. rewrite !NoDup_app_iff.
    destruct C1 as [N1 [[N2 [[N3 [[N4 [N5 N6]] N7]] N8]] N9]].
    repeat split; auto.
    + intros a Ha Hb. apply (N7 a); auto. rewrite in_app_iff. auto.
    + intros a Ha Hb. apply (N9 a); auto. rewrite !in_app_iff in *. tauto.
Qed.

Lemma set_losses_wf lf bps m : wf m -> wf (fst (set_losses lf bps m)).
Proof.
  intros W. destruct (set_losses_cases lf bps m) as [[e E]|[[e E]|[p [Hp E]]]]; rewrite E; fields.
  - exact W.
  - destruct W; constructor; auto.
  - destruct W as [H1 H2 H3 H4 H5] eqn:EW.
    constructor; auto.
    + now apply (put_losses_vars lf bps).
    + now apply (put_losses_cons lf bps).
Qed.

(** ** Every reachable market is well formed *)

Lemma step_wf o m : wf m -> wf (fst (step o m)).
Proof.
  intros W. apply (step_preserves wf (fun _ => True)) with (ok := fun _ _ => True); auto.
  - apply set_volume_bids_wf.
  - apply set_price_bids_wf.
  - intros; now apply new_unit_group_wf.
  - intros; now apply new_regional_group_wf.
  - intros; now apply make_elastic_wf.
  - intros; now apply remove_fast_start_wf.
  - intros; now apply set_interconnectors_wf.
  - intros l m0 [H1 H2 H3 H4 H5]; constructor; auto.
  - intros l m0 [H1 H2 H3 H4 H5]; constructor; auto.
  - intros l m0 [H1 H2 H3 H4 H5]; constructor; auto.
  - intros; now apply put_tie_wf.
  - intros; now apply set_losses_wf.
  - intros; now apply put_generic_wf.
Qed.

Lemma empty_market_wf c : check_unit_info c = None -> wf (empty_market c).
Proof.
  intros H. constructor; auto.
  - split; [constructor|]. intros i [].
  - split; [constructor|]. intros n _ i [].
  - split; reflexivity.
  - split; reflexivity.
Qed.

Lemma run_wf c m0 ops : new_market c = Ok m0 -> wf (run ops m0).
Proof.
  unfold new_market. destruct (check_unit_info c) eqn:E; [discriminate|]. intros H; inversion H; subst.
  apply run_preserves; [intros; now apply step_wf|]. now apply empty_market_wf.
Qed.

Lemma run_cfg_new c m0 ops : new_market c = Ok m0 -> m_cfg (run ops m0) = c.
Proof.
  intros H. rewrite run_cfg. unfold new_market in H. destruct (check_unit_info c); [discriminate|].
  now inversion H.
Qed.

(** ** C01, C02 *)

Lemma run_variable_ids c m0 ops :
  new_market c = Ok m0 ->
  NoDup (variable_ids (run ops m0))
  /\ forall i, In i (variable_ids (run ops m0)) -> (i < m_nv (run ops m0))%nat.
Proof. intros H. exact (wf_vars _ (run_wf c m0 ops H)). Qed.

Definition has_nc (m : market) : Prop := exists n, m_nc m = Some n.

Lemma step_has_nc o m :
  (forall l v, o = OpGeneric l v -> l <> []) -> has_nc m -> has_nc (fst (step o m)).
Proof.
  intros Ho H.
  apply (step_preserves has_nc (fun _ => True))
    with (ok := fun o _ => forall l v, o = OpGeneric l v -> l <> []); auto; unfold has_nc.
  - intros t m0 [n E]. exists n. unfold set_volume_bids, guard.
    destruct (check_bids true m0 t); [exact E|]. destruct (check_bdu _ _); [exact E|].
    destruct (next_id _); exact E.
  - intros t m0 [n E]. exists n. unfold set_price_bids, guard.
    destruct (m_bids m0); [|exact E]. destruct (check_bids false m0 t); [exact E|].
    destruct (check_bdu _ _); exact E.
  - intros k mr mm m0 _ _ _ [n E]. unfold new_unit_group. rewrite E.
    destruct (next_id _) as [n'|]; fields; eauto.
  - intros k mr mm m0 _ _ _ [n E]. unfold new_regional_group. rewrite E.
    destruct (next_id _) as [n'|]; fields; eauto.
  - intros k v m0 _ [n E]. exists n. unfold make_elastic. destruct (group_rows k m0); [|exact E].
    assert (A : forall rows m1, m_nc m1 = Some n -> m_nc (fst (add_deficits k rows m1)) = Some n).
    { intros rows m1 H1. unfold add_deficits. destruct rows; [exact H1|]. destruct (next_id _); exact H1. }
    destruct v; auto.
    + apply guard_fst; [exact E|]. intros _. destruct (has_set_column k); auto.
    + destruct l; exact E.
  - intros m0 _ [n E]. exists n. unfold remove_fast_start. fields.
    destruct (dhas "fast_start" (m_rhs m0)); fields;
      match goal with |- context[dhas "fast_start_deficit" ?d] => destruct (dhas "fast_start_deficit" d) end; exact E.
  - intros l m0 [n E]. exists n. unfold set_interconnectors, guard.
    destruct (check_inter m0 l); [exact E|]. destruct (next_id _); exact E.
  - intros pairs m0 _ Hp [n E]. unfold put_tie. rewrite E. fields. rewrite tie_rhs_ids.
    destruct pairs as [|q t]; [congruence|]. cbn [length]. rewrite next_id_seq. eauto.
  - intros lf bps m0 _ _ [n E]. destruct (set_losses_cases lf bps m0) as [[e X]|[[e X]|[p [Hp X]]]]; rewrite X; fields; eauto.
    unfold put_losses. rewrite E. fields. eauto.
  - intros l v m0 _ Hl [n E]. unfold put_generic. rewrite E. fields. rewrite generic_rhs_ids.
    specialize (Hl l v eq_refl). destruct l as [|q t]; [congruence|]. cbn [length]. rewrite next_id_seq. eauto.
Qed.

Lemma run_constraint_ids c m0 ops :
  new_market c = Ok m0 -> no_empty_generic ops ->
  NoDup (constraint_ids (run ops m0))
  /\ exists n, m_nc (run ops m0) = Some n
       /\ forall i, In i (constraint_ids (run ops m0)) -> (i < n)%nat.
Proof.
  intros H Hops. destruct (wf_cons _ (run_wf c m0 ops H)) as [C1 C2]. split; [exact C1|].
  assert (N : has_nc (run ops m0)).
  { apply (run_preserves has_nc).
    - intros o m Ho Hm. apply step_has_nc; [|exact Hm]. intros l v ->. now apply (Hops l v).
    - unfold new_market in H. destruct (check_unit_info c); [discriminate|]. inversion H. eexists. reflexivity. }
  destruct N as [n E]. exists n. split; [exact E|]. intros i Hi. now apply (C2 n E).
Qed.
