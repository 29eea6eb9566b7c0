(** Every constraint id of a market belongs to one constraint group: rows of
    other groups never mention it.  Holds for histories that do not call
    set_generic_constraints with an empty table and do not give break points for
    links that do not exist. *)

From Coq Require Import QArith String List Bool Arith Lia ZArith.
Import ListNotations.
From Verif Require Import PandasModel TablesModel VariableIdsModel MarketConstraintsModel
  UnitConstraintsModel RampModel FcasModel InterModel ElasticModel MarketModel SolverModel
  PandasFacts StepFacts InvariantFacts SpecHistory.
Open Scope string_scope.
Open Scope list_scope.

Inductive grp : Type := GRhs (k : string) | GMkt (k : string) | GDyn.

(** Whose ids a fully defined left-hand side may mention. *)
Definition lhs_owner (key : string) (g : grp) : Prop :=
  (exists k, key = deficit_key k /\ (g = GRhs k \/ g = GMkt k))
  \/ (key = "tie_break" /\ g = GRhs "tie_break")
  \/ (key = "interconnector_losses" /\ (g = GRhs "interpolation_weights" \/ g = GDyn)).

Record own (f : nat -> grp) (n : nat) (m : market) : Prop := {
  ow_nc : m_nc m = Some n;
  ow_rhs : forall k l r, In (k, l) (m_rhs m) -> In r l -> f (cr_id r) = GRhs k /\ (cr_id r < n)%nat;
  ow_mrhs : forall k l r, In (k, l) (m_mrhs m) -> In r l -> f (cr_id r) = GMkt k /\ (cr_id r < n)%nat;
  ow_dyn : forall d, In d (rows_or_nil (m_dyn m)) -> f (dy_id d) = GDyn /\ (dy_id d < n)%nat;
  ow_unit : forall k l c, In (k, l) (m_c2v_unit m) -> In c l -> f (uc_con c) = GRhs k /\ (uc_con c < n)%nat;
  ow_reg : forall k l c, In (k, l) (m_c2v_reg m) -> In c l -> f (rc_con c) = GMkt k /\ (rc_con c < n)%nat;
  ow_lhs : forall k l r, In (k, l) (m_lhs m) -> In r l -> lhs_owner k (f (l_con r)) /\ (l_con r < n)%nat;
  ow_keys : NoDup (dkeys (m_rhs m)) /\ NoDup (dkeys (m_mrhs m)) /\ NoDup (dkeys (m_c2v_unit m))
            /\ NoDup (dkeys (m_c2v_reg m)) /\ NoDup (dkeys (m_lhs m)) }.

Definition owned (m : market) : Prop := wf m /\ exists f n, own f n m.

(** Ids below n keep their owner, new ids get the owner g. *)
Definition extend (f : nat -> grp) (n : nat) (g : nat -> grp) : nat -> grp :=
  fun i => if (i <? n)%nat then f i else g i.

Lemma extend_old f n g i : (i < n)%nat -> extend f n g i = f i.
Proof. intros H. unfold extend. now rewrite (proj2 (Nat.ltb_lt i n) H). Qed.
Lemma extend_new f n g i : (n <= i)%nat -> extend f n g i = g i.
Proof. intros H. unfold extend. now rewrite (proj2 (Nat.ltb_ge i n) H). Qed.

Lemma own_extend f n g m : own f n m -> own (extend f n g) n m.
Proof.
  intros [A B C D E F G H]. constructor; auto; intros.
  - destruct (B k l r) as [X Y]; auto. now rewrite extend_old.
  - destruct (C k l r) as [X Y]; auto. now rewrite extend_old.
  - destruct (D d) as [X Y]; auto. now rewrite extend_old.
  - destruct (E k l c) as [X Y]; auto. now rewrite extend_old.
  - destruct (F k l c) as [X Y]; auto. now rewrite extend_old.
  - destruct (G k l r) as [X Y]; auto. now rewrite extend_old.
Qed.

(** Raising the next id. *)
Lemma own_nc f n n' m : (n <= n')%nat -> own f n m -> own f n' (set_m_nc (Some n') m).
Proof.
  intros Hn [A B C D E F G H]. constructor; fields; auto; intros.
  - destruct (B k l r) as [X Y]; auto. split; [auto|lia].
  - destruct (C k l r) as [X Y]; auto. split; [auto|lia].
  - destruct (D d) as [X Y]; auto. split; [auto|lia].
  - destruct (E k l c) as [X Y]; auto. split; [auto|lia].
  - destruct (F k l c) as [X Y]; auto. split; [auto|lia].
  - destruct (G k l r) as [X Y]; auto. split; [auto|lia].
Qed.

Lemma own_set_rhs f n k l m :
  (forall r, In r l -> f (cr_id r) = GRhs k /\ (cr_id r < n)%nat) ->
  own f n m -> own f n (set_m_rhs (dset k l (m_rhs m)) m).
Proof.
  intros Hl [A B C D E F G H]. constructor; fields; auto.
  - intros k' l' r Hin Hr. apply in_dset in Hin. destruct Hin as [[-> ->]|Hin]; eauto.
  - destruct H as [H1 H2]. split; [now apply dset_NoDup|exact H2].
Qed.

Lemma own_set_mrhs f n k l m :
  (forall r, In r l -> f (cr_id r) = GMkt k /\ (cr_id r < n)%nat) ->
  own f n m -> own f n (set_m_mrhs (dset k l (m_mrhs m)) m).
Proof.
  intros Hl [A B C D E F G H]. constructor; fields; auto.
  - intros k' l' r Hin Hr. apply in_dset in Hin. destruct Hin as [[-> ->]|Hin]; eauto.
  - destruct H as [H1 [H2 H3]]. split; [exact H1|]. split; [now apply dset_NoDup|exact H3].
Qed.

Lemma own_set_unit f n k l m :
  (forall c, In c l -> f (uc_con c) = GRhs k /\ (uc_con c < n)%nat) ->
  own f n m -> own f n (set_m_c2v_unit (dset k l (m_c2v_unit m)) m).
Proof.
  intros Hl [A B C D E F G H]. constructor; fields; auto.
  - intros k' l' r Hin Hr. apply in_dset in Hin. destruct Hin as [[-> ->]|Hin]; eauto.
  - destruct H as [H1 [H2 [H3 H4]]]. repeat (split; auto). now apply dset_NoDup.
Qed.

Lemma own_set_reg f n k l m :
  (forall c, In c l -> f (rc_con c) = GMkt k /\ (rc_con c < n)%nat) ->
  own f n m -> own f n (set_m_c2v_reg (dset k l (m_c2v_reg m)) m).
Proof.
  intros Hl [A B C D E F G H]. constructor; fields; auto.
  - intros k' l' r Hin Hr. apply in_dset in Hin. destruct Hin as [[-> ->]|Hin]; eauto.
  - destruct H as [H1 [H2 [H3 [H4 H5]]]]. repeat (split; auto). now apply dset_NoDup.
Qed.

Lemma own_set_lhs f n k l m :
  (forall r, In r l -> lhs_owner k (f (l_con r)) /\ (l_con r < n)%nat) ->
  own f n m -> own f n (set_m_lhs (dset k l (m_lhs m)) m).
Proof.
  intros Hl [A B C D E F G H]. constructor; fields; auto.
  - intros k' l' r Hin Hr. apply in_dset in Hin. destruct Hin as [[-> ->]|Hin]; eauto.
  - destruct H as [H1 [H2 [H3 [H4 H5]]]]. repeat (split; auto). now apply dset_NoDup.
Qed.

(** Changes that the ownership does not read. *)
Lemma own_other f n m m' :
  m_nc m' = m_nc m -> m_rhs m' = m_rhs m -> m_mrhs m' = m_mrhs m -> m_dyn m' = m_dyn m ->
  m_c2v_unit m' = m_c2v_unit m -> m_c2v_reg m' = m_c2v_reg m -> m_lhs m' = m_lhs m ->
  own f n m -> own f n m'.
Proof.
  intros E1 E2 E3 E4 E5 E6 E7 [A B C D E F G H].
  constructor; rewrite ?E1, ?E2, ?E3, ?E4, ?E5, ?E6, ?E7; auto.
Qed.

Lemma new_unit_group_owned k mr mm m :
  unit_group_ok mr mm -> owned m -> owned (fst (new_unit_group k mr mm m)).
Proof.
  intros G [W [f [n O]]]. split; [now apply new_unit_group_wf|]. destruct G as [G1 G2].
  unfold new_unit_group. rewrite (ow_nc _ _ _ O).
  destruct (G1 n) as [N1 N2].
  destruct (next_id (map cr_id (mr n))) as [n'|] eqn:E; fields.
  - exists (extend f n (fun _ => GRhs k)), n'.
    pose proof (ids_fresh_next _ _ _ N1 N2 E) as [_ [F2 F3]].
    assert (O1 : own (extend f n (fun _ => GRhs k)) n' (set_m_nc (Some n') m))
      by (apply own_nc with n; auto; now apply own_extend).
    assert (Hi : forall i, In i (map cr_id (mr n)) ->
       extend f n (fun _ => GRhs k) i = GRhs k /\ (i < n')%nat).
    { intros i Hi. apply F2 in Hi. rewrite extend_new by lia. split; [auto|lia]. }
    apply own_other with (m := set_m_c2v_unit (dset k (mm n) (m_c2v_unit m))
       (set_m_rhs (dset k (mr n) (m_rhs m)) (set_m_nc (Some n') m))); try reflexivity.
    apply (own_set_unit _ _ k _ (set_m_rhs (dset k (mr n) (m_rhs m)) (set_m_nc (Some n') m)));
      [|apply (own_set_rhs _ _ k _ (set_m_nc (Some n') m)); [|exact O1]]; intros; apply Hi.
    + now apply G2.
    + now apply in_map.
  - apply next_id_none in E. assert (E2 : mr n = []) by (destruct (mr n); [auto|discriminate]).
    exists f, n. unfold put_unit.
    apply (own_set_unit _ _ k _ (set_m_rhs (dset k (mr n) (m_rhs m)) m));
      [|apply own_set_rhs; [|exact O]].
    + intros c Hc. apply G2 in Hc. rewrite E in Hc. destruct Hc.
    + rewrite E2. intros r [].
Qed.

Lemma new_regional_group_owned k mr mm m :
  regional_group_ok mr mm -> owned m -> owned (fst (new_regional_group k mr mm m)).
Proof.
  intros G [W [f [n O]]]. split; [now apply new_regional_group_wf|]. destruct G as [G1 G2].
  unfold new_regional_group. rewrite (ow_nc _ _ _ O).
  destruct (G1 n) as [N1 N2].
  destruct (next_id (map cr_id (mr n))) as [n'|] eqn:E; fields.
  - exists (extend f n (fun _ => GMkt k)), n'.
    pose proof (ids_fresh_next _ _ _ N1 N2 E) as [_ [F2 F3]].
    assert (O1 : own (extend f n (fun _ => GMkt k)) n' (set_m_nc (Some n') m))
      by (apply own_nc with n; auto; now apply own_extend).
    assert (Hi : forall i, In i (map cr_id (mr n)) ->
       extend f n (fun _ => GMkt k) i = GMkt k /\ (i < n')%nat).
    { intros i Hi. apply F2 in Hi. rewrite extend_new by lia. split; [auto|lia]. }
    apply own_other with (m := set_m_c2v_reg (dset k (mm n) (m_c2v_reg m))
       (set_m_mrhs (dset k (mr n) (m_mrhs m)) (set_m_nc (Some n') m))); try reflexivity.
    apply (own_set_reg _ _ k _ (set_m_mrhs (dset k (mr n) (m_mrhs m)) (set_m_nc (Some n') m)));
      [|apply (own_set_mrhs _ _ k _ (set_m_nc (Some n') m)); [|exact O1]]; intros; apply Hi.
    + now apply G2.
    + now apply in_map.
  - apply next_id_none in E. assert (E2 : mr n = []) by (destruct (mr n); [auto|discriminate]).
    exists f, n. unfold put_regional.
    apply (own_set_reg _ _ k _ (set_m_mrhs (dset k (mr n) (m_mrhs m)) m));
      [|apply own_set_mrhs; [|exact O]].
    + intros c Hc. apply G2 in Hc. rewrite E in Hc. destruct Hc.
    + rewrite E2. intros r [].
Qed.

(** ** Elastic groups *)

Lemma deficit_rows_in l n p : In p (deficit_rows l n) -> In (snd (fst p)) l.
Proof.
  unfold deficit_rows. rewrite !in_app_iff, !in_map_iff.
  intros [[q [<- H]]|[[q [<- H]]|[q [<- H]]]]; cbn; apply in_save_index in H; destruct H as [_ H];
    apply filter_In in H; tauto.
Qed.

Lemma deficit_lhs_con l n r : In r (deficit_lhs l n) -> exists p, In p l /\ l_con r = cr_id (fst p).
Proof.
  unfold deficit_lhs. intros H. apply in_map_iff in H. destruct H as [[[i [c q]] k] [<- H]].
  apply deficit_rows_in in H. cbn in H. exists (c, q). auto.
Qed.

Lemma add_deficits_owned k rows m :
  (forall p, In p rows -> exists g, In (fst p) g /\ (In (k, g) (m_mrhs m) \/ In (k, g) (m_rhs m))) ->
  owned m -> owned (fst (add_deficits k rows m)).
Proof.
  intros Hr [W [f [n O]]]. split; [now apply add_deficits_wf|].
  unfold add_deficits. destruct rows as [|r0 t]; [exists f, n; exact O|]. set (rows := r0 :: t) in *.
  exists f, n.
  assert (O1 : own f n (set_m_lhs (dset (deficit_key k) (deficit_lhs rows (m_nv m)) (m_lhs m)) m)).
  { apply own_set_lhs; [|exact O]. intros r H. apply deficit_lhs_con in H. destruct H as [p [Hp ->]].
    destruct (Hr p Hp) as [g [Hg [Hk|Hk]]].
    - destruct (ow_mrhs _ _ _ O k g (fst p)) as [X Y]; auto. split; [|auto].
      left. exists k. rewrite X. auto.
    - destruct (ow_rhs _ _ _ O k g (fst p)) as [X Y]; auto. split; [|auto].
      left. exists k. rewrite X. auto. }
  destruct (next_id _); fields.
  - apply own_other with (m := set_m_lhs (dset (deficit_key k) (deficit_lhs rows (m_nv m)) (m_lhs m)) m);
      try reflexivity. exact O1.
  - apply own_other with (m := set_m_lhs (dset (deficit_key k) (deficit_lhs rows (m_nv m)) (m_lhs m)) m);
      try reflexivity. exact O1.
Qed.

Lemma group_rows_in k m g : group_rows k m = Some g -> In (k, g) (m_mrhs m) \/ In (k, g) (m_rhs m).
Proof.
  unfold group_rows. destruct (dget k (m_mrhs m)) eqn:E; intros H.
  - inversion H; subst. left. now apply dget_in.
  - right. now apply dget_in.
Qed.

Lemma make_elastic_owned k v m : owned m -> owned (fst (make_elastic k v m)).
Proof.
  intros H. unfold make_elastic. destruct (group_rows k m) as [g|] eqn:E; [|exact H].
  apply group_rows_in in E. destruct v.
  - apply add_deficits_owned; [|exact H]. intros p Hp. apply in_map_iff in Hp.
    destruct Hp as [r [<- Hr]]. exists g. auto.
  - apply guard_fst; [exact H|]. intros _. destruct (has_set_column k); [|exact H].
    apply add_deficits_owned; [|exact H]. intros p Hp. apply in_map_iff in Hp.
    destruct Hp as [q [<- Hq]]. apply in_merge_p in Hq. exists g. cbn. tauto.
  - destruct g; exact H.
Qed.

Lemma own_ddel_rhs f n k m : own f n m -> own f n (set_m_rhs (ddel k (m_rhs m)) m).
Proof.
  intros [A B C D E F G H]. constructor; fields; auto.
  - intros k' l r Hin. apply in_ddel in Hin. eauto.
  - destruct H as [H1 H2]. split; [now apply ddel_NoDup|exact H2].
Qed.
Lemma own_ddel_unit f n k m : own f n m -> own f n (set_m_c2v_unit (ddel k (m_c2v_unit m)) m).
Proof.
  intros [A B C D E F G H]. constructor; fields; auto.
  - intros k' l r Hin. apply in_ddel in Hin. eauto.
  - destruct H as [H1 [H2 [H3 H4]]]. repeat (split; auto). now apply ddel_NoDup.
Qed.
Lemma own_ddel_lhs f n k m : own f n m -> own f n (set_m_lhs (ddel k (m_lhs m)) m).
Proof.
  intros [A B C D E F G H]. constructor; fields; auto.
  - intros k' l r Hin. apply in_ddel in Hin. eauto.
  - destruct H as [H1 [H2 [H3 [H4 H5]]]]. repeat (split; auto). now apply ddel_NoDup.
Qed.

Lemma remove_fast_start_owned m : owned m -> owned (fst (remove_fast_start m)).
Proof.
  intros [W [f [n O]]]. split; [now apply remove_fast_start_wf|].
  unfold remove_fast_start. fields.
  set (m1 := if dhas "fast_start" (m_rhs m) then _ else m).
  assert (O1 : own f n m1).
  { unfold m1. destruct (dhas "fast_start" (m_rhs m)); [|exact O].
    apply (own_ddel_unit f n "fast_start" (set_m_rhs (ddel "fast_start" (m_rhs m)) m)).
    now apply own_ddel_rhs. }
  clearbody m1. exists f, n. destruct (dhas "fast_start_deficit" (m_deficits m1)); [|exact O1].
  apply own_other with (m := set_m_lhs (ddel "fast_start_deficit" (m_lhs m1)) m1); try reflexivity.
  now apply own_ddel_lhs.
Qed.

(** ** Generic and tie break groups *)

Lemma put_generic_owned l m : l <> [] -> owned m -> owned (put_generic l m).
Proof.
  intros Hl [W [f [n O]]]. split; [now apply put_generic_wf|].
  unfold put_generic. rewrite (ow_nc _ _ _ O).
  destruct (next_id (map cr_id (generic_rhs l n))) as [n'|] eqn:E.
  2: { apply next_id_none in E. rewrite generic_rhs_ids in E. destruct l; [congruence|discriminate]. }
  exists (extend f n (fun _ => GRhs "generic")), n'.
  rewrite generic_rhs_ids in E. apply seq_fresh_next in E. destruct E as [-> _].
  apply own_other with (m := set_m_rhs (dset "generic" (generic_rhs l n) (m_rhs m))
     (set_m_nc (Some (n + length l)%nat) m)); try reflexivity.
  apply (own_set_rhs _ _ "generic" _ (set_m_nc (Some (n + length l)%nat) m));
    [|apply own_nc with n; [lia|now apply own_extend]].
  intros r Hr. apply (in_map cr_id) in Hr. rewrite generic_rhs_ids in Hr. apply in_seq in Hr.
  rewrite extend_new by lia. split; [auto|lia].
Qed.

Lemma tie_lhs_con pairs n r : In r (tie_lhs pairs n) -> (n <= l_con r < n + length pairs)%nat.
Proof.
  unfold tie_lhs. intros H. apply in_app_or in H.
  destruct H as [H|H]; apply in_map_iff in H; destruct H as [[i [a b]] [<- H]];
    apply in_save_index in H; cbn in *; lia.
Qed.

Lemma put_tie_owned pairs m : pairs <> [] -> owned m -> owned (put_tie pairs m).
Proof.
  intros Hl [W [f [n O]]]. split; [now apply put_tie_wf|].
  unfold put_tie. rewrite (ow_nc _ _ _ O).
  destruct (next_id (map cr_id (tie_rhs pairs n))) as [n'|] eqn:E.
  2: { apply next_id_none in E. rewrite tie_rhs_ids in E. destruct pairs; [congruence|discriminate]. }
  exists (extend f n (fun _ => GRhs "tie_break")), n'.
  rewrite tie_rhs_ids in E. apply seq_fresh_next in E. destruct E as [-> _].
  apply own_other with (m := set_m_rhs (dset "tie_break" (tie_rhs pairs n) (m_rhs m))
     (set_m_lhs (dset "tie_break" (tie_lhs pairs n) (m_lhs m))
     (set_m_nc (Some (n + length pairs)%nat) m))); try reflexivity.
  apply (own_set_rhs _ _ "tie_break" _ (set_m_lhs (dset "tie_break" (tie_lhs pairs n) (m_lhs m))
     (set_m_nc (Some (n + length pairs)%nat) m))).
  - intros r Hr. apply (in_map cr_id) in Hr. rewrite tie_rhs_ids in Hr. apply in_seq in Hr.
    rewrite extend_new by lia. split; [auto|lia].
  - apply (own_set_lhs _ _ "tie_break" _ (set_m_nc (Some (n + length pairs)%nat) m)).
    + intros r Hr. apply tie_lhs_con in Hr. rewrite extend_new by lia. split; [|lia].
      right; left. auto.
    + apply own_nc with n; [lia|]. now apply own_extend.
Qed.

(** ** Losses *)

Lemma weights_by_con_in ws n p : In p (weights_by_con ws n) ->
  In (fst p) ws /\ In (snd p) (link_ids ws n)
  /\ wv_inter (fst p) = wv_inter (snd (snd p)) /\ wv_link (fst p) = wv_link (snd (snd p)).
Proof.
  unfold weights_by_con. intros H. apply in_merge_p in H. destruct H as [H1 [H2 H3]].
  apply same_link_eq in H3. tauto.
Qed.

Lemma in_link_ids_ws ws n p : In p (link_ids ws n) -> In (snd p) ws.
Proof.
  unfold link_ids. intros H. apply in_save_index in H. destruct H as [_ H].
  now apply drop_duplicates_incl in H.
Qed.

Lemma weight_variables_bp bps n w : In w (weight_variables bps n) ->
  exists b, In b bps /\ wv_inter w = bp_inter b /\ wv_link w = bp_link b.
Proof.
  unfold weight_variables. intros H. apply in_map_iff in H. destruct H as [[i b] [<- H]].
  apply in_save_index in H. exists b. cbn. tauto.
Qed.

Lemma set_losses_owned lf bps m :
  sane_op (OpLosses lf bps) m -> owned m -> owned (fst (set_losses lf bps m)).
Proof.
  intros Hs [W [f [n O]]]. split; [now apply set_losses_wf|].
  destruct (set_losses_cases lf bps m) as [[e E]|[[e E]|[p [Hp E]]]]; rewrite E; fields.
  - exists f, n. exact O.
  - exists f, n. apply own_other with m; try reflexivity. exact O.
  - destruct (lp_dyn_ids lf bps m p W Hp) as [D1 [D2 D3]].
    destruct Hp as [C [ED [EI [ER [Els [Elv [Env [Ews [En0 [En1 [Enn En2]]]]]]]]]]].
    rewrite (ow_nc _ _ _ O) in En0.
    set (nn := S (list_max (map cr_id (lp_sum_rhs p) ++ map dy_id (lp_dyn p)))).
    set (g := fun i => if (i <? lp_n1 p)%nat then GRhs "interpolation_weights" else GDyn).
    assert (S0 : forall i, In i (map cr_id (lp_sum_rhs p)) -> (n <= i < lp_n1 p)%nat).
    { intros i Hi. split; [|now apply (next_id_gt _ _ _ En1)].
      unfold lp_sum_rhs in Hi. rewrite sum_rhs_ids, En0 in Hi. apply in_map_iff in Hi.
      destruct Hi as [q [<- Hq]]. now apply in_link_ids in Hq. }
    assert (S1 : forall i, In i (map cr_id (lp_sum_rhs p)) -> (i < nn)%nat).
    { intros i Hi. assert (i <= list_max (map cr_id (lp_sum_rhs p) ++ map dy_id (lp_dyn p)))%nat
        by (apply list_max_ge, in_or_app; auto). unfold nn. lia. }
    assert (S2 : forall i, In i (map dy_id (lp_dyn p)) -> (i < nn)%nat).
    { intros i Hi. assert (i <= list_max (map cr_id (lp_sum_rhs p) ++ map dy_id (lp_dyn p)))%nat
        by (apply list_max_ge, in_or_app; auto). unfold nn. lia. }
    assert (Hn : (n <= lp_n1 p)%nat).
    { destruct (next_id_in _ _ En1) as [i [Hi Ei]]. apply S0 in Hi. lia. }
    assert (Hn2 : (lp_n1 p <= lp_n2 p)%nat).
    { destruct (next_id_in _ _ En2) as [i [Hi Ei]].
      assert (In i (map dy_id (lp_dyn p))) by (unfold lp_dyn; rewrite map_app; apply in_or_app; auto).
      apply D2 in H. lia. }
    assert (Hnn : (n <= nn)%nat).
    { destruct (next_id_in _ _ En1) as [i [Hi Ei]]. apply S0 in Hi as H1. apply S1 in Hi. lia. }
    exists (extend f n g), nn.
    assert (O1 : own (extend f n g) nn (set_m_nc (Some nn) m))
      by (apply own_nc with n; auto; now apply own_extend).
    set (m1 := set_m_nc (Some nn) m) in *.
    set (m2 := set_m_rhs (dset "interpolation_weights" (lp_sum_rhs p) (m_rhs m1)) m1).
    assert (O2 : own (extend f n g) nn m2).
    { apply own_set_rhs; [|exact O1]. intros r Hr. apply (in_map cr_id) in Hr.
      split; [|auto]. apply S0 in Hr. rewrite extend_new by lia. unfold g.
      now rewrite (proj2 (Nat.ltb_lt _ _)) by lia. }
    set (m3 := set_m_lhs (dset "interconnector_losses" (lp_lhs p) (m_lhs m2)) m2).
    (* links of the break points have a flow variable *)
    assert (HL : forall w, In w (lp_ws p) -> exists v, In v (lp_vs p)
                   /\ iv_inter v = wv_inter w /\ iv_link v = wv_link w).
    { intros w Hw. rewrite Ews in Hw. apply weight_variables_bp in Hw. destruct Hw as [b [Hb [E1 E2]]].
      destruct (Hs b Hb) as [v [Hv [E3 E4]]]. rewrite EI in Hv. exists v. cbn in Hv.
      repeat split; auto; congruence. }
    assert (O3 : own (extend f n g) nn m3).
    { apply own_set_lhs; [|exact O2]. intros r Hr. unfold lp_lhs in Hr.
      apply in_app_or in Hr. destruct Hr as [Hr|Hr]; [|apply in_app_or in Hr; destruct Hr as [Hr|Hr]].
      - apply in_map_iff in Hr. destruct Hr as [q [<- Hq]]. apply weights_by_con_in in Hq.
        cbn [l_con]. assert (Hi : In (fst (snd q)) (map cr_id (lp_sum_rhs p))).
        { unfold lp_sum_rhs. rewrite sum_rhs_ids. apply in_map. tauto. }
        split; [|auto]. apply S0 in Hi. rewrite extend_new by lia. unfold g.
        rewrite (proj2 (Nat.ltb_lt _ _)) by lia. right; right. auto.
      - apply in_map_iff in Hr. destruct Hr as [q [<- Hq]]. apply weights_by_con_in in Hq.
        destruct Hq as [Q1 [Q2 [Q3 Q4]]].
        cbn [l_con]. assert (Hi : In (fst (snd q)) (map dy_id (lp_dyn p))).
        { unfold lp_dyn. rewrite map_app. apply in_or_app. left. rewrite flow_link_rhs_ids.
          destruct (HL (snd (snd q))) as [v [Hv [E3 E4]]]; [now apply in_link_ids_ws in Q2|].
          apply in_map_iff. exists (snd q, v). split; auto. apply in_merge. repeat split; auto.
          apply same_link_eq. auto. }
        split; [|auto]. assert (lp_n2 p <= fst (snd q))%nat by now apply in_link_ids in Q2.
        rewrite extend_new by lia. unfold g.
        rewrite (proj2 (Nat.ltb_ge _ _)) by lia. right; right. auto.
      - apply in_map_iff in Hr. destruct Hr as [[[w [i w2]] [fn from]] [<- Hq]].
        apply in_merge in Hq. destruct Hq as [Q1 [Q2 Q3]]. cbn [fst] in Q3. apply same_link_eq in Q3.
        apply weights_by_con_in in Q1. cbn [fst snd] in Q1. destruct Q1 as [W1 [W2 [W3 W4]]].
        cbn [l_con]. assert (Hi : In i (map dy_id (lp_dyn p))).
        { unfold lp_dyn. rewrite map_app. apply in_or_app. right. rewrite loss_link_rhs_ids.
          destruct (HL w W1) as [v [Hv [E3 E4]]].
          apply save_index_in with (n := m_nv m) in Hv. destruct Hv as [j Hv].
          apply in_map_iff. exists ((i, w2), LossVar (iv_inter v) (iv_link v) j (-(1) * loss_bound v) (loss_bound v)).
          split; [reflexivity|]. apply in_merge. split; [exact W2|]. split.
          - rewrite Elv. unfold loss_variables, loss_rows. apply in_map_iff.
            exists ((j, v), (fn, from)). split; [reflexivity|]. apply in_merge. cbn [fst snd].
            repeat split; auto. apply same_link_eq. split; intuition congruence.
          - cbn. apply same_link_eq. split; congruence. }
        split; [|auto]. assert (lp_n1 p <= i)%nat by (apply in_link_ids in W2; exact W2).
        rewrite extend_new by lia. unfold g.
        rewrite (proj2 (Nat.ltb_ge _ _)) by lia. right; right. auto. }
    destruct O3 as [A3 B3 C3 D3' E3 F3 G3 H3].
    unfold m3, m2, m1 in *. 
    constructor; unfold put_losses; rewrite (ow_nc _ _ _ O); fields; cbn [rows_or_nil] in *; auto.
    intros d Hd. apply (in_map dy_id) in Hd. split; [|auto]. apply D2 in Hd.
    rewrite extend_new by lia. unfold g. now rewrite (proj2 (Nat.ltb_ge _ _)) by lia.
Qed.

Lemma step_owned o m : sane_op o m -> owned m -> owned (fst (step o m)).
Proof.
  intros Hs H.
  assert (OT : forall m m', wf m' -> m_nc m' = m_nc m -> m_rhs m' = m_rhs m -> m_mrhs m' = m_mrhs m ->
    m_dyn m' = m_dyn m -> m_c2v_unit m' = m_c2v_unit m -> m_c2v_reg m' = m_c2v_reg m ->
    m_lhs m' = m_lhs m -> owned m -> owned m').
  { intros m1 m2 W2 E1 E2 E3 E4 E5 E6 E7 [_ [f [n O]]]. split; auto. exists f, n.
    now apply own_other with m1. }
  apply (step_preserves owned (fun _ => True)) with (ok := sane_op); auto.
  - intros t m0 H0. apply OT with m0; try assumption;
      [apply set_volume_bids_wf; apply H0|..]; unfold set_volume_bids, guard;
      destruct (check_bids true m0 t); try reflexivity; destruct (check_bdu _ _); try reflexivity;
      destruct (next_id _); reflexivity.
  - intros t m0 H0. apply OT with m0; try assumption;
      [apply set_price_bids_wf; apply H0|..]; unfold set_price_bids, guard;
      destruct (m_bids m0); try reflexivity;
      destruct (check_bids false m0 t); try reflexivity; destruct (check_bdu _ _); reflexivity.
  - intros; now apply new_unit_group_owned.
  - intros; now apply new_regional_group_owned.
  - intros; now apply make_elastic_owned.
  - intros; now apply remove_fast_start_owned.
  - intros l m0 H0. apply OT with m0; try assumption;
      [apply set_interconnectors_wf; apply H0|..]; unfold set_interconnectors, guard;
      destruct (check_inter m0 l); try reflexivity; destruct (next_id _); reflexivity.
  - intros l m0 H0. apply OT with m0; try assumption; try reflexivity.
    destruct H0 as [[H1 H2 H3 H4 H5] _]; constructor; auto.
  - intros l m0 H0. apply OT with m0; try assumption; try reflexivity.
    destruct H0 as [[H1 H2 H3 H4 H5] _]; constructor; auto.
  - intros l m0 H0. apply OT with m0; try assumption; try reflexivity.
    destruct H0 as [[H1 H2 H3 H4 H5] _]; constructor; auto.
  - intros; now apply put_tie_owned.
  - intros; now apply set_losses_owned.
  - intros l v m0 _ Hl H0. now apply put_generic_owned.
Qed.

Lemma run_owned c m0 ops : new_market c = Ok m0 -> sane ops m0 -> owned (run ops m0).
Proof.
  intros Hc Hs. unfold sane in Hs.
  apply (run_preserves_along owned sane_op); auto.
  - intros; now apply step_owned.
  - split; [now apply (run_wf c m0 [])|].
    unfold new_market in Hc. destruct (check_unit_info c); [discriminate|]. inversion Hc; subst.
    exists (fun _ => GDyn), 0%nat. constructor; cbn; auto; try (intros; contradiction).
    repeat split; constructor.
Qed.
