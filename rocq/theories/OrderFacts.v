(** Constraint calls about different groups can be made in any order: C78. *)

From Coq Require Import QArith Lqa String List Bool Arith Lia ZArith Permutation.
Import ListNotations.
From Verif Require Import PandasModel TablesModel VariableIdsModel MarketConstraintsModel
  UnitConstraintsModel RampModel FcasModel InterModel ElasticModel MarketModel SolverModel
  SpecLp SpecHistory SpecElastic SpecReplace SpecOrder PandasFacts StepFacts InvariantFacts OwnerFacts MeaningFacts LimitFacts
  DeficitFacts ElasticStateFacts BuildFacts RenumberFacts ShiftFacts PlanFacts LockstepFacts ReplaceFacts.
Open Scope string_scope.
Open Scope list_scope.

(** ** What an accepted call does *)

Lemma call_plan o m : constraint_call o -> sane_op o m -> snd (step o m) = None ->
  exists ws fs, Forall regular ws
    /\ (forall m', same_inputs m m' -> step o m' = andthen (do_writes ws m') (do_flexes fs))
    /\ (forall w, In w ws -> In (wkey w) (touches o)) /\ (forall f, In f fs -> In (fl_key f) (touches o))
    /\ (forall sigma, (forall r, In r (rows_or_nil (m_obj_bids m)) -> sigma (ob_var r) = ob_var r) -> Forall (low sigma) ws).
Proof.
  intros C S A.
  assert (X : planned o \/ exists k v, o = OpElastic k v) by (destruct o; cbn in C |- *; auto; right; eauto).
  destruct X as [P|[k [v ->]]].
  - destruct (accepted_plan o m P S A) as [ws [fs [PL [RG X]]]]. exists ws, fs. destruct (plan_keys o m ws fs PL) as [K1 K2].
    repeat split; auto. intros sigma H. now apply (plan_low o m ws fs).
  - exists [], [Flex false k v]. repeat split; auto.
    + intros m' _. cbn. unfold do_flex. cbn. now rewrite andthen_ret.
    + intros w [].
    + intros f [<-|[]]. cbn. auto.
Qed.

Lemma sane_anywhere o m m' : constraint_call o -> sane_op o m -> sane_op o m'.
Proof. destruct o; cbn; auto; contradiction. Qed.

(** ** Whether a call is accepted does not depend on the counters or on groups it is not about *)

Definition blank (r : crow) : crow := ren_c (fun _ => 0%nat) r.

Definition alike_group (k : string) (m' m : market) : Prop :=
  option_map (map blank) (dget k (m_rhs m')) = option_map (map blank) (dget k (m_rhs m))
  /\ option_map (map blank) (dget k (m_mrhs m')) = option_map (map blank) (dget k (m_mrhs m))
  /\ dhas k (m_c2v_unit m') = dhas k (m_c2v_unit m).

Record weak (D : string -> Prop) (m' m : market) : Prop := {
  wk_nc' : exists a, m_nc m' = Some a;
  wk_nc : exists a, m_nc m = Some a;
  wk_groups : forall k, D k \/ alike_group k m' m }.

Lemma next_some {A} (f : A -> nat) l : l <> [] -> exists b, next_id (map f l) = Some b.
Proof. destruct l; [congruence|]. intros _. cbn. eauto. Qed.
Lemma next_cons {A} (f : A -> nat) l b : next_id (map f l) = Some b -> l <> [].
Proof. destruct l; cbn; congruence. Qed.

Lemma blank_moves mk a a' : moves mv_c mk -> map blank (mk a') = map blank (mk a).
Proof.
  intros M. assert (X : forall n, map blank (mk n) = map blank (mk 0%nat)).
  { intros n. change n with (0 + n)%nat at 1. rewrite M, map_map. reflexivity. }
  now rewrite (X a'), (X a).
Qed.
Lemma moves_nonempty {A} (f : nat -> A -> A) mk a a' : moves f mk -> mk a <> [] -> mk a' <> [].
Proof.
  intros M H E. apply H. change a with (0 + a)%nat. rewrite M. change a' with (0 + a')%nat in E. rewrite M in E.
  destruct (mk 0%nat); [reflexivity|discriminate E].
Qed.

Lemma weak_write D m' m w m2 : regular w -> weak D m' m -> do_write w m = (m2, None) ->
  exists m2', do_write w m' = (m2', None) /\ weak D m2' m2.
Proof.
  intros R [[a' N'] [a N] G] H.
  assert (EX : exists m2', do_write w m' = (m2', None) /\ (alike_group (wkey w) m' m -> alike_group (wkey w) m2' m2)).
  { destruct w as [k mr mm|k mr mm|l|ps]; cbn [do_write wkey regular] in *.
    - destruct R as [Hk [O [M1 M2]]]. unfold new_unit_group in *. rewrite N in H. rewrite N'.
      destruct (next_id (map cr_id (mr a))) as [b|] eqn:E; [|discriminate H]. injection H as <-.
      apply next_cons, (moves_nonempty _ _ _ a' M1), (next_some cr_id) in E. destruct E as [b' ->].
      eexists. split; [reflexivity|]. intros [G1 [G2 G3]]. unfold alike_group, put_unit. rewrite (market_eta m), (market_eta m'). fields.
      unfold dhas. rewrite !dget_dset_same. cbn [option_map]. repeat split; [|exact G2]. f_equal. now apply blank_moves.
    - destruct R as [Hk [O [M1 M2]]]. unfold new_regional_group in *. rewrite N in H. rewrite N'.
      destruct (next_id (map cr_id (mr a))) as [b|] eqn:E; [|discriminate H]. injection H as <-.
      apply next_cons, (moves_nonempty _ _ _ a' M1), (next_some cr_id) in E. destruct E as [b' ->].
      eexists. split; [reflexivity|]. intros [G1 [G2 G3]]. unfold alike_group, put_regional. rewrite (market_eta m), (market_eta m'). fields.
      rewrite !dget_dset_same. cbn [option_map]. repeat split; [exact G1| |exact G3]. f_equal. now apply blank_moves.
    - injection H as <-. eexists. split; [reflexivity|]. intros [G1 [G2 G3]]. unfold alike_group, put_generic. rewrite N, N', (market_eta m), (market_eta m'). fields.
      rewrite !dget_dset_same. cbn [option_map]. repeat split; [|exact G2|exact G3]. f_equal. apply blank_moves, generic_moves.
    - injection H as <-. eexists. split; [reflexivity|]. intros [G1 [G2 G3]]. unfold alike_group, put_tie. rewrite N, N', (market_eta m), (market_eta m'). fields.
      rewrite !dget_dset_same. cbn [option_map]. repeat split; [|exact G2|exact G3]. f_equal. apply blank_moves, tie_rhs_moves. }
  destruct EX as [m2' [H' AG]]. exists m2'. split; [exact H'|].
  destruct (write_frame w m m2 a R N H) as [_ [_ [[b [B _]] [T _]]]].
  destruct (write_frame w m' m2' a' R N' H') as [_ [_ [[b' [B' _]] [T' _]]]].
  constructor; eauto. intros k. destruct (G k) as [|Gk]; [now left|right].
  destruct (String.eqb_spec k (wkey w)) as [->|NE]; [now apply AG|].
  destruct (T k NE) as [A1 [A2 [A3 _]]], (T' k NE) as [B1 [B2 [B3 _]]]. unfold alike_group, dhas in *. now rewrite A1, A2, A3, B1, B2, B3.
Qed.

Lemma deficits_length cr a : length (deficit_variables cr a) = (length (inequalities cr) + (length (equalities cr) + length (equalities cr)))%nat.
Proof. unfold deficit_variables, deficit_rows. now rewrite map_length, !app_length, !map_length, !save_index_length. Qed.

Lemma blank_pairs cr' cr : map (ren_p (fun _ => 0%nat)) cr' = map (ren_p (fun _ => 0%nat)) cr ->
  length (inequalities cr') = length (inequalities cr) /\ length (equalities cr') = length (equalities cr).
Proof.
  revert cr. induction cr' as [|[r' q'] t' IH]; intros [|[r q] t] E; cbn in E; try discriminate E; [auto|].
  injection E as E1 E2 E3 E4 E5. destruct (IH t E5) as [I1 I2]. unfold inequalities, equalities in *. cbn [filter fst]. rewrite E1.
  destruct (String.eqb (cr_type r) ">=" || String.eqb (cr_type r) "<="), (String.eqb (cr_type r) "="); cbn; auto.
Qed.

Lemma weak_elastic D m' m k v m2 : ~ D k -> weak D m' m -> make_elastic k v m = (m2, None) -> exists m2', make_elastic k v m' = (m2', None).
Proof.
  intros ND [_ _ G] H. destruct (G k) as [|[G1 [G2 _]]]; [contradiction|].
  apply make_elastic_accepted in H. destruct H as [rows [GR H]].
  assert (GR' : exists rows', group m' k = Some rows' /\ map blank rows' = map blank rows).
  { unfold group in *. destruct (dget k (m_mrhs m)) as [g|], (dget k (m_mrhs m')) as [g'|]; cbn in G2; try discriminate G2.
    - injection GR as ->. injection G2 as G2. eauto.
    - rewrite GR in G1. destruct (dget k (m_rhs m')) as [g'|]; [|discriminate G1]. injection G1 as G1. eauto. }
  destruct GR' as [rows' [GR' B]]. unfold make_elastic. change (group_rows k m') with (group m' k). rewrite GR'.
  destruct H as [[-> [-> _]]|[cr [CR [H CK]]]].
  - destruct rows'; [|discriminate B]. exists m'. reflexivity.
  - pose proof (costed_ren (fun _ => 0%nat) k v rows) as C1. pose proof (costed_ren (fun _ => 0%nat) k v rows') as C2.
    change (map (ren_c (fun _ : nat => 0%nat))) with (map blank) in *. rewrite B in C2. rewrite C1, CR in C2. cbn [option_map] in C2.
    destruct (costed_rows k v rows') as [cr'|] eqn:CR'; [|discriminate C2]. cbn in C2. injection C2 as C2.
    assert (X : exists m2', add_deficits k cr' m' = (m2', None)).
    { symmetry in C2. destruct (blank_pairs _ _ C2) as [L1 L2]. unfold add_deficits. destruct cr' as [|c' t']; [unfold done; eauto|].
      apply add_deficits_accepted in H. destruct H as [[-> _]|[b [EN _]]]; [discriminate C2|].
      apply next_cons in EN. destruct (next_some df_id (deficit_variables (c' :: t') (m_nv m'))) as [b' Eb'].
      - intros E0. apply EN. apply length_zero_iff_nil. apply (f_equal (@length _)) in E0. rewrite deficits_length in *. cbn [length] in E0. lia.
      - rewrite Eb'. unfold done. eauto. }
    destruct v as [q|t|]; cbn [costed_rows] in CR'.
    + injection CR' as <-. exact X.
    + rewrite CK. cbn [guard]. destruct (has_set_column k); [|discriminate CR']. injection CR' as <-. exact X.
    + discriminate CR'.
Qed.

Lemma weak_flex D m' m f m2 : ~ D (fl_key f) -> weak D m' m -> do_flex f m = (m2, None) ->
  exists m2', do_flex f m' = (m2', None) /\ weak D m2' m2.
Proof.
  intros ND W H.
  assert (EX : exists m2', do_flex f m' = (m2', None)).
  { unfold do_flex in *. destruct (fl_if f); [|eapply weak_elastic; eauto]. unfold elastic_if_present in *.
    destruct (wk_groups _ _ _ W (fl_key f)) as [|[_ [_ E]]]; [contradiction|]. rewrite E.
    destruct (dhas (fl_key f) (m_c2v_unit m)); [eapply weak_elastic; eauto|]. unfold done. eauto. }
  destruct EX as [m2' H']. exists m2'. split; [exact H'|].
  destruct (flex_frame f m m2 H) as [_ [N [_ [E1 [E2 [T _]]]]]]. destruct (flex_frame f m' m2' H') as [_ [N' [_ [E1' [E2' [T' _]]]]]].
  destruct W as [A B G]. constructor; [now rewrite N'|now rewrite N|]. intros k. destruct (G k) as [|Gk]; [now left|right].
  destruct (T k) as [_ [_ [A3 _]]], (T' k) as [_ [_ [B3 _]]]. unfold alike_group, dhas in *. now rewrite E1, E2, E1', E2', A3, B3.
Qed.

Lemma weak_writes D ws : forall m' m m2, Forall regular ws -> weak D m' m -> do_writes ws m = (m2, None) ->
  exists m2', do_writes ws m' = (m2', None) /\ weak D m2' m2.
Proof.
  induction ws as [|w t IH]; intros m' m m2 R W H; cbn [do_writes] in *.
  - injection H as <-. exists m'. auto.
  - apply andthen_none in H. destruct H as [m1 [H1 H2]]. inversion R; subst.
    destruct (weak_write D m' m w m1) as [m1' [H1' W1]]; auto. rewrite H1'. cbn [andthen]. eapply IH; eauto.
Qed.

Lemma weak_flexes D fs : forall m' m m2, (forall f, In f fs -> ~ D (fl_key f)) -> weak D m' m -> do_flexes fs m = (m2, None) ->
  exists m2', do_flexes fs m' = (m2', None) /\ weak D m2' m2.
Proof.
  induction fs as [|f t IH]; intros m' m m2 ND W H; cbn [do_flexes] in *.
  - injection H as <-. exists m'. auto.
  - apply andthen_none in H. destruct H as [m1 [H1 H2]].
    destruct (weak_flex D m' m f m1 (ND f (or_introl eq_refl)) W H1) as [m1' [H1' W1]]. rewrite H1'. cbn [andthen]. eapply IH; eauto.
    intros g Hg. apply ND. now right.
Qed.

(** ** Markets that differ in the numbers only *)

Definition undo (f g : nat -> nat) : Prop := (forall i, g (f i) = i) /\ (forall i, f (g i) = i).

Record simulates (rho sigma : nat -> nat) (m' m : market) : Prop := {
  sm_plain : plain m' m;
  sm_nc : exists n, m_nc m = Some n /\ m_nc m' = Some n /\ (forall i, (n <= i)%nat -> rho i = i);
  sm_nv : m_nv m' = m_nv m /\ (forall i, (m_nv m <= i)%nat -> sigma i = i);
  sm_tables : forall k, agree_tables rho sigma k m' m;
  sm_deficits : forall key, agree_deficits rho sigma key m' m;
  sm_fixed : fixed rho sigma m }.

Definition sim (m' m : market) : Prop :=
  exists rho rho' sigma sigma', undo rho rho' /\ undo sigma sigma' /\ simulates rho sigma m' m.

Lemma map_opt {A B C} (f : A -> B) (g : B -> C) (h : A -> C) (o : option (list A)) :
  (forall l x, o = Some l -> In x l -> g (f x) = h x) -> option_map (map h) o = option_map (map g) (option_map (map f) o).
Proof. intros H. destruct o as [l|]; cbn; [|reflexivity]. f_equal. rewrite map_map. apply map_ext_in. intros x Hx. symmetry. eapply H; eauto. Qed.

(** Two markets that renumber a third one. *)
Section Via.
  Variables (z : market) (n v : nat).
  Hypothesis O : owned z.
  Hypothesis T : tidy z.
  Hypothesis N : m_nc z = Some n.
  Hypothesis V : m_nv z = v.
  Variables f f' g g' rho sigma : nat -> nat.
  Hypothesis R : forall i, (i < n)%nat -> rho (f' i) = f i.
  Hypothesis S : forall i, (i < v)%nat -> sigma (g' i) = g i.

  Lemma via_c x y : x = option_map (map (ren_c f)) y -> forall w, (forall l r, y = Some l -> In r l -> (cr_id r < n)%nat) ->
    w = option_map (map (ren_c f')) y -> x = option_map (map (ren_c rho)) w.
  Proof.
    intros -> w H ->. apply map_opt. intros l r Hl Hr. unfold ren_c. cbn. f_equal. eauto.
  Qed.
  Lemma via_uc x y : x = option_map (map (ren_uc f)) y -> forall w, (forall l r, y = Some l -> In r l -> (uc_con r < n)%nat) ->
    w = option_map (map (ren_uc f')) y -> x = option_map (map (ren_uc rho)) w.
  Proof.
    intros -> w H ->. apply map_opt. intros l r Hl Hr. unfold ren_uc. cbn. f_equal. eauto.
  Qed.
  Lemma via_rc x y : x = option_map (map (ren_rc f)) y -> forall w, (forall l r, y = Some l -> In r l -> (rc_con r < n)%nat) ->
    w = option_map (map (ren_rc f')) y -> x = option_map (map (ren_rc rho)) w.
  Proof.
    intros -> w H ->. apply map_opt. intros l r Hl Hr. unfold ren_rc. cbn. f_equal. eauto.
  Qed.
  Lemma via_l x y : x = option_map (map (ren_l f g)) y -> forall w, (forall l r, y = Some l -> In r l -> (l_con r < n)%nat /\ (l_var r < v)%nat) ->
    w = option_map (map (ren_l f' g')) y -> x = option_map (map (ren_l rho sigma)) w.
  Proof.
    intros -> w H ->. apply map_opt. intros l r Hl Hr. destruct (H l r Hl Hr). unfold ren_l. cbn. f_equal; eauto.
  Qed.
  Lemma via_d x y : x = option_map (map (ren_d g)) y -> forall w, (forall l r, y = Some l -> In r l -> (df_id r < v)%nat) ->
    w = option_map (map (ren_d g')) y -> x = option_map (map (ren_d sigma)) w.
  Proof.
    intros -> w H ->. apply map_opt. intros l r Hl Hr. unfold ren_d. cbn. f_equal. eauto.
  Qed.
  Lemma via_k x y : x = option_map (map (ren_k g)) y -> forall w, (forall l r, y = Some l -> In r l -> (co_var r < v)%nat) ->
    w = option_map (map (ren_k g')) y -> x = option_map (map (ren_k sigma)) w.
  Proof.
    intros -> w H ->. apply map_opt. intros l r Hl Hr. unfold ren_k. cbn. f_equal. eauto.
  Qed.

  Lemma via_tables k x y : agree_tables f g k x z -> agree_tables f' g' k y z -> agree_tables rho sigma k x y.
  Proof.
    destruct (below_own z n O N) as [h X]. intros [A1 [A2 [A3 [A4 A5]]]] [B1 [B2 [B3 [B4 B5]]]].
    repeat split.
    - eapply via_c; eauto. intros l r Hl Hr. exact (proj2 (ow_rhs _ _ _ X k l r (dget_in _ _ _ Hl) Hr)).
    - eapply via_c; eauto. intros l r Hl Hr. exact (proj2 (ow_mrhs _ _ _ X k l r (dget_in _ _ _ Hl) Hr)).
    - eapply via_uc; eauto. intros l r Hl Hr. exact (proj2 (ow_unit _ _ _ X k l r (dget_in _ _ _ Hl) Hr)).
    - eapply via_rc; eauto. intros l r Hl Hr. exact (proj2 (ow_reg _ _ _ X k l r (dget_in _ _ _ Hl) Hr)).
    - intros Hk. eapply via_l; [eauto| |eauto]. intros l r Hl Hr. apply dget_in in Hl. split; [exact (proj2 (ow_lhs _ _ _ X k l r Hl Hr))|]. subst v. exact (td_lhs z T k l r Hl Hr).
  Qed.
  Lemma via_deficits k x y : agree_deficits f g k x z -> agree_deficits f' g' k y z -> agree_deficits rho sigma k x y.
  Proof.
    destruct (below_own z n O N) as [h X]. intros [A1 [A2 A3]] [B1 [B2 B3]].
    repeat split.
    - eapply via_d; eauto. intros l r Hl Hr. subst v. apply (def_lt z _ (proj1 O)). exact (in_def_ids z k l r (dget_in _ _ _ Hl) Hr).
    - eapply via_k; eauto. intros l r Hl Hr. subst v. exact (td_cost z T k l r (dget_in _ _ _ Hl) Hr).
    - intros Hk. eapply via_l; [eauto| |eauto]. intros l r Hl Hr. apply dget_in in Hl. split; [exact (proj2 (ow_lhs _ _ _ X k l r Hl Hr))|]. subst v. exact (td_lhs z T k l r Hl Hr).
  Qed.
End Via.

Definition idn (i : nat) : nat := i.
Lemma id_opt {A} (f : A -> A) o : (forall x, f x = x) -> o = option_map (map f) o.
Proof. intros H. destruct o as [l|]; cbn; [|reflexivity]. f_equal. symmetry. rewrite (map_ext f (fun x => x) H). apply map_id. Qed.
Lemma id_tables k m' m : same_tables k m' m -> agree_tables idn idn k m' m.
Proof.
  intros [A1 [A2 [A3 [A4 A5]]]]. unfold agree_tables. rewrite A1, A2, A3, A4.
  split; [apply id_opt; intros []; reflexivity|]. split; [apply id_opt; intros []; reflexivity|]. split; [apply id_opt; intros []; reflexivity|].
  split; [apply id_opt; intros []; reflexivity|]. intros Hk. rewrite A5 by auto. apply id_opt; intros []; reflexivity.
Qed.
Lemma id_deficits k m' m : same_deficits k m' m -> agree_deficits idn idn k m' m.
Proof.
  intros [A1 [A2 A3]]. unfold agree_deficits. rewrite A1, A2.
  split; [apply id_opt; intros []; reflexivity|]. split; [apply id_opt; intros []; reflexivity|].
  intros Hk. rewrite A3 by auto. apply id_opt; intros []; reflexivity.
Qed.

Lemma sim_refl c m : reached c m -> sim m m.
Proof.
  intros R. destruct (reached_owned c m R) as [[_ [f [n O]]] _]. exists idn, idn, idn, idn. split; [split; reflexivity|]. split; [split; reflexivity|]. constructor.
  - apply plain_refl.
  - exists n. pose proof (ow_nc _ _ _ O). repeat split; auto.
  - split; auto.
  - intros k. apply id_tables. repeat split.
  - intros k. apply id_deficits. repeat split.
  - constructor; reflexivity || (split; reflexivity).
Qed.

Lemma sim_trans a b c : sim a b -> sim b c -> sim a c.
Proof.
  intros [r1 [r1' [s1 [s1' [[U1 U1'] [[W1 W1'] [P1 [n1 [N1 [N1' E1]]]  [V1 F1] T1 D1 X1]]]]]]] [r2 [r2' [s2 [s2' [[U2 U2'] [[W2 W2'] [P2 [n2 [N2 [N2' E2]]] [V2 F2] T2 D2 X2]]]]]]].
  assert (n2 = n1) by congruence. subst n2.
  exists (fun i => r1 (r2 i)), (fun i => r2' (r1' i)), (fun i => s1 (s2 i)), (fun i => s2' (s1' i)).
  split; [split; intros i; [rewrite U1; apply U2|rewrite U2'; apply U1']|].
  split; [split; intros i; [rewrite W1; apply W2|rewrite W2'; apply W1']|].
  constructor.
  - eapply plain_trans; eauto.
  - exists n1. repeat split; auto. intros i Hi. rewrite E2, E1; auto.
  - split; [congruence|]. intros i Hi. rewrite F2, F1; auto. congruence.
  - intros k. destruct (T1 k) as [A1 [A2 [A3 [A4 A5]]]], (T2 k) as [B1 [B2 [B3 [B4 B5]]]]. unfold agree_tables. rewrite A1, A2, A3, A4, B1, B2, B3, B4.
    split; [symmetry; apply map_opt; reflexivity|]. split; [symmetry; apply map_opt; reflexivity|]. split; [symmetry; apply map_opt; reflexivity|]. split; [symmetry; apply map_opt; reflexivity|].
    intros Hk. rewrite A5, B5 by auto. symmetry; apply map_opt; reflexivity.
  - intros k. destruct (D1 k) as [A1 [A2 A3]], (D2 k) as [B1 [B2 B3]]. unfold agree_deficits. rewrite A1, A2, B1, B2.
    split; [symmetry; apply map_opt; reflexivity|]. split; [symmetry; apply map_opt; reflexivity|].
    intros Hk. rewrite A3, B3 by auto. symmetry; apply map_opt; reflexivity.
  - apply (fixed_plain _ _ c b) in X1; [|now apply plain_sym]. constructor; intros x Hx.
    + now rewrite (fx_bids _ _ _ X2), (fx_bids _ _ _ X1).
    + now rewrite (fx_inter _ _ _ X2), (fx_inter _ _ _ X1).
    + now rewrite (fx_loss _ _ _ X2), (fx_loss _ _ _ X1).
    + now rewrite (fx_weights _ _ _ X2), (fx_weights _ _ _ X1).
    + now rewrite (fx_reg _ _ _ X2), (fx_reg _ _ _ X1).
    + now rewrite (fx_unit _ _ _ X2), (fx_unit _ _ _ X1).
    + destruct (fx_dyn _ _ _ X2 x Hx) as [-> ->]. now apply (fx_dyn _ _ _ X1).
    + now rewrite (fx_obj _ _ _ X2), (fx_obj _ _ _ X1).
Qed.

Lemma sim_dispatch c c' m' m : reached c' m' -> reached c m -> sim m' m -> same_dispatch m' m.
Proof.
  intros R' R [rho [rho' [sigma [sigma' [[U1 _] [[W1 _] [P _ _ T D F]]]]]]].
  apply (alike_dispatch rho sigma sigma').
  - intros i j E. rewrite <- (U1 i), <- (U1 j). now rewrite E.
  - intros i j E. rewrite <- (W1 i), <- (W1 j). now rewrite E.
  - exact W1.
  - destruct P. constructor; auto; intros k; try solve [apply (T k)]; try solve [apply (D k)].
    destruct (String.eqb_spec k "tie_break") as [->|NE]; [now apply (T "tie_break")|now apply (D k)].
  - now apply (reached_keys c'). - now apply (reached_keys c). - exact F.
  - apply (reached_owned c'); auto. - apply (reached_owned c); auto.
Qed.

(** A call keeps them alike. *)
Lemma sim_step m' m o : sim m' m -> constraint_call o -> sane_op o m -> snd (step o m) = None ->
  snd (step o m') = None /\ sim (fst (step o m')) (fst (step o m)).
Proof.
  intros [rho [rho' [sigma [sigma' [U [W [P [n [N [N' E1]]] [V E2] T D F]]]]]]] C S A.
  destruct (call_plan o m C S A) as [ws [fs [RG [X [_ [_ LW]]]]]]. specialize (LW sigma (fx_obj _ _ _ F)).
  assert (SI : same_inputs m m) by (unfold same_inputs; auto).
  assert (SI' : same_inputs m m') by (destruct P; unfold same_inputs; auto).
  destruct (step o m) as [m2 r] eqn:E. cbn [snd fst] in *. subst r. rewrite (X m SI) in E. apply andthen_none in E. destruct E as [mb [Y1 Y2]].
  assert (LK : lock rho sigma n 0 (m_nv m) 0 (fun _ => False) (fun _ => False) m m' m).
  { constructor; auto.
    - exists n. repeat split; auto. rewrite N'. f_equal. lia.
    - split; [rewrite V|]; lia.
    - intros k. destruct (T k) as [A1 [A2 [A3 [A4 A5]]]]. split; [|split]; auto. }
  destruct (lock_writes rho sigma n 0 (m_nv m) 0 E1 _ _ m ws m' m mb RG LW LK Y1) as [mb' [Y1' LK2]].
  destruct (lock_flexes rho sigma n 0 (m_nv m) 0 E2 _ _ m fs mb' mb m2 (fun _ _ F => F) LK2 Y2) as [m2' [Y2' LK3]].
  rewrite (X m' SI'), Y1'. cbn [andthen]. rewrite Y2'. cbn [fst snd]. split; [reflexivity|].
  exists rho, rho', sigma, sigma'. split; [exact U|]. split; [exact W|]. destruct LK3 as [P3 [a [B1 [B2 B3]]] [B4 B5] B6 B7 _].
  assert (PL : plain m2 m).
  { clear - Y1 Y2 RG N. assert (XW : forall ws x y, Forall regular ws -> (exists n, m_nc x = Some n) -> do_writes ws x = (y, None) -> plain y x).
    { clear. intros ws. induction ws as [|w t IH]; intros x y R [n N] H; cbn [do_writes] in H; [injection H as <-; apply plain_refl|].
      apply andthen_none in H. destruct H as [z [H1 H2]]. inversion R; subst. destruct (write_frame w x z n) as [P [_ [[b [B _]] _]]]; auto. eapply plain_trans; [|exact P]. eapply IH; eauto. }
    assert (XF : forall fs x y, do_flexes fs x = (y, None) -> plain y x).
    { clear. intros fs. induction fs as [|f t IH]; intros x y H; cbn [do_flexes] in H; [injection H as <-; apply plain_refl|].
      apply andthen_none in H. destruct H as [z [H1 H2]]. eapply plain_trans; [eapply IH; eauto|]. now apply (flex_frame f x z). }
    eapply plain_trans; [eapply XF; eauto|]. eapply XW; eauto. }
  constructor.
  - exact P3.
  - exists a. split; [exact B1|]. split; [rewrite B2; f_equal; lia|]. intros i Hi. apply E1. lia.
  - split; [lia|]. intros i Hi. apply E2. lia.
  - intros k. destruct (B6 k) as [Q|[[] _]]. exact Q.
  - intros k. destruct (B7 k) as [Q|[[] _]]. exact Q.
  - eapply fixed_plain; eauto.
Qed.

(** ** Two calls about different groups *)

Definition apart (o1 o2 : op) : Prop := forall k, In k (touches o1) -> ~ In k (touches o2).
Lemma apart_sym o1 o2 : apart o1 o2 -> apart o2 o1.
Proof. intros H k H1 H2. exact (H k H2 H1). Qed.

(** The block of [d1] numbers from [n] on and the block of [d2] numbers after it change places. *)
Definition exchange (n d1 d2 i : nat) : nat :=
  if (i <? n)%nat then i else if (i <? n + d1)%nat then (i + d2)%nat else if (i <? n + d1 + d2)%nat then (i - d1)%nat else i.

Ltac cases_ltb := repeat match goal with |- context [(?a <? ?b)%nat] => destruct (a <? b)%nat eqn:?; rewrite ?Nat.ltb_lt, ?Nat.ltb_ge in * end.
Lemma exchange_undo n d1 d2 : undo (exchange n d1 d2) (exchange n d2 d1).
Proof. split; intros i; unfold exchange; cases_ltb; lia. Qed.
Lemma exchange_low n d1 d2 i : (i < n)%nat -> exchange n d1 d2 i = i.
Proof. intros H. unfold exchange. cases_ltb; lia. Qed.
Lemma exchange_high n d1 d2 i : (n + d1 + d2 <= i)%nat -> exchange n d1 d2 i = i.
Proof. intros H. unfold exchange. cases_ltb; lia. Qed.
Lemma exchange_first n d1 d2 i : (i < n + d1)%nat -> exchange n d1 d2 (idn i) = up n d2 i.
Proof. intros H. unfold exchange, up, idn. cases_ltb; lia. Qed.
Lemma exchange_second n d1 d2 i : (i < n + d2)%nat -> exchange n d1 d2 (up n d1 i) = idn i.
Proof. intros H. unfold exchange, up, idn. cases_ltb; lia. Qed.

Lemma key_inj k k' : deficit_key k = deficit_key k' -> k = k'.
Proof.
  assert (L : forall a b, String.length (a ++ b)%string = (String.length a + String.length b)%nat) by (induction a; cbn; auto).
  unfold deficit_key. intros E. assert (Len : String.length k = String.length k').
  { pose proof (f_equal String.length E) as X. rewrite !L in X. lia. }
  revert k' E Len. induction k as [|c t IH]; intros [|c' t'] E Len; cbn in *; try discriminate Len; [reflexivity|].
  injection E as -> E. f_equal. apply IH; auto.
Qed.

(** What an accepted call leaves alone. *)
Lemma call_frame c m o : reached c m -> constraint_call o -> sane_op o m -> snd (step o m) = None ->
  exists n n', m_nc m = Some n /\ m_nc (fst (step o m)) = Some n' /\ (n <= n')%nat /\ (m_nv m <= m_nv (fst (step o m)))%nat
    /\ plain (fst (step o m)) m
    /\ (forall k, ~ In k (touches o) -> same_tables k (fst (step o m)) m)
    /\ (forall key, (forall k, In k (touches o) -> key <> deficit_key k) -> same_deficits key (fst (step o m)) m)
    /\ (forall k, same_others k (fst (step o m)) m).
Proof.
  intros R C S A. destruct (reached_owned c m R) as [[W [f [n OW]]] _]. pose proof (ow_nc _ _ _ OW) as N.
  destruct (call_plan o m C S A) as [ws [fs [RG [X [KW [KF _]]]]]].
  assert (SI : same_inputs m m) by (unfold same_inputs; auto).
  destruct (step o m) as [m2 r] eqn:E. cbn [snd fst] in *. subst r. rewrite (X m SI) in E. apply andthen_none in E. destruct E as [mb [Y1 Y2]].
  assert (BASE : since (fun _ => False) (fun _ => False) n (m_nv m) m m).
  { constructor; unfold same_tables, same_deficits, same_others.
    - apply plain_refl. - exists n; auto. - lia.
    - intros k g Hg. exact (ky_reg _ (reached_keyed c m R) k g Hg).
    - intros k; left; repeat split. - intros k; left; repeat split. - intros k; repeat split; auto. }
  destruct (since_flexes fs _ _ _ _ _ _ _ (since_writes ws _ _ _ _ _ _ _ BASE RG Y1) Y2) as [P [n' [N' L]] LV _ T D OT].
  exists n, n'. split; [auto|]. split; [auto|]. split; [auto|]. split; [auto|]. split; [auto|]. split; [|split; [|exact OT]].
  - intros k Hk. destruct (T k) as [|[[[]|HW] _]]; [auto|]. apply in_map_iff in HW. destruct HW as [w [<- Hw]]. exfalso. auto.
  - intros key H. destruct (D key) as [Q|[k [ds [d0 [[[]|HX] [-> _]]]]]]; [exact Q|]. exfalso. apply in_map_iff in HX. destruct HX as [g [E Hg]]. apply (H k); [|auto]. rewrite <- E. auto.
Qed.

(** The second call on the market before and after the first. *)
Lemma call_after c m o1 o2 : reached c m -> constraint_call o1 -> constraint_call o2 -> sane_op o1 m -> sane_op o2 m -> apart o1 o2 ->
  snd (step o1 m) = None -> snd (step o2 m) = None ->
  let m1 := fst (step o1 m) in let m2 := fst (step o2 m) in let m12 := fst (step o2 m1) in
  forall n n1, m_nc m = Some n -> m_nc m1 = Some n1 ->
  let d := (n1 - n)%nat in let e := (m_nv m1 - m_nv m)%nat in
  snd (step o2 m1) = None /\ plain m12 m2
  /\ (exists n2, m_nc m2 = Some n2 /\ m_nc m12 = Some (n2 + d)%nat) /\ m_nv m12 = (m_nv m2 + e)%nat
  /\ (forall k, ~ In k (touches o1) -> agree_tables (up n d) (up (m_nv m) e) k m12 m2)
  /\ (forall key, (forall k, In k (touches o1) -> key <> deficit_key k) -> agree_deficits (up n d) (up (m_nv m) e) key m12 m2).
Proof.
  intros R C1 C2 S1 S2 AP A1 A2 m1 m2 m12 n n1 N N1 d e. set (v := m_nv m) in *.
  destruct (reached_owned c m R) as [O _]. pose proof (reached_tidy c m R) as T.
  destruct (call_frame c m o1 R C1 S1 A1) as [n' [n1' [N' [N1' [LN [LV [PL [TB [DF OT]]]]]]]]]. fold m1 in N1', LV, PL, TB, DF, OT.
  assert (n' = n) by congruence. assert (n1' = n1) by congruence. subst n' n1'.
  destruct (call_plan o2 m C2 S2 A2) as [ws [fs [RG [X [KW [KF LW]]]]]].
  assert (SI : same_inputs m m) by (unfold same_inputs; auto).
  assert (SI1 : same_inputs m m1) by (destruct PL; unfold same_inputs; auto).
  unfold m12, m2. rewrite (X m1 SI1). rewrite (X m SI) in *.
  destruct (andthen (do_writes ws m) (do_flexes fs)) as [y r] eqn:E. cbn [snd fst] in *. subst r. apply andthen_none in E. destruct E as [mb [Y1 Y2]].
  assert (LK : lock (up n d) (up v e) n d v e (fun k => In k (touches o1)) (fun key => exists k, In k (touches o1) /\ key = deficit_key k) m m1 m).
  { constructor.
    - exact PL.
    - exists n. repeat split; auto. rewrite N1. f_equal. unfold d. lia.
    - unfold e, v in *. split; lia.
    - intros k. destruct (in_dec string_dec k (touches o1)) as [Hk|Hk]; [now right|left]. apply (tables_below m n v d e); auto.
    - intros key. destruct (in_dec string_dec key (map deficit_key (touches o1))) as [Hk|Hk].
      + right. split; [|reflexivity]. apply in_map_iff in Hk. destruct Hk as [k [E Hk]]. eauto.
      + left. apply (deficits_below m n v d e); auto. apply DF. intros k Hk1 ->. apply Hk. now apply in_map.
    - intros k. apply (others_below m n d); auto. }
  specialize (LW (up v e)). 
  assert (LW' : Forall (low (up v e)) ws) by (apply LW; apply (fixed_below m n v d e); auto). clear LW.
  destruct (lock_writes _ _ n d v e (up_high n d) _ _ m ws m1 m mb RG LW' LK Y1) as [mb' [Y1' LK2]].
  assert (NF : forall f, In f fs -> ~ In (fl_key f) (touches o1)) by (intros f Hf Hk; exact (AP _ Hk (KF f Hf))).
  destruct (lock_flexes _ _ n d v e (up_high v e) _ _ m fs mb' mb y NF LK2 Y2) as [y' [Y2' LK3]].
  rewrite Y1'. cbn [andthen]. rewrite Y2'. cbn [fst snd]. destruct LK3 as [P3 [a [B1 [B2 B3]]] [B4 B5] B6 B7 _].
  split; [reflexivity|]. split; [exact P3|]. split; [eauto|]. split; [exact B4|]. split.
  - intros k Hk. destruct (B6 k) as [Q|[HD _]]; [exact Q|contradiction].
  - intros key Hk. destruct (B7 key) as [Q|[[k [Hk1 Hk2]] _]]; [exact Q|]. exfalso. exact (Hk k Hk1 Hk2).
Qed.

(** A call accepted after another one about other groups is accepted before it. *)
Lemma call_before c m o1 o2 : reached c m -> constraint_call o1 -> constraint_call o2 -> sane_op o1 m -> sane_op o2 m -> apart o1 o2 ->
  snd (step o1 m) = None -> snd (step o2 (fst (step o1 m))) = None -> snd (step o2 m) = None.
Proof.
  intros R C1 C2 S1 S2 AP A1 A2.
  destruct (call_frame c m o1 R C1 S1 A1) as [n [n1 [N [N1 [LN [LV [PL [TB [DF OT]]]]]]]]]. set (m1 := fst (step o1 m)) in *.
  destruct (call_plan o2 m1 C2 (sane_anywhere o2 m m1 C2 S2) A2) as [ws [fs [RG [X [KW [KF LW]]]]]].
  assert (SI : same_inputs m1 m1) by (unfold same_inputs; auto).
  assert (SI1 : same_inputs m1 m) by (destruct PL; unfold same_inputs; auto).
  rewrite (X m SI1). destruct (step o2 m1) as [y r] eqn:E. cbn [snd] in A2. subst r. rewrite (X m1 SI) in E. apply andthen_none in E. destruct E as [mb [Y1 Y2]].
  assert (WK : weak (fun k => In k (touches o1)) m m1).
  { constructor; eauto. intros k. destruct (in_dec string_dec k (touches o1)) as [Hk|Hk]; [now left|right].
    destruct (TB k Hk) as [E1 [E2 [E3 _]]]. unfold alike_group, dhas. now rewrite E1, E2, E3. }
  destruct (weak_writes _ ws m m1 mb RG WK Y1) as [mb' [Y1' WK2]].
  assert (NF : forall f, In f fs -> ~ In (fl_key f) (touches o1)) by (intros f Hf Hk; exact (AP _ Hk (KF f Hf))).
  destruct (weak_flexes _ fs mb' mb y NF WK2 Y2) as [y' [Y2' _]]. rewrite Y1'. cbn [andthen]. now rewrite Y2'.
Qed.

Lemma swap_calls c m o1 o2 : reached c m -> constraint_call o1 -> constraint_call o2 -> sane_op o1 m -> sane_op o2 m -> apart o1 o2 ->
  snd (step o1 m) = None -> snd (step o2 (fst (step o1 m))) = None ->
  snd (step o2 m) = None /\ snd (step o1 (fst (step o2 m))) = None
  /\ sim (fst (step o1 (fst (step o2 m)))) (fst (step o2 (fst (step o1 m)))).
Proof.
  intros R C1 C2 S1 S2 AP A1 A12. pose proof (call_before c m o1 o2 R C1 C2 S1 S2 AP A1 A12) as A2. split; [exact A2|].
  pose proof (apart_sym _ _ AP) as AP'.
  destruct (call_frame c m o1 R C1 S1 A1) as [n [n1 [N [N1 [LN [LV [PL [TB [DF OT]]]]]]]]].
  destruct (call_frame c m o2 R C2 S2 A2) as [n' [n2 [N' [N2 [LN2 [LV2 [PL2 [TB2 [DF2 OT2]]]]]]]]]. assert (n' = n) by congruence. subst n'.
  pose proof (call_after c m o1 o2 R C1 C2 S1 S2 AP A1 A2 n n1 N N1) as CA. cbv zeta in CA. destruct CA as [_ [P12 [[b2 [B2 B12]] [V12 [T12 D12]]]]].
  pose proof (call_after c m o2 o1 R C2 C1 S2 S1 AP' A2 A1 n n2 N N2) as CA. cbv zeta in CA. destruct CA as [A21 [P21 [[b1 [B1 B21]] [V21 [T21 D21]]]]].
  split; [exact A21|].
  assert (R1 := reached_next c m o1 R S1). assert (R2 := reached_next c m o2 R S2).
  destruct (call_frame c _ o2 R1 C2 (sane_anywhere _ _ _ C2 S2) A12) as [_ [_ [_ [_ [_ [_ [PLb [TBb [DFb _]]]]]]]]].
  destruct (call_frame c _ o1 R2 C1 (sane_anywhere _ _ _ C1 S1) A21) as [_ [_ [_ [_ [_ [_ [PLc [TBc [DFc _]]]]]]]]].
  set (m1 := fst (step o1 m)) in *. set (m2 := fst (step o2 m)) in *. set (m12 := fst (step o2 m1)) in *. set (m21 := fst (step o1 m2)) in *.
  set (v := m_nv m) in *. set (d1 := (n1 - n)%nat) in *. set (d2 := (n2 - n)%nat) in *. set (e1 := (m_nv m1 - v)%nat) in *. set (e2 := (m_nv m2 - v)%nat) in *.
  assert (O1 := proj1 (reached_owned c m1 R1)). assert (O2 := proj1 (reached_owned c m2 R2)).
  assert (T1 := reached_tidy c m1 R1). assert (T2 := reached_tidy c m2 R2).
  assert (O := proj1 (reached_owned c m R)). assert (T := reached_tidy c m R).
  assert (b2 = n2) by congruence. assert (b1 = n1) by congruence. subst b1 b2.
  exists (exchange n d1 d2), (exchange n d2 d1), (exchange v e1 e2), (exchange v e2 e1).
  split; [apply exchange_undo|]. split; [apply exchange_undo|]. constructor.
  - eapply plain_trans; [exact P21|]. eapply plain_trans; [|apply plain_sym; exact PLb]. apply plain_refl.
  - exists (n2 + d1)%nat. split; [exact B12|]. split; [rewrite B21; f_equal; unfold d1, d2; lia|]. intros i Hi. apply exchange_high. unfold d1, d2 in *. lia.
  - split; [rewrite V12, V21; unfold e1, e2; lia|]. intros i Hi. apply exchange_high. rewrite V12 in Hi. unfold e1, e2 in *. lia.
  - intros k. destruct (in_dec string_dec k (touches o1)) as [Hk|Hk].
    + apply (via_tables m1 n1 (m_nv m1) O1 T1 N1 eq_refl (up n d2) idn (up v e2) idn).
      * intros i Hi. apply exchange_first. unfold d1. lia.
      * intros i Hi. apply exchange_first. unfold e1. lia.
      * apply T21. now apply AP.
      * apply id_tables, TBb. now apply AP.
    + apply (via_tables m2 n2 (m_nv m2) O2 T2 N2 eq_refl idn (up n d1) idn (up v e1)).
      * intros i Hi. apply exchange_second. unfold d2. lia.
      * intros i Hi. apply exchange_second. unfold e2. lia.
      * apply id_tables, TBc. exact Hk.
      * apply T12. exact Hk.
  - intros key. destruct (in_dec string_dec key (map deficit_key (touches o1))) as [Hk|Hk].
    + assert (NK : forall k, In k (touches o2) -> key <> deficit_key k).
      { intros k Hk2 ->. apply in_map_iff in Hk. destruct Hk as [k' [E Hk]]. apply key_inj in E. subst. exact (AP k Hk Hk2). }
      apply (via_deficits m1 n1 (m_nv m1) O1 T1 N1 eq_refl (up n d2) idn (up v e2) idn).
      * intros i Hi. apply exchange_first. unfold d1. lia.
      * intros i Hi. apply exchange_first. unfold e1. lia.
      * apply D21. exact NK.
      * apply id_deficits, DFb. exact NK.
    + assert (NK : forall k, In k (touches o1) -> key <> deficit_key k) by (intros k Hk1 ->; apply Hk; now apply in_map).
      apply (via_deficits m2 n2 (m_nv m2) O2 T2 N2 eq_refl idn (up n d1) idn (up v e1)).
      * intros i Hi. apply exchange_second. unfold d2. lia.
      * intros i Hi. apply exchange_second. unfold e2. lia.
      * apply id_deficits, DFc. exact NK.
      * apply D12. exact NK.
  - apply (fixed_plain _ _ m12 m); [eapply plain_trans; eauto|].
    pose proof (fixed_below m n v 1 1 O T N eq_refl) as F.
    assert (XR : forall i, up n 1 i = i -> exchange n d1 d2 i = i).
    { intros i Hi. apply exchange_low. unfold up in Hi. destruct (i <? n)%nat eqn:E; [now apply Nat.ltb_lt|lia]. }
    assert (XS : forall i, up v 1 i = i -> exchange v e1 e2 i = i).
    { intros i Hi. apply exchange_low. unfold up in Hi. destruct (i <? v)%nat eqn:E; [now apply Nat.ltb_lt|lia]. }
    destruct F. constructor; auto. intros x Hx. destruct (fx_dyn x Hx). auto.
Qed.

(** ** Any order *)

Definition fine (o : op) : Prop := constraint_call o /\ forall m, sane_op o m.

Lemma fine_calls ops : forall m, Forall constraint_call ops -> sane ops m -> Forall fine ops.
Proof.
  induction ops as [|o t IH]; intros m C S; constructor; inversion C; subst; destruct S as [S1 S2].
  - split; [auto|]. intros m'. now apply (sane_anywhere o m).
  - now apply (IH (fst (step o m))).
Qed.
Lemma fine_sane ops : forall m, Forall fine ops -> sane ops m.
Proof. induction ops as [|o t IH]; intros m F; [exact I|]. inversion F; subst. split; [apply H1|now apply IH]. Qed.

Lemma reached_run c m ops : reached c m -> Forall fine ops -> reached c (run ops m).
Proof.
  revert m. induction ops as [|o t IH]; intros m R F; [exact R|]. inversion F; subst. apply (IH (fst (step o m))); [|auto]. apply reached_next; [auto|apply H1].
Qed.

Lemma sim_run ops : forall m' m, sim m' m -> Forall fine ops -> accepted ops m -> accepted ops m' /\ sim (run ops m') (run ops m).
Proof.
  induction ops as [|o t IH]; intros m' m SM F A; [split; [exact I|exact SM]|]. inversion F as [|? ? [F1 F2] F3]; subst. destruct A as [A1 A2].
  destruct (sim_step m' m o SM F1 (F2 m) A1) as [B1 B2]. destruct (IH _ _ B2 F3 A2) as [B3 B4]. split; [split; auto|exact B4].
Qed.

Lemma bring_forward c a pre : forall post m, reached c m -> Forall fine (a :: pre ++ post) -> (forall b, In b pre -> apart a b) ->
  accepted (a :: pre ++ post) m -> accepted (pre ++ a :: post) m /\ sim (run (pre ++ a :: post) m) (run (a :: pre ++ post) m).
Proof.
  induction pre as [|b pre IH]; intros post m R F AP A.
  - split; [exact A|]. eapply sim_refl. eapply reached_run; eauto.
  - cbn [app] in *. inversion F as [|? ? [F1 F1'] F2]; subst. inversion F2 as [|? ? [F3 F3'] F4]; subst.
    destruct A as [A1 [A2 A3]].
    destruct (swap_calls c m a b R F1 F3 (F1' m) (F3' m) (AP b (or_introl eq_refl)) A1 A2) as [B1 [B2 B3]].
    destruct (sim_run (pre ++ post) _ _ B3 F4 A3) as [B4 B5].
    assert (Rb : reached c (fst (step b m))) by (apply reached_next; auto).
    destruct (IH post (fst (step b m)) Rb) as [B6 B7].
    + constructor; [split; auto|exact F4].
    + intros x Hx. apply AP. now right.
    + split; auto.
    + split; [split; auto|]. eapply sim_trans; [exact B7|exact B5].
Qed.

Lemma about_in k o : about k o = true <-> In k (touches o).
Proof.
  unfold about. rewrite existsb_exists. split; [intros [x [H E]]; apply String.eqb_eq in E; now subst|]. intros H. exists k. split; [auto|apply String.eqb_refl].
Qed.
Lemma touches_some o : exists k, In k (touches o).
Proof. destruct o; cbn; eauto. Qed.

Lemma first_about a ops : (forall k, In k (touches a) -> exists rest, filter (about k) ops = a :: rest) ->
  exists pre post, ops = pre ++ a :: post /\ forall b, In b pre -> apart a b.
Proof.
  induction ops as [|x t IH]; intros H.
  - destruct (touches_some a) as [k Hk]. destruct (H k Hk) as [r E]. discriminate E.
  - destruct (existsb (fun k => about k x) (touches a)) eqn:E.
    + apply existsb_exists in E. destruct E as [k [Hk E]]. destruct (H k Hk) as [r Er]. cbn [filter] in Er. rewrite E in Er. injection Er as -> _.
      exists [], t. split; [reflexivity|]. intros b [].
    + assert (NA : forall k, In k (touches a) -> about k x = false).
      { intros k Hk. destruct (about k x) eqn:E1; [|reflexivity]. assert (X : existsb (fun k => about k x) (touches a) = true) by (apply existsb_exists; eauto). congruence. }
      destruct IH as [pre [post [-> AP]]].
      { intros k Hk. destruct (H k Hk) as [r Er]. cbn [filter] in Er. rewrite NA in Er by auto. eauto. }
      exists (x :: pre), post. split; [reflexivity|]. intros b [<-|Hb]; [|auto]. intros k Hk Hk2. apply about_in in Hk2. rewrite NA in Hk2 by auto. discriminate Hk2.
Qed.

Lemma filter_apart a pre k : (forall b, In b pre -> apart a b) -> In k (touches a) -> filter (about k) pre = [].
Proof.
  intros AP Hk. induction pre as [|b t IH]; [reflexivity|]. cbn [filter]. destruct (about k b) eqn:E.
  - apply about_in in E. exfalso. exact (AP b (or_introl eq_refl) k Hk E).
  - apply IH. intros x Hx. apply AP. now right.
Qed.

Theorem any_order c : forall ops ops' m, reached c m -> Forall fine ops -> accepted ops m -> same_order ops ops' ->
  Forall fine ops' /\ accepted ops' m /\ sim (run ops' m) (run ops m).
Proof.
  induction ops as [|a t IH]; intros ops' m R F A SO.
  - assert (ops' = []) as ->.
    { destruct ops' as [|x r]; [reflexivity|]. destruct (touches_some x) as [k Hk]. specialize (SO k). cbn [filter] in SO. rewrite (proj2 (about_in k x) Hk) in SO. discriminate SO. }
    split; [constructor|]. split; [exact I|]. eapply sim_refl; eauto.
  - inversion F as [|? ? F1 F2]; subst. destruct A as [A1 A2].
    destruct (first_about a ops') as [pre [post [-> AP]]].
    { intros k Hk. specialize (SO k). cbn [filter] in SO. rewrite (proj2 (about_in k a) Hk) in SO. eauto. }
    assert (SO' : same_order t (pre ++ post)).
    { intros k. specialize (SO k). rewrite filter_app in *. cbn [filter] in SO. destruct (about k a) eqn:E; [|exact SO].
      apply about_in in E. rewrite (filter_apart a pre k AP E) in *. cbn [app] in *. now injection SO. }
    assert (Ra : reached c (fst (step a m))) by (apply reached_next; [auto|apply F1]).
    destruct (IH (pre ++ post) (fst (step a m)) Ra F2 A2 SO') as [B1 [B2 B3]].
    destruct (bring_forward c a pre post m R) as [B4 B5]; auto; [split; auto|].
    split; [|split; [exact B4|]].
    + apply Forall_app in B1. apply Forall_app. split; [apply B1|]. constructor; [exact F1|apply B1].
    + eapply sim_trans; [exact B5|]. exact B3.
Qed.

Theorem order_irrelevant c m ops ops' : reached c m -> Forall constraint_call ops -> sane ops m -> accepted ops m -> same_order ops ops' ->
  accepted ops' m /\ same_dispatch (run ops' m) (run ops m).
Proof.
  intros R C S A SO. assert (F := fine_calls ops m C S). destruct (any_order c ops ops' m R F A SO) as [F' [A' SM]].
  split; [exact A'|]. eapply sim_dispatch; [| |exact SM]; eapply reached_run; eauto.
Qed.

Theorem two_calls c m o1 o2 : reached c m -> constraint_call o1 -> constraint_call o2 -> sane_op o1 m -> sane_op o2 m ->
  (forall k, In k (touches o1) -> ~ In k (touches o2)) ->
  snd (step o1 m) = None -> snd (step o2 (fst (step o1 m))) = None ->
  snd (step o2 m) = None /\ snd (step o1 (fst (step o2 m))) = None /\ same_dispatch (run [o2; o1] m) (run [o1; o2] m).
Proof.
  intros R C1 C2 S1 S2 AP A1 A2. destruct (swap_calls c m o1 o2 R C1 C2 S1 S2 AP A1 A2) as [B1 [B2 B3]].
  split; [exact B1|]. split; [exact B2|]. apply (sim_dispatch c c); [| |exact B3].
  - apply (reached_next c (fst (step o2 m)) o1); [now apply reached_next|now apply (sane_anywhere o1 m)].
  - apply (reached_next c (fst (step o1 m)) o2); [now apply reached_next|now apply (sane_anywhere o2 m)].
Qed.
