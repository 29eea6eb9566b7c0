(** The groups at the end of a history are those that its calls wrote. *)

From Coq Require Import QArith Lqa String List Bool Arith Lia ZArith.
Import ListNotations.
From Verif Require Import PandasModel TablesModel VariableIdsModel MarketConstraintsModel
  UnitConstraintsModel RampModel FcasModel InterModel ElasticModel MarketModel SolverModel
  SpecHistory SpecLp SpecElastic SpecOrder SpecReplace SpecExact SpecMixed PandasFacts StepFacts InvariantFacts PlanFacts ReplaceFacts NarrowFacts
  MeaningFacts LimitFacts LockstepFacts.
Open Scope string_scope.
Open Scope list_scope.

Definition standing (m : market) (w : write) : Prop :=
  match w with
  | WUnit k mr mm => In k unit_keys /\ exists n, dget k (m_rhs m) = Some (mr n) /\ dget k (m_c2v_unit m) = Some (mm n)
  | WReg k mr mm => In k regional_keys /\ exists n, dget k (m_mrhs m) = Some (mr n) /\ dget k (m_c2v_reg m) = Some (mm n)
  | WGeneric l => exists n, dget "generic" (m_rhs m) = Some (generic_rhs l n)
  | WTie _ => dget "tie_break" (m_rhs m) <> None
  end.

Definition in_mrhs (w : write) : bool := match w with WReg _ _ _ => true | _ => false end.

(** [L] are the groups written, [F] those made elastic, [z] tells whether losses were set. *)
Record book (L : list write) (F : list string) (z : bool) (m : market) : Prop := {
  bk_stand : forall w, In w L -> standing m w;
  bk_rhs : forall k rows, dget k (m_rhs m) = Some rows ->
    (exists w, In w L /\ wkey w = k /\ in_mrhs w = false) \/ (k = "interpolation_weights" /\ z = true);
  bk_mrhs : forall k rows, dget k (m_mrhs m) = Some rows -> exists w, In w L /\ wkey w = k /\ in_mrhs w = true;
  bk_nc : exists n, m_nc m = Some n;
  bk_lhs : forall k, dget (deficit_key k) (m_lhs m) <> None -> In k F;
  bk_def : forall key l, In (key, l) (m_deficits m) -> exists k, In k F /\ key = deficit_key k;
  bk_flex : forall k, In k F -> group m k <> None;
  bk_none : z = false -> m_weights m = None /\ m_dyn m = None }.

(** Markets that agree on the groups. *)
Definition same_groups (m m' : market) : Prop :=
  m_rhs m' = m_rhs m /\ m_mrhs m' = m_mrhs m /\ m_c2v_unit m' = m_c2v_unit m /\ m_c2v_reg m' = m_c2v_reg m
  /\ m_nc m' = m_nc m /\ m_lhs m' = m_lhs m /\ m_deficits m' = m_deficits m /\ m_weights m' = m_weights m
  /\ m_dyn m' = m_dyn m.

Lemma book_same L F z m m' : same_groups m m' -> book L F z m -> book L F z m'.
Proof.
  intros [E1 [E2 [E3 [E4 [E5 [E6 [E7 [E8 E9]]]]]]]] [A B C D G H H' I]. constructor.
  - intros w Hw. pose proof (A w Hw) as S. destruct w; cbn [standing] in *; rewrite ?E1, ?E2, ?E3, ?E4; exact S.
  - rewrite E1. exact B.
  - rewrite E2. exact C.
  - rewrite E5. exact D.
  - rewrite E6. exact G.
  - rewrite E7. exact H.
  - unfold group. rewrite E1, E2. exact H'.
  - now rewrite E8, E9.
Qed.

Lemma book_new c m0 : new_market c = Ok m0 -> book [] [] false m0.
Proof.
  unfold new_market. destruct (check_unit_info c); [discriminate|]. intros H; inversion H.
  constructor; cbn; try reflexivity; try contradiction; try discriminate; eauto.
Qed.

Lemma dset_kept {A} k k' (v : A) d : dget k d <> None -> dget k (dset k' v d) <> None.
Proof.
  intros H. destruct (string_dec k k') as [->|N]; [rewrite dget_dset_same; discriminate|]. now rewrite dget_dset_other by congruence.
Qed.
Lemma group_kept_rhs m k k' l : group m k <> None -> group (set_m_rhs (dset k' l (m_rhs m)) m) k <> None.
Proof. unfold group. fields. destruct (dget k (m_mrhs m)); [discriminate|]. apply dset_kept. Qed.
Lemma group_kept_mrhs m k k' l : group m k <> None -> group (set_m_mrhs (dset k' l (m_mrhs m)) m) k <> None.
Proof.
  unfold group. fields. intros H. destruct (dget k (dset k' l (m_mrhs m))) eqn:E; [discriminate|].
  destruct (dget k (m_mrhs m)) eqn:E2; [|exact H]. exfalso. apply (dset_kept k k' l (m_mrhs m)); congruence.
Qed.

(** A group that is made elastic. *)
Lemma book_flex L F z k v m m' : book L F z m -> make_elastic k v m = (m', None) -> book L (F ++ [k]) z m'.
Proof.
  intros B H. destruct (make_elastic_accepted _ _ _ _ H) as [rows [G C]].
  assert (M : book L (F ++ [k]) z m).
  { destruct B as [A B C' D E F' G' I]. constructor; auto.
    - intros k' Hk'. apply in_or_app. left. auto.
    - intros key l Hl. destruct (F' key l Hl) as [k' [H1 H2]]. exists k'. rewrite in_app_iff. auto.
    - intros k' Hk'. apply in_app_or in Hk'. destruct Hk' as [Hk'|[<-|[]]]; [auto|congruence]. }
  destruct C as [[_ [_ ->]]|[cr [_ [Ad _]]]]; [exact M|].
  destruct (add_deficits_accepted _ _ _ _ Ad) as [[_ ->]|[b [_ ->]]]; [exact M|].
  destruct M as [A0 B0 C0 D0 E0 F0 G0 I0]. constructor; fields; auto.
  - intros k' Hk'. destruct (string_dec (deficit_key k') (deficit_key k)) as [Ek|Nk].
    + apply deficit_key_inj in Ek. subst. apply in_or_app. right. now left.
    + rewrite dget_dset_other in Hk' by congruence. auto.
  - intros key l Hl. apply in_dset in Hl. destruct Hl as [[E1 _]|Hl]; [subst key|now apply F0 in Hl]. exists k. rewrite in_app_iff. cbn. auto.
Qed.

Lemma book_flexes fs : forall L F z m m', book L F z m -> do_flexes fs m = (m', None) ->
  exists F', (forall k, In k F' -> In k F \/ In k (map fl_key fs)) /\ (forall k, In k F -> In k F') /\ book L F' z m'.
Proof.
  induction fs as [|f t IH]; intros L F z m m' B H; cbn [do_flexes] in H.
  - inversion H; subst. exists F. auto.
  - apply andthen_ok in H. destruct H as [m1 [H1 H2]].
    assert (X : exists F1, (forall k, In k F1 -> In k F \/ k = fl_key f) /\ (forall k, In k F -> In k F1) /\ book L F1 z m1).
    { unfold do_flex, elastic_if_present in H1.
      assert (Y : make_elastic (fl_key f) (fl_cost f) m = (m1, None) -> exists F1, (forall k, In k F1 -> In k F \/ k = fl_key f) /\ (forall k, In k F -> In k F1) /\ book L F1 z m1).
      { intros E. exists (F ++ [fl_key f]). split; [|split; [intros k Hk; apply in_or_app; now left|now apply (book_flex L F z _ (fl_cost f) m)]].
        intros k Hk. apply in_app_or in Hk. destruct Hk as [Hk|[<-|[]]]; auto. }
      destruct (fl_if f); [|now apply Y]. destruct (dhas _ _); [now apply Y|]. inversion H1; subst. exists F. auto. }
    destruct X as [F1 [X1 [X3 X2]]]. destruct (IH L F1 z m1 m' X2 H2) as [F2 [Y1 [Y3 Y2]]]. exists F2. split; [|split; [auto|exact Y2]].
    intros k Hk. cbn [map]. destruct (Y1 k Hk) as [Hk'|Hk']; [|right; now right]. destruct (X1 k Hk') as [Z | ->]; [now left|right; now left].
Qed.

(** Groups of other names stay. *)
Lemma book_write L F z w m m' : book L F z m -> ~ In (wkey w) (map wkey L) -> regular w ->
  do_write w m = (m', None) -> book (L ++ [w]) F z m'.
Proof.
  intros B N R H. destruct (bk_nc _ _ _ _ B) as [n En].
  assert (Old : forall k rows, dget k (m_rhs m) = Some rows ->
    (exists w', In w' (L ++ [w]) /\ wkey w' = k /\ in_mrhs w' = false) \/ (k = "interpolation_weights" /\ z = true)).
  { intros k rows D. destruct (bk_rhs _ _ _ _ B _ _ D) as [[w' [Hw E]]|E]; [left|now right]. exists w'. rewrite in_app_iff. auto. }
  assert (Oldm : forall k rows, dget k (m_mrhs m) = Some rows -> exists w', In w' (L ++ [w]) /\ wkey w' = k /\ in_mrhs w' = true).
  { intros k rows D. destruct (bk_mrhs _ _ _ _ B _ _ D) as [w' [Hw E]]. exists w'. rewrite in_app_iff. auto. }
  assert (New : forall k rows new, in_mrhs w = false -> dget k (dset (wkey w) new (m_rhs m)) = Some rows ->
    (exists w', In w' (L ++ [w]) /\ wkey w' = k /\ in_mrhs w' = false) \/ (k = "interpolation_weights" /\ z = true)).
  { intros k rows new Ew D. destruct (string_dec k (wkey w)) as [->|Nk]; [left; exists w; rewrite in_app_iff; cbn; auto|].
    rewrite dget_dset_other in D by congruence. eauto. }
  assert (Other : forall w', In w' L -> wkey w <> wkey w').
  { intros w' Hw E. apply N. rewrite E. now apply in_map. }
  assert (Stay : forall w', In w' L -> standing m w') by (intros; now apply (bk_stand _ _ _ _ B)).
  assert (Flex : forall k, In k F -> group m k <> None) by (apply (bk_flex _ _ _ _ B)).
  destruct B as [_ _ _ _ Bl Bd _ B1].
  destruct w as [k mr mm|k mr mm|l|ps]; cbn [do_write wkey regular in_mrhs] in *.
  - unfold new_unit_group in H. rewrite En in H. destruct (next_id _) as [n'|]; inversion H; subst m'. clear H.
    constructor; unfold put_unit; fields; auto.
    + intros w Hw. apply in_app_or in Hw. destruct Hw as [Hw|[<-|[]]].
      * specialize (Stay w Hw). specialize (Other w Hw).
        destruct w; cbn [standing wkey] in *; fields; rewrite ?dget_dset_other by congruence; exact Stay.
      * cbn [standing]. split; [apply R|]. exists n. fields. now rewrite !dget_dset_same.
    + intros k' rows D. exact (New k' rows _ eq_refl D).
    + eauto.
    + intros k' Hk'. exact (group_kept_rhs m k' k _ (Flex k' Hk')).
  - unfold new_regional_group in H. rewrite En in H. destruct (next_id _) as [n'|]; inversion H; subst m'. clear H.
    constructor; unfold put_regional; fields; auto.
    + intros w Hw. apply in_app_or in Hw. destruct Hw as [Hw|[<-|[]]].
      * specialize (Stay w Hw). specialize (Other w Hw).
        destruct w; cbn [standing wkey] in *; fields; rewrite ?dget_dset_other by congruence; exact Stay.
      * cbn [standing]. split; [apply R|]. exists n. fields. now rewrite !dget_dset_same.
    + intros k' rows D. destruct (string_dec k' k) as [->|Nk].
      * exists (WReg k mr mm). rewrite in_app_iff. cbn. auto.
      * rewrite dget_dset_other in D by congruence. eauto.
    + eauto.
    + intros k' Hk'. exact (group_kept_mrhs m k' k _ (Flex k' Hk')).
  - inversion H; subst m'. clear H. unfold put_generic. rewrite En.
    constructor; fields; auto.
    + intros w Hw. apply in_app_or in Hw. destruct Hw as [Hw|[<-|[]]].
      * specialize (Stay w Hw). specialize (Other w Hw).
        destruct w; cbn [standing wkey] in *; fields; rewrite ?dget_dset_other by congruence; exact Stay.
      * cbn [standing]. exists n. fields. now rewrite dget_dset_same.
    + intros k' rows D. exact (New k' rows _ eq_refl D).
    + destruct l as [|g t]; [congruence|]. unfold generic_rhs. rewrite save_index_cons. cbn [map next_id]. eauto.
    + intros k' Hk'. exact (group_kept_rhs m k' "generic" _ (Flex k' Hk')).
  - inversion H; subst m'. clear H. unfold put_tie. rewrite En.
    constructor; fields; auto.
    + intros w Hw. apply in_app_or in Hw. destruct Hw as [Hw|[<-|[]]]; [|cbn [standing]; fields; rewrite dget_dset_same; discriminate].
      specialize (Stay w Hw). specialize (Other w Hw).
      destruct w; cbn [standing wkey] in *; fields; rewrite ?dget_dset_other by congruence; exact Stay.
    + intros k' rows D. exact (New k' rows _ eq_refl D).
    + destruct ps as [|g t]; [congruence|]. unfold tie_rhs. rewrite save_index_cons. cbn [map next_id]. eauto.
    + intros k' Hk'. apply Bl. rewrite dget_dset_other in Hk' by apply deficit_key_tie. exact Hk'.
    + intros k' Hk'. exact (group_kept_rhs m k' "tie_break" _ (Flex k' Hk')).
Qed.

Lemma book_writes ws : forall L F z m m', book L F z m -> NoDup (map wkey ws) -> (forall w, In w ws -> ~ In (wkey w) (map wkey L)) ->
  Forall regular ws -> do_writes ws m = (m', None) -> book (L ++ ws) F z m'.
Proof.
  induction ws as [|w t IH]; intros L F z m m' B N D R H; cbn [do_writes] in H.
  - inversion H; subst. now rewrite app_nil_r.
  - apply andthen_ok in H. destruct H as [m1 [H1 H2]]. inversion N as [|? ? N1 N2]; subst. inversion R; subst.
    assert (B1 : book (L ++ [w]) F z m1).
    { apply (book_write L F z w m); auto. apply D. now left. }
    replace (L ++ w :: t) with ((L ++ [w]) ++ t) by now rewrite <- app_assoc.
    apply (IH _ _ _ m1); auto.
    intros w' Hw' E. rewrite map_app, in_app_iff in E. destruct E as [E|[E|[]]].
    + apply (D w'); [now right|exact E].
    + apply N1. rewrite E. now apply in_map.
Qed.

(** The losses are set. *)
Lemma book_losses L F z lf bps m m' : book L F z m -> set_losses lf bps m = (m', None) -> book L F true m'.
Proof.
  intros B H. destruct (set_losses_cases lf bps m) as [[e E]|[[e E]|[p [_ E]]]]; rewrite E in H; inversion H; subst m'. clear H E.
  destruct (bk_nc _ _ _ _ B) as [n En]. destruct B as [A B C D E F' G I]. unfold put_losses. rewrite En. constructor; fields; auto.
  - intros w Hw. specialize (A w Hw).
    destruct w; cbn [standing] in *; fields; rewrite ?dget_dset_other by (try discriminate; destruct A as [A _]; apply unit_key_ok in A; intuition congruence);
      exact A.
  - intros k rows Dk. destruct (string_dec k "interpolation_weights") as [->|Nk]; [now right|].
    rewrite dget_dset_other in Dk by congruence. destruct (B k rows Dk) as [X|[X _]]; [now left|contradiction].
  - eauto.
  - intros k Hk. apply E. rewrite dget_dset_other in Hk; [exact Hk|]. intros X. symmetry in X. exact (deficit_key_losses k X) || exact (deficit_key_losses k (eq_sym X)).
  - intros k Hk. exact (group_kept_rhs m k "interpolation_weights" _ (G k Hk)).
  - discriminate.
Qed.

Lemma plan_NoDup o m ws fs : plan o m = Some (ws, fs) -> NoDup (map wkey ws).
Proof.
  assert (WI : forall A (l : list A) w, map wkey (w_if l w) = [] \/ map wkey (w_if l w) = [wkey w]).
  { intros A l w. destruct l; cbn; auto. }
  assert (Two : forall a b : string, a <> b -> NoDup [a; b]).
  { intros a b N. constructor; [intros [E|[]]; congruence|]. constructor; [tauto|constructor]. }
  intros H. destruct o; cbn [plan] in H; try discriminate H;
    try (injection H as <- <-; cbn; constructor; [tauto|constructor]).
  - destruct (ramp_step _ _ _ _ _ _); [|discriminate H]. injection H as <- <-.
    destruct (bdu_ramp_step _ _ _ _); cbn; repeat (constructor; [cbn; intuition discriminate|]); constructor.
  - destruct (fast_start_rhs _ 0); injection H as <- <-; cbn; repeat (constructor; [tauto|]); constructor.
  - destruct (m_bids m); [|discriminate H]. destruct (fast_start_adjust _ _ _ _); [|discriminate H].
    injection H as <- <-. rewrite !map_app.
    repeat match goal with |- context [w_if ?l ?w] => destruct (WI _ l w) as [-> | ->] end;
      cbn; repeat (constructor; [cbn; intuition discriminate|]); constructor.
  - destruct (m_obj_bids m); [|discriminate H]. destruct (m_bids m); [|discriminate H]. injection H as <- <-. cbn.
    constructor; [tauto|constructor].
Qed.

(** ** The book of a history *)

(** The groups that a call in scope writes. *)
Definition wrote (o : op) (m : market) (ws : list write) : Prop :=
  match plan o m with Some (ws', _) => ws = ws' | None => ws = [] end.

Record entry := Entry { en_op : op; en_at : market; en_ws : list write }.

Definition accounts (m0 : market) (ops : list op) (B : list entry) : Prop :=
  map en_op B = ops
  /\ (forall e, In e B -> wrote (en_op e) (en_at e) (en_ws e)
        /\ exists pre post, ops = pre ++ en_op e :: post /\ en_at e = run pre m0).

Definition is_losses (o : op) : bool := match o with OpLosses _ _ => true | _ => false end.
Definition lossy (ops : list op) : bool := existsb is_losses ops.

Lemma quiet_step c ops o m : in_scope c ops o -> ~ planned o -> same_groups m (fst (step o m)).
Proof.
  intros [Ca S] P. unfold same_groups.
  destruct o; try (exfalso; exact (P I)); try contradiction S; try discriminate Ca; cbn [step].
  - unfold set_volume_bids, guard, raise. destruct (check_bids _ _ _); [cbn; auto 20|].
    destruct (check_bdu _ _); [cbn; auto 20|]. destruct (next_id _); cbn; auto 20.
  - unfold set_price_bids, guard, raise. destruct (m_bids m); [|cbn; auto 20]. destruct (check_bids _ _ _); [cbn; auto 20|].
    destruct (check_bdu _ _); cbn; auto 20.
  - unfold set_interconnectors, guard, raise. destruct (check_inter _ _); [cbn; auto 20|]. destruct (next_id _); cbn; auto 20.
  - unfold link_units, guard, raise. destruct (check_gunit _ _); cbn; auto 20.
  - unfold link_regions, guard, raise. destruct (check_gregion _ _); cbn; auto 20.
  - unfold link_inters, guard, raise. destruct (check_ginter _); cbn; auto 20.
Qed.

Lemma quiet_plan o m : ~ planned o -> plan o m = None.
Proof. intros P. destruct o; try reflexivity; exfalso; exact (P I). Qed.

Lemma planned_dec o : planned o \/ ~ planned o.
Proof. destruct o; cbn; auto. Qed.

Lemma scope_wide c ops o : in_scope c ops o -> in_scope_losses c ops o.
Proof. intros H. destruct o; try exact H. destruct H as [_ []]. Qed.

Lemma NoDup_app_inv {A} (a b : list A) : NoDup (a ++ b) -> NoDup a /\ NoDup b /\ forall x, In x a -> ~ In x b.
Proof.
  induction a as [|x t IH]; cbn; intros H; [repeat split; auto; constructor|].
  inversion H as [|? ? N1 N2]; subst. destruct (IH N2) as [I1 [I2 I3]]. repeat split; auto.
  - constructor; auto. intros Hx. apply N1. apply in_or_app. now left.
  - intros y [<-|Hy] Hb; [apply N1; apply in_or_app; now right|exact (I3 y Hy Hb)].
Qed.

Lemma flex_paid o m ws fs f : plan o m = Some (ws, fs) -> In f fs -> cost_arg o <> None.
Proof. intros E Hf Hc. destruct (plan_hard o m ws fs Hc E) as [-> _]. destruct Hf. Qed.

Lemma booked c all m0 ops : new_market c = Ok m0 -> sane ops m0 -> accepted ops m0 -> one_each (settings ops) ->
  (forall o, In o ops -> cost_arg o = None -> in_scope_losses c all o) ->
  exists B F, accounts m0 ops B /\ book (flat_map en_ws B) F (lossy ops) (run ops m0)
    /\ (forall k, In k F -> exists o, In o ops /\ In k (touches o) /\ cost_arg o <> None)
    /\ forall k v, In (OpElastic k v) ops -> In k F.
Proof.
  intros H0. induction ops as [|o ops IH] using rev_ind; intros Sa Ac On Sc.
  { exists [], []. split; [split; [reflexivity|intros e []]|]. split; [now apply book_new in H0|]. split; [intros k []|intros k v []]. }
  unfold sane, accepted in Sa, Ac. apply along_app in Sa, Ac. destruct Sa as [Sa [Sao _]], Ac as [Ac [Aco _]].
  unfold one_each, settings in On. rewrite filter_app, flat_map_app in On. fold (settings ops) in On.
  apply NoDup_app_inv in On. destruct On as [On1 [On2 On3]].
  destruct (IH Sa Ac On1) as [B [F [[A1 A2] [Bk [Fl El]]]]].
  { intros o' Ho'. apply Sc. apply in_or_app. now left. }
  assert (Sco : cost_arg o = None -> in_scope_losses c all o) by (apply Sc; apply in_or_app; right; now left).
  set (m := run ops m0) in *.
  assert (W : exists ws F', wrote o m ws /\ book (flat_map en_ws B ++ ws) F' (lossy ops || is_losses o) (fst (step o m))
     /\ (forall k, In k F' -> In k F \/ In k (touches o) /\ cost_arg o <> None) /\ (forall k, In k F -> In k F')
     /\ forall k v, o = OpElastic k v -> In k F').
  { destruct (planned_dec o) as [P|P].
    - assert (Zo : is_losses o = false) by (destruct o; try reflexivity; contradiction P). rewrite Zo, orb_false_r. clear Zo.
      destruct (accepted_plan o m P Sao Aco) as [ws [fs [E [R G]]]].
      specialize (G m (conj eq_refl (conj eq_refl eq_refl))). rewrite G in Aco |- *.
      destruct (andthen (do_writes ws m) (do_flexes fs)) as [m' e] eqn:D. cbn in Aco. subst e. cbn [fst].
      apply andthen_ok in D. destruct D as [m1 [D1 D2]].
      assert (B1 : book (flat_map en_ws B ++ ws) F (lossy ops) m1).
      { apply (book_writes ws _ _ _ m); auto; [now apply plan_NoDup in E|].
        intros w Hw Hk. apply in_map_iff in Hk. destruct Hk as [w' [Ew Hw']]. apply in_flat_map in Hw'.
        destruct Hw' as [e [He Hw']]. destruct (A2 e He) as [We [pre [post [Eo _]]]].
        unfold wrote in We. destruct (plan (en_op e) (en_at e)) as [[ws' fs']|] eqn:E'; [subst ws'|rewrite We in Hw'; destruct Hw'].
        pose proof (plan_keys _ _ _ _ E) as K. pose proof (plan_keys _ _ _ _ E') as K'. apply (On3 (wkey w)).
        + apply in_flat_map. exists (en_op e). split; [|rewrite <- Ew; now apply (proj1 K')].
          apply filter_In. split; [rewrite Eo; apply in_or_app; right; now left|]. destruct (en_op e); try reflexivity. discriminate E'.
        + apply in_flat_map. exists o. split; [|now apply (proj1 K)]. apply filter_In. split; [now left|].
          destruct o; try reflexivity. contradiction P. }
      destruct (book_flexes fs _ _ _ _ _ B1 D2) as [F' [F1 [F3 F2]]]. exists ws, F'. split; [unfold wrote; now rewrite E|]. split; [exact F2|].
      split; [|split; [exact F3|intros k v ->; contradiction P]].
      intros k Hk. destruct (F1 k Hk) as [Hk'|Hk']; [now left|right]. apply in_map_iff in Hk'. destruct Hk' as [f [<- Hf]].
      split; [now apply (plan_keys _ _ _ _ E)|now apply (flex_paid o m ws fs f)].
    - exists []. rewrite app_nil_r. destruct (cost_arg o) as [v|] eqn:Ca.
      + destruct o; cbn [cost_arg] in Ca; try discriminate Ca; try (exfalso; exact (P I)). cbn [step] in *.
        destruct (make_elastic k v0 m) as [m' e] eqn:D. cbn in Aco. subst e. exists (F ++ [k]). split; [reflexivity|]. split.
        * cbn [is_losses]. rewrite orb_false_r. now apply (book_flex _ _ _ k v0 m).
        * split; [|split; [intros k' Hk'; apply in_or_app; now left|intros k' v' Ek; inversion Ek; subst; apply in_or_app; right; now left]].
          intros k' Hk'. apply in_app_or in Hk'. destruct Hk' as [Hk'|[<-|[]]]; [now left|]. right. split; [now left|discriminate].
      + exists F. split; [unfold wrote; now rewrite (quiet_plan o m P)|]. split; [|split; [auto|split; [auto|intros k v ->; discriminate Ca]]].
        destruct (is_losses o) eqn:Z.
        * destruct o; try discriminate Z. cbn [step] in *. destruct (set_losses lf bps m) as [m' e] eqn:D. cbn in Aco. subst e.
          rewrite orb_true_r. now apply (book_losses _ _ (lossy ops) lf bps m).
        * rewrite orb_false_r. apply (book_same _ _ _ m); [|exact Bk]. apply (quiet_step c all); auto.
          specialize (Sco eq_refl). destruct o; try exact Sco. discriminate Z. }
  destruct W as [ws [F' [Wr [Bk' [Fl' [Kp Le]]]]]]. exists (B ++ [Entry o m ws]), F'. split; [split|split; [|split]].
  - rewrite map_app. cbn. now rewrite A1.
  - intros e He. apply in_app_or in He. destruct He as [He|[<-|[]]].
    + destruct (A2 e He) as [We [pre [post [Eo Ea]]]]. split; [exact We|]. exists pre, (post ++ [o]).
      split; [now rewrite Eo, <- app_assoc|exact Ea].
    + cbn. split; [exact Wr|]. exists ops, []. auto.
  - rewrite flat_map_app. cbn [flat_map en_ws]. rewrite app_nil_r, run_app. cbn [run]. unfold lossy. rewrite existsb_app. cbn [existsb]. rewrite orb_false_r. exact Bk'.
  - intros k Hk. destruct (Fl' k Hk) as [Hk'|[K1 K2]].
    + destruct (Fl k Hk') as [o' [Ho' K]]. exists o'. split; [apply in_or_app; now left|exact K].
    + exists o. split; [apply in_or_app; right; now left|auto].
  - intros k v Hk. apply in_app_or in Hk. destruct Hk as [Hk|[Hk|[]]]; [apply Kp; now apply (El k v)|now apply (Le k v)].
Qed.
