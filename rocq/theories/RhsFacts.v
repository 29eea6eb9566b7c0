(** Lemmas about the state of the right hand side calculator. *)

From Coq Require Import QArith Qabs Lqa String List Bool Arith Lia.
Import ListNotations.
From Verif Require Import PandasModel RhsModel SpecRhs PandasFacts.
Open Scope string_scope.
Open Scope list_scope.

(** ** Terms that differ in values that are set again *)

Definition same_term (free : term -> bool) (a b : term) : Prop :=
  set_value a None = set_value b None /\ (t_value a = t_value b \/ free a = true).

Definition resolves (st : store) (t : term) : bool :=
  negb (type_is "C" t)
  && (mem_str (t_type t) scada_types
      || (dhas (t_id t) (s_mw st) && type_is "T" t) || (dhas (t_id t) (s_entered st) && type_is "E" t)
      || (dhas (t_id t) (s_generic st) && type_is "X" t)
      || (dhas (t_id t) (s_from st) && type_is "M" t) || (dhas (t_id t) (s_to st) && type_is "N" t)).
Definition is_free (st : store) (t : term) : bool := type_is "G" t || resolves st t.

Definition same_eqs (free : term -> bool) (d d' : dict (list term)) : Prop :=
  Forall2 (fun p p' => fst p = fst p' /\ Forall2 (same_term free) (snd p) (snd p')) d d'.

Record agree (st st' : store) : Prop := {
  ag_scada : s_scada st = s_scada st'; ag_mw : s_mw st = s_mw st'; ag_entered : s_entered st = s_entered st';
  ag_from : s_from st = s_from st'; ag_to : s_to st = s_to st';
  ag_generic : same_eqs (is_free st) (s_generic st) (s_generic st');
  ag_rhs : same_eqs (is_free st) (s_rhs st) (s_rhs st') }.

Lemma free_fields : forall st a b, set_value a None = set_value b None -> is_free st a = is_free st b.
Proof.
  intros st a b E. unfold set_value in E. injection E as E1 E2 E3 E4 E5 E6.
  unfold is_free, resolves, type_is. now rewrite E1, E2.
Qed.
Lemma same_refl : forall f t, same_term f t t.
Proof. intros f t. split; auto. Qed.
Lemma same_sym : forall st a b, same_term (is_free st) a b -> same_term (is_free st) b a.
Proof. intros st a b [E [V|F]]; split; auto. right. now rewrite <- (free_fields st a b E). Qed.
Lemma same_trans : forall st a b c, same_term (is_free st) a b -> same_term (is_free st) b c -> same_term (is_free st) a c.
Proof.
  intros st a b c [E [V|F]] [E' [V'|F']]; split; try congruence; auto.
  - left. congruence.
  - right. now rewrite (free_fields st a b E).
Qed.
Lemma sames_refl : forall f l, Forall2 (same_term f) l l.
Proof. intros f l. induction l; constructor; auto. apply same_refl. Qed.
Lemma sames_sym : forall st l l', Forall2 (same_term (is_free st)) l l' -> Forall2 (same_term (is_free st)) l' l.
Proof. intros st l l' H. induction H; constructor; auto. now apply same_sym. Qed.
Lemma sames_trans : forall st a b, Forall2 (same_term (is_free st)) a b -> forall c, Forall2 (same_term (is_free st)) b c -> Forall2 (same_term (is_free st)) a c.
Proof.
  intros st a b H. induction H; intros c K; inversion K; subst; constructor; auto.
  now apply same_trans with y.
Qed.
Lemma eqs_refl : forall f d, same_eqs f d d.
Proof. intros f d. induction d; constructor; auto. split; [reflexivity|apply sames_refl]. Qed.
Lemma eqs_sym : forall st d d', same_eqs (is_free st) d d' -> same_eqs (is_free st) d' d.
Proof. intros st d d' H. induction H as [|? ? ? ? [A B]]; constructor; auto. split; [now symmetry|now apply sames_sym]. Qed.
Lemma eqs_trans : forall st a b, same_eqs (is_free st) a b -> forall c, same_eqs (is_free st) b c -> same_eqs (is_free st) a c.
Proof.
  intros st a b H. induction H as [|x y ? ? [A B]]; intros c K; inversion K as [|? z ? ? [A' B']]; subst; constructor; auto.
  - split; [congruence|]. now apply sames_trans with (snd y).
  - now apply IHForall2.
Qed.

Lemma eqs_get : forall f d d' id, same_eqs f d d' ->
  match dget id d, dget id d' with
  | Some e, Some e' => Forall2 (same_term f) e e'
  | None, None => True
  | _, _ => False
  end.
Proof.
  intros f d d' id H. induction H as [|[k e] [k' e'] ? ? [A B]]; [exact I|]. cbn [fst snd] in *. subst k'. cbn [dget].
  destruct (String.eqb id k); [exact B|exact IHForall2].
Qed.
Lemma eqs_has : forall f d d' id, same_eqs f d d' -> dhas id d = dhas id d'.
Proof.
  intros f d d' id H. pose proof (eqs_get f d d' id H) as G. unfold dhas. destruct (dget id d), (dget id d'); auto; destruct G.
Qed.
Lemma eqs_set : forall f d id e e', dget id d = Some e -> Forall2 (same_term f) e e' -> same_eqs f d (dset id e' d).
Proof.
  intros f d id e e'. induction d as [|[k x] r IH]; [discriminate|]. cbn [dget dset]. destruct (String.eqb_spec id k) as [->|N].
  - intros E S. injection E as ->. constructor; [split; auto|apply eqs_refl].
  - intros E S. constructor; [split; [reflexivity|apply sames_refl]|now apply IH].
Qed.

Lemma agree_free : forall st st', agree st st' -> forall t, is_free st t = is_free st' t.
Proof.
  intros st st' [A B C D E F _] t. unfold is_free, resolves. rewrite B, C, D, E, (eqs_has _ _ _ (t_id t) F). reflexivity.
Qed.
Lemma same_free : forall f g, (forall t, f t = g t) -> forall a b, same_term f a b -> same_term g a b.
Proof. intros f g E a b [H [V|F]]; split; auto. right. now rewrite <- E. Qed.
Lemma sames_free : forall f g, (forall t, f t = g t) -> forall a b, Forall2 (same_term f) a b -> Forall2 (same_term g) a b.
Proof. intros f g E a b H. induction H; constructor; auto. now apply (same_free f g E). Qed.
Lemma eqs_free : forall f g, (forall t, f t = g t) -> forall a b, same_eqs f a b -> same_eqs g a b.
Proof. intros f g E a b H. induction H as [|? ? ? ? [A B]]; constructor; auto. split; [exact A|now apply (sames_free f g E)]. Qed.

Lemma agree_refl : forall st, agree st st.
Proof. intros st. constructor; auto; apply eqs_refl. Qed.
Lemma agree_sym : forall st st', agree st st' -> agree st' st.
Proof.
  intros st st' H. pose proof (agree_free st st' H) as F. destruct H as [A B C D E G R]. constructor; auto.
  - apply (eqs_free _ _ F). now apply eqs_sym.
  - apply (eqs_free _ _ F). now apply eqs_sym.
Qed.
Lemma agree_trans : forall a b c, agree a b -> agree b c -> agree a c.
Proof.
  intros a b c H K. pose proof (agree_free a b H) as F. destruct H as [A1 A2 A3 A4 A5 A6 A7], K as [B1 B2 B3 B4 B5 B6 B7].
  constructor; try congruence.
  - apply eqs_trans with (s_generic b); [exact A6|]. now apply (eqs_free (is_free b) (is_free a)).
  - apply eqs_trans with (s_rhs b); [exact A7|]. now apply (eqs_free (is_free b) (is_free a)).
Qed.

(** ** Evaluation of an equation *)

Lemma clear_same : forall st a b, Forall2 (same_term (is_free st)) a b ->
  (forall t, In t a -> type_is "G" t = false -> resolves st t = false) -> clear_groups a = clear_groups b.
Proof.
  intros st a b H. induction H as [|x y l l' [E V] H IH]; [reflexivity|]. intros R. cbn [clear_groups map]. f_equal.
  - assert (T : type_is "G" x = type_is "G" y) by (unfold type_is; injection E as -> _ _ _ _ _; reflexivity).
    rewrite <- T. destruct (type_is "G" x) eqn:G; [exact E|].
    destruct V as [V|V].
    + destruct x, y; cbn in *. injection E as -> -> -> -> -> ->. now subst.
    + unfold is_free in V. rewrite G, (R x) in V; [discriminate|now left|exact G].
  - apply IH. intros t Ht. apply R. now right.
Qed.

Lemma set_nth_same : forall f i v l, (forall t, nth_error l i = Some t -> f t = true) -> Forall2 (same_term f) l (set_nth i v l).
Proof.
  intros f i v l. revert i. induction l as [|t r IH]; intros i H; [destruct i; constructor|].
  destruct i as [|i]; cbn [set_nth]; constructor.
  - split; [reflexivity|]. right. now apply H.
  - apply sames_refl.
  - apply same_refl.
  - apply IH. exact H.
Qed.

Definition is_g (t : term) : bool := type_is "G" t.
Lemma g_same : forall st l l', Forall2 (same_term is_g) l l' -> Forall2 (same_term (is_free st)) l l'.
Proof.
  intros st l l' H. induction H as [|x y ? ? [E V]]; constructor; auto. split; [exact E|]. destruct V as [V|V]; [auto|]. right.
  unfold is_free. unfold is_g in V. now rewrite V.
Qed.
Lemma g_trans : forall a b, Forall2 (same_term is_g) a b -> forall c, Forall2 (same_term is_g) b c -> Forall2 (same_term is_g) a c.
Proof.
  intros a b H. induction H as [|x y l l' [E V] H IH]; intros c K; inversion K as [|? z ? ? [E' V'] K']; subst; constructor; auto.
  split; [congruence|]. assert (T : is_g x = is_g y) by (unfold is_g, type_is; injection E as -> _ _ _ _ _; reflexivity).
  destruct V as [V|V], V' as [V'|V']; try (rewrite T; auto; fail); auto. left. congruence.
Qed.

Lemma open_group_eqn : forall calc i t s b s', nth_error (r_eqn s) i = Some t -> open_group calc i t s = Done (b, s') ->
  Forall2 (same_term is_g) (r_eqn s) (r_eqn s').
Proof.
  intros calc i t s b s' N. unfold open_group.
  destruct (type_is "G" t && _ && _) eqn:C.
  - apply andb_true_iff in C. destruct C as [C _]. apply andb_true_iff in C. destruct C as [C _].
    destruct (match t_group t with Some g => Done (Some g) | None => _ end) as [[g|]|e]; [| |discriminate].
    + unfold rbind. destruct (collect_group (r_eqn s) g); [|discriminate]. destruct (calc a); [|discriminate].
      intros H; injection H as <- <-. cbn [r_eqn]. apply set_nth_same. intros t' N'. rewrite N in N'. injection N' as <-. exact C.
    + intros H; injection H as <- <-. apply sames_refl.
  - destruct (t_group t) as [g|].
    + destruct (mem_str g (r_ignore s)); [intros H; injection H as <- <-; apply sames_refl|].
      unfold rbind. destruct (collect_group (r_eqn s) g) as [gr|]; [|discriminate]. destruct (calc gr); [|discriminate].
      destruct (nth_error (r_eqn s) (i + length gr)) as [n|] eqn:N2; [|discriminate]. destruct (type_is "G" n) eqn:G.
      * intros H; injection H as <- <-. cbn [r_eqn]. apply set_nth_same. intros t' N'. rewrite N2 in N'. injection N' as <-. exact G.
      * destruct (r_stack s); [discriminate|]. intros H; injection H as <- <-. apply sames_refl.
    + intros H; injection H as <- <-. apply sames_refl.
Qed.

Lemma rpn_step_eqn : forall root calc i s e r, rpn_step root calc i s = (e, r) ->
  Forall2 (same_term is_g) (r_eqn s) e /\ (forall s', r = Done s' -> r_eqn s' = e).
Proof.
  intros root calc i s e r. unfold rpn_step. destruct (nth_error (r_eqn s) i) as [t|] eqn:N.
  - destruct (open_group calc i t s) as [[[|] s1]|x] eqn:O.
    + intros H; injection H as <- <-. split; [exact (open_group_eqn _ _ _ _ _ _ N O)|]. intros s' E; injection E as <-. reflexivity.
    + pose proof (open_group_eqn _ _ _ _ _ _ N O) as S.
      destruct (t_group t); [|destruct (nth_error (r_eqn s1) i) as [t'|]].
      * intros H; injection H as <- <-. split; [exact S|]. intros s' E; injection E as <-. reflexivity.
      * intros H; injection H as <- <-. split; [exact S|]. intros s'. unfold rbind. destruct (apply_term _ _ _ _); [|discriminate].
        intros E; injection E as <-. reflexivity.
      * intros H; injection H as <- <-. split; [exact S|]. intros s' E; injection E as <-. reflexivity.
    + intros H; injection H as <- <-. split; [apply sames_refl|]. discriminate.
  - intros H; injection H as <- <-. split; [apply sames_refl|]. discriminate.
Qed.

Lemma rpn_loop_eqn : forall root calc n i s, Forall2 (same_term is_g) (r_eqn s) (fst (rpn_loop root calc n i s)).
Proof.
  intros root calc n. induction n as [|n IH]; intros i s; [apply sames_refl|]. cbn [rpn_loop].
  destruct (rpn_step root calc i s) as [e [s'|x]] eqn:E; apply rpn_step_eqn in E; destruct E as [E1 E2].
  - specialize (E2 s' eq_refl). apply g_trans with e; [exact E1|]. rewrite <- E2. apply IH.
  - exact E1.
Qed.

Lemma clear_g : forall l, Forall2 (same_term is_g) l (clear_groups l).
Proof.
  intros l. induction l as [|t r IH]; constructor; auto. destruct (type_is "G" t) eqn:G; [|apply same_refl].
  split; [reflexivity|]. right. exact G.
Qed.
Lemma rpn_stack_eqn : forall root fuel eqn, Forall2 (same_term is_g) eqn (fst (rpn_stack root fuel eqn)).
Proof.
  intros root [|f] eqn; [apply sames_refl|]. cbn [rpn_stack].
  eapply g_trans; [apply clear_g|]. apply (rpn_loop_eqn root _ _ _ (Rpn (clear_groups eqn) [0] [] false)).
Qed.
Lemma rpn_stack_clear : forall root fuel a b, clear_groups a = clear_groups b -> snd (rpn_stack root fuel a) = snd (rpn_stack root fuel b).
Proof.
  intros root [|f] a b E; [reflexivity|]. cbn [rpn_stack]. rewrite E.
  assert (L : length a = length b) by (rewrite <- (map_length (fun t => if type_is "G" t then set_value t None else t) a); fold (clear_groups a); rewrite E; apply map_length).
  now rewrite L.
Qed.
Lemma rpn_calc_clear : forall root a b, clear_groups a = clear_groups b -> snd (rpn_calc root a) = snd (rpn_calc root b).
Proof.
  intros root a b E. unfold rpn_calc. cbn [snd].
  assert (L : length a = length b) by (rewrite <- (map_length (fun t => if type_is "G" t then set_value t None else t) a); fold (clear_groups a); rewrite E; apply map_length).
  rewrite L. f_equal. now apply rpn_stack_clear.
Qed.

(** ** Values *)

Definition steady (gen : store -> string -> store * res Q) : Prop :=
  forall st st' id, agree st st' -> snd (gen st id) = snd (gen st' id) /\ agree st (fst (gen st id)).

Lemma resolve_value_agree : forall gen st st' t t', steady gen -> agree st st' -> set_value t None = set_value t' None ->
  snd (resolve_value gen st t) = snd (resolve_value gen st' t') /\ agree st (fst (resolve_value gen st t))
  /\ (forall v, snd (resolve_value gen st t) = Done v -> resolves st t = match v with Some _ => true | None => false end).
Proof.
  intros gen st st' t t' S A E. assert (E0 := E). unfold set_value in E. injection E as E1 E2 _ _ _ _.
  pose proof (ag_scada _ _ A) as A1. pose proof (ag_mw _ _ A) as A2. pose proof (ag_entered _ _ A) as A3.
  pose proof (ag_from _ _ A) as A4. pose proof (ag_to _ _ A) as A5. pose proof (eqs_has _ _ _ (t_id t) (ag_generic _ _ A)) as A6.
  unfold resolve_value, resolves, type_is. rewrite <- E1, <- E2, <- A1, <- A2, <- A3, <- A4, <- A5, <- A6.
  destruct (String.eqb (t_type t) "C"); cbn [negb andb].
  { split; [reflexivity|]. split; [apply agree_refl|]. intros v H; injection H as <-. reflexivity. }
  destruct (mem_str (t_type t) scada_types); cbn [orb].
  { split; [reflexivity|]. split; [apply agree_refl|]. cbn [snd]. intros v H. destruct v; [reflexivity|].
    unfold rbind in H. destruct (need_key (dget (t_type t) (s_scada st))); [|discriminate]. destruct (need_key _); discriminate. }
  destruct (dhas (t_id t) (s_mw st) && String.eqb (t_type t) "T"); cbn [orb].
  { split; [reflexivity|]. split; [apply agree_refl|]. cbn [snd]. intros v H. destruct v; [reflexivity|]. unfold rbind in H. destruct (need_key _); discriminate. }
  destruct (dhas (t_id t) (s_entered st) && String.eqb (t_type t) "E"); cbn [orb].
  { split; [reflexivity|]. split; [apply agree_refl|]. cbn [snd]. intros v H. destruct v; [reflexivity|]. unfold rbind in H. destruct (need_key _); discriminate. }
  destruct (dhas (t_id t) (s_generic st) && String.eqb (t_type t) "X"); cbn [orb].
  { destruct (S st st' (t_id t) A) as [S1 S2]. cbn [fst snd]. rewrite S1. split; [reflexivity|]. split; [exact S2|].
    intros v H. destruct v; [reflexivity|]. unfold rbind in H. destruct (snd (gen st' (t_id t))); discriminate. }
  destruct (dhas (t_id t) (s_from st) && String.eqb (t_type t) "M"); cbn [orb].
  { split; [reflexivity|]. split; [apply agree_refl|]. cbn [snd]. intros v H. destruct v; [reflexivity|]. unfold rbind in H. destruct (need_key _); discriminate. }
  destruct (dhas (t_id t) (s_to st) && String.eqb (t_type t) "N"); cbn [orb].
  { split; [reflexivity|]. split; [apply agree_refl|]. cbn [snd]. intros v H. destruct v; [reflexivity|]. unfold rbind in H. destruct (need_key _); discriminate. }
  split; [reflexivity|]. split; [apply agree_refl|]. intros v H; injection H as <-. reflexivity.
Qed.

Lemma resolve_terms_agree : forall gen eqn eqn' st st' st1 e1 x st1' e1' x', steady gen -> agree st st' ->
  Forall2 (same_term (is_free st)) eqn eqn' ->
  resolve_terms gen st eqn = (st1, e1, x) -> resolve_terms gen st' eqn' = (st1', e1', x') ->
  x = x' /\ agree st st1 /\ Forall2 (same_term (is_free st)) eqn e1 /\ (x = None -> clear_groups e1 = clear_groups e1').
Proof.
  intros gen eqn. induction eqn as [|t r IH]; intros eqn' st st' st1 e1 x st1' e1' x' S A H; inversion H as [|? t' ? r' [E V] H']; subst.
  - cbn. intros X Y; injection X as <- <- <-; injection Y as <- <- <-.
    split; [reflexivity|]. split; [apply agree_refl|]. split; [constructor|reflexivity].
  - cbn [resolve_terms].
    destruct (resolve_value_agree gen st st' t t' S A E) as [R1 [R2 R3]].
    destruct (resolve_value_agree gen st' st t' t S (agree_sym _ _ A) (eq_sym E)) as [_ [R2' _]].
    destruct (resolve_value gen st t) as [st2 [v|e]], (resolve_value gen st' t') as [st2' [v'|e']]; cbn [fst snd] in *; try discriminate.
    + injection R1 as <-.
      assert (A2 : agree st2 st2') by (apply agree_trans with st; [now apply agree_sym|]; now apply agree_trans with st').
      assert (H2 : Forall2 (same_term (is_free st2)) r r') by (eapply sames_free; [apply (agree_free st st2 R2)|exact H']).
      destruct (resolve_terms gen st2 r) as [[st3 e3] y] eqn:Q, (resolve_terms gen st2' r') as [[st3' e3'] y'] eqn:Q'.
      destruct (IH _ _ _ _ _ _ _ _ _ S A2 H2 Q Q') as [I1 [I2 [I3 I4]]].
      intros X Y; injection X as <- <- <-; injection Y as <- <- <-.
      split; [exact I1|]. split; [now apply agree_trans with st2|]. split.
      * constructor.
        -- specialize (R3 v eq_refl). destruct v as [q|]; [|apply same_refl]. split; [reflexivity|]. right. unfold is_free. rewrite R3. apply orb_true_r.
        -- eapply sames_free; [|exact I3]. intros t0. symmetry. apply (agree_free st st2 R2).
      * intros N. cbn [clear_groups map]. specialize (I4 N). unfold clear_groups in I4. rewrite I4. f_equal.
        specialize (R3 v eq_refl).
        assert (T : type_is "G" t = type_is "G" t') by (unfold type_is; injection E as -> _ _ _ _ _; reflexivity).
        destruct v as [q|].
        -- assert (Eq : forall w, set_value t w = set_value t' w) by (intros w; unfold set_value in *; injection E as -> -> -> -> -> ->; reflexivity).
           replace (type_is "G" (set_value t (Some q))) with (type_is "G" t) by reflexivity.
           replace (type_is "G" (set_value t' (Some q))) with (type_is "G" t') by reflexivity.
           rewrite <- T. destruct (type_is "G" t); [exact (Eq None)|exact (Eq (Some q))].
        -- rewrite <- T. destruct (type_is "G" t) eqn:G; [exact E|]. destruct V as [V|V].
           ++ destruct t, t'; cbn in *. injection E as -> -> -> -> -> ->. now subst.
           ++ unfold is_free in V. rewrite G, R3 in V. discriminate.
    + injection R1 as <-. intros X Y; injection X as <- <- <-; injection Y as <- <- <-.
      split; [reflexivity|]. split; [exact R2|]. split; [apply sames_refl|discriminate].
Qed.

Lemma eval_agree : forall root gen eqn eqn' st st' st1 e1 r st1' e1' r', steady gen -> agree st st' ->
  Forall2 (same_term (is_free st)) eqn eqn' ->
  eval_equation root gen st eqn = (st1, e1, r) -> eval_equation root gen st' eqn' = (st1', e1', r') ->
  r = r' /\ agree st st1 /\ Forall2 (same_term (is_free st)) eqn e1.
Proof.
  intros root gen eqn eqn' st st' st1 e1 r st1' e1' r' S A H. unfold eval_equation.
  destruct (resolve_terms gen st eqn) as [[s2 e2] x] eqn:Q, (resolve_terms gen st' eqn') as [[s2' e2'] x'] eqn:Q'.
  destruct (resolve_terms_agree _ _ _ _ _ _ _ _ _ _ _ S A H Q Q') as [<- [I2 [I3 I4]]].
  destruct x as [e|]; intros X Y; injection X as <- <- <-; injection Y as <- <- <-.
  - auto.
  - split; [apply rpn_calc_clear; auto|]. split; [exact I2|]. eapply sames_trans; [exact I3|].
    apply g_same. exact (rpn_stack_eqn root (Datatypes.S (length e2)) e2).
Qed.

Lemma agree_set_generic : forall st st1 id e e1, agree st st1 -> dget id (s_generic st) = Some e ->
  Forall2 (same_term (is_free st)) e e1 -> agree st (set_generic st1 (dset id e1 (s_generic st1))).
Proof.
  intros st st1 id e e1 A G H. apply agree_trans with st1; [exact A|].
  pose proof (eqs_get _ _ _ id (ag_generic _ _ A)) as K. rewrite G in K. destruct (dget id (s_generic st1)) as [e0|] eqn:G1; [|destruct K].
  assert (F := agree_free st st1 A).
  constructor; cbn; auto; [|apply eqs_refl]. apply eqs_set with e0; [exact G1|].
  apply (sames_free _ _ F). eapply sames_trans; [apply sames_sym; exact K|exact H].
Qed.
Lemma agree_set_rhs : forall st st1 id e e1, agree st st1 -> dget id (s_rhs st) = Some e ->
  Forall2 (same_term (is_free st)) e e1 -> agree st (set_rhs st1 (dset id e1 (s_rhs st1))).
Proof.
  intros st st1 id e e1 A G H. apply agree_trans with st1; [exact A|].
  pose proof (eqs_get _ _ _ id (ag_rhs _ _ A)) as K. rewrite G in K. destruct (dget id (s_rhs st1)) as [e0|] eqn:G1; [|destruct K].
  assert (F := agree_free st st1 A).
  constructor; cbn; auto; [apply eqs_refl|]. apply eqs_set with e0; [exact G1|].
  apply (sames_free _ _ F). eapply sames_trans; [apply sames_sym; exact K|exact H].
Qed.

Lemma generic_steady : forall root d, steady (compute_generic root d).
Proof.
  intros root d. induction d as [|d IH]; intros st st' id A; [cbn; auto using agree_refl|]. cbn [compute_generic].
  pose proof (eqs_get _ _ _ id (ag_generic _ _ A)) as G.
  destruct (dget id (s_generic st)) as [e|] eqn:D, (dget id (s_generic st')) as [e'|] eqn:D'.
  - destruct (eval_equation root (compute_generic root d) st e) as [[s1 e1] r] eqn:Q, (eval_equation root (compute_generic root d) st' e') as [[s1' e1'] r'] eqn:Q'.
    destruct (eval_agree _ _ _ _ _ _ _ _ _ _ _ _ IH A G Q Q') as [I1 [I2 I3]]. cbn [fst snd]. split; [exact I1|].
    now apply agree_set_generic with e.
  - destruct G.
  - destruct G.
  - cbn. auto using agree_refl.
Qed.

Lemma compute_steady : forall root d, steady (compute_rhs root d).
Proof.
  intros root d st st' id A. unfold compute_rhs. pose proof (eqs_get _ _ _ id (ag_rhs _ _ A)) as G.
  destruct (dget id (s_rhs st)) as [e|] eqn:D, (dget id (s_rhs st')) as [e'|] eqn:D'.
  - destruct (eval_equation root (compute_generic root d) st e) as [[s1 e1] r] eqn:Q, (eval_equation root (compute_generic root d) st' e') as [[s1' e1'] r'] eqn:Q'.
    destruct (eval_agree _ _ _ _ _ _ _ _ _ _ _ _ (generic_steady root d) A G Q Q') as [I1 [I2 I3]]. cbn [fst snd]. split; [exact I1|].
    now apply agree_set_rhs with e.
  - destruct G.
  - destruct G.
  - cbn. auto using agree_refl.
Qed.

(** ** Histories *)

Lemma update_agree : forall st st' spd ty v, agree st st' ->
  match update st spd ty v, update st' spd ty v with
  | Done a, Done b => agree a b
  | Fail e, Fail e' => e = e'
  | _, _ => False
  end.
Proof.
  intros st st' spd ty v A. pose proof (ag_scada _ _ A) as A1. pose proof (ag_mw _ _ A) as A2. pose proof (ag_entered _ _ A) as A3.
  pose proof (ag_from _ _ A) as A4. pose proof (ag_to _ _ A) as A5. pose proof (ag_generic _ _ A) as A6. pose proof (ag_rhs _ _ A) as A7.
  unfold update. rewrite <- A1, <- A2, <- A3, <- A4, <- A5.
  destruct (mem_str ty ["C"; "R"; "X"]); [reflexivity|].
  destruct (mem_str ty ["A"; "S"; "I"; "W"]).
  { unfold rbind. destruct (need_key (dget ty (s_scada st))) as [d|]; [|reflexivity]. destruct (need_key (dget spd d)) as [[|a [|b l]]|]; try reflexivity.
    constructor; cbn; auto. }
  assert (H : forall (d : dict Q) k x, dhas spd d = true -> dhas k (dset spd x d) = dhas k d).
  { intros d k x Hd. unfold dhas in *. destruct (string_dec k spd) as [->|N]; [rewrite dget_dset_same; now destruct (dget spd d)|now rewrite dget_dset_other]. }
  destruct (dhas spd (s_mw st) && String.eqb ty "T") eqn:E1.
  { apply andb_true_iff in E1. destruct E1 as [E1 _].
    assert (F : forall t, is_free st t = is_free (Store (s_scada st) (dset spd v (s_mw st)) (s_entered st) (s_from st) (s_to st) (s_generic st) (s_rhs st)) t).
    { intros t. unfold is_free, resolves. cbn. now rewrite (H _ _ _ E1). }
    constructor; cbn; auto; now apply (eqs_free _ _ F). }
  destruct (dhas spd (s_entered st) && String.eqb ty "E") eqn:E2.
  { apply andb_true_iff in E2. destruct E2 as [E2 _].
    assert (F : forall t, is_free st t = is_free (Store (s_scada st) (s_mw st) (dset spd v (s_entered st)) (s_from st) (s_to st) (s_generic st) (s_rhs st)) t).
    { intros t. unfold is_free, resolves. cbn. now rewrite (H _ _ _ E2). }
    constructor; cbn; auto; now apply (eqs_free _ _ F). }
  destruct (dhas spd (s_from st) && String.eqb ty "M") eqn:E3.
  { apply andb_true_iff in E3. destruct E3 as [E3 _].
    assert (F : forall t, is_free st t = is_free (Store (s_scada st) (s_mw st) (s_entered st) (dset spd v (s_from st)) (s_to st) (s_generic st) (s_rhs st)) t).
    { intros t. unfold is_free, resolves. cbn. now rewrite (H _ _ _ E3). }
    constructor; cbn; auto; now apply (eqs_free _ _ F). }
  destruct (dhas spd (s_to st) && String.eqb ty "N") eqn:E4; [|reflexivity].
  apply andb_true_iff in E4. destruct E4 as [E4 _].
  assert (F : forall t, is_free st t = is_free (Store (s_scada st) (s_mw st) (s_entered st) (s_from st) (dset spd v (s_to st)) (s_generic st) (s_rhs st)) t).
  { intros t. unfold is_free, resolves. cbn. now rewrite (H _ _ _ E4). }
  constructor; cbn; auto; now apply (eqs_free _ _ F).
Qed.

Lemma calls_agree : forall root d cs st st', agree st st' -> agree (do_calls root d cs st) (do_calls root d (filter is_update cs) st').
Proof.
  intros root d cs. induction cs as [|c cs IH]; intros st st' A; [exact A|]. unfold do_calls in *. cbn [fold_left filter].
  destruct c as [id|spd ty v]; cbn [is_update do_call].
  - apply IH. apply agree_trans with st; [|exact A]. apply agree_sym. exact (proj2 (compute_steady root d st st id (agree_refl st))).
  - cbn [fold_left do_call]. apply IH. pose proof (update_agree st st' spd ty v A) as U.
    destruct (update st spd ty v), (update st' spd ty v); auto; destruct U.
Qed.

Lemma history_irrelevant : forall root d cs st id,
  snd (compute_rhs root d (do_calls root d cs st) id) = snd (compute_rhs root d (do_calls root d (filter is_update cs) st) id).
Proof. intros root d cs st id. apply compute_steady. apply calls_agree. apply agree_refl. Qed.

(** A list of ids gives what the ids give one by one. *)
Lemma all_each : forall root d ids st st0 l, agree st0 st -> snd (compute_all root d st ids) = Done l ->
  Forall2 (fun id p => fst p = id /\ snd (compute_rhs root d st0 id) = Done (snd p)) ids l.
Proof.
  intros root d ids. induction ids as [|id r IH]; intros st st0 l A; cbn [compute_all].
  - cbn. intros H; injection H as <-. constructor.
  - destruct (compute_rhs root d st id) as [st' [q|e]] eqn:C; [|discriminate]. cbn [snd]. unfold rbind.
    destruct (snd (compute_all root d st' r)) as [l'|e'] eqn:R; [|discriminate]. intros H; injection H as <-.
    destruct (compute_steady root d st st0 id (agree_sym _ _ A)) as [C1 C2]. rewrite C in C1, C2. cbn [fst snd] in C1, C2. constructor.
    + cbn. split; [reflexivity|]. now rewrite <- C1.
    + apply IH with st'; [|exact R]. now apply agree_trans with st.
Qed.
