(** Lemmas about groups of terms in right hand side equations. *)

From Coq Require Import QArith Qabs Lqa String List Bool Arith Lia.
Import ListNotations.
From Verif Require Import PandasModel RhsModel SpecRhs PandasFacts OffersFacts RpnFacts.
Open Scope string_scope.
Open Scope list_scope.

(** ** The members of a group *)

Lemma span_out : forall g l prev i s, (forall t, In t l -> in_group g t = false) ->
  (sp_first s = None /\ sp_last s = None) \/ (sp_first s <> None /\ sp_g s = false) -> span_from g prev i l s = s.
Proof.
  intros g l. induction l as [|t r IH]; intros prev i s N H; [reflexivity|]. cbn [span_from].
  assert (E : span_step g prev i t s = s).
  { unfold span_step. rewrite (N t (or_introl eq_refl)). destruct s as [f l b]. cbn in *.
    destruct H as [[-> ->]|[H ->]]; [cbn; destruct i, prev, (t_group t); reflexivity|]. destruct f as [f|]; [|congruence]. cbn.
    destruct i as [|j], prev as [q|], (t_group t) as [x|]; try reflexivity. now rewrite andb_false_r. }
  rewrite E. apply IH; auto. intros; apply N; now right.
Qed.
Lemma span_in : forall g l prev i f la, (forall t, In t l -> in_group g t = true) ->
  span_from g prev i l (Span (Some f) la false) = Span (Some f) (match l with [] => la | _ => Some (i + length l - 1)%nat end) false.
Proof.
  intros g l. induction l as [|t r IH]; intros prev i f la H; [reflexivity|]. cbn [span_from].
  assert (E : span_step g prev i t (Span (Some f) la false) = Span (Some f) (Some i) false).
  { unfold span_step. cbn. rewrite (H t (or_introl eq_refl)). cbn. destruct i as [|j], prev as [q|], (t_group t) as [x|]; try reflexivity. now rewrite andb_false_r. }
  rewrite E, IH by (intros; apply H; now right). f_equal. f_equal. destruct r; cbn; [f_equal; lia|f_equal; lia].
Qed.
Lemma span_first : forall g t l prev i, (forall t', In t' (t :: l) -> in_group g t' = true) -> type_is "G" t = false ->
  span_from g prev i (t :: l) (Span None None false) = Span (Some i) (Some (i + length l)%nat) false.
Proof.
  intros g t l prev i H G. cbn [span_from].
  assert (E : span_step g prev i t (Span None None false) = Span (Some i) (Some i) false).
  { unfold span_step. cbn. rewrite (H t (or_introl eq_refl)), G. cbn. rewrite ?(H t (or_introl eq_refl)). cbn.
    destruct i as [|j], prev as [q|], (t_group t) as [x|]; try reflexivity. now rewrite andb_false_r. }
  rewrite E, span_in by (intros; apply H; now right). f_equal. destruct l; cbn; f_equal; lia.
Qed.
Lemma span_app : forall g a b prev i s, exists prev', span_from g prev i (a ++ b) s = span_from g prev' (i + length a) b (span_from g prev i a s).
Proof.
  intros g a. induction a as [|t r IH]; intros b prev i s; [exists prev; cbn; now rewrite Nat.add_0_r|]. cbn [app span_from length].
  destruct (IH b (Some t) (Datatypes.S i) (span_step g prev i t s)) as [p ->]. exists p. f_equal. lia.
Qed.

Lemma strip_all : forall g l, (forall t, In t l -> t_group t = Some g) -> strip g l = Done (map ungroup l).
Proof.
  intros g l. induction l as [|t r IH]; intros H; [reflexivity|]. cbn [strip map]. rewrite (H t (or_introl eq_refl)), IH by (intros; apply H; now right).
  cbn. now rewrite String.eqb_refl.
Qed.
Lemma collect : forall pre ts rest g, ts <> [] -> (forall t, In t ts -> t_group t = Some g /\ type_is "G" t = false) ->
  (forall t, In t pre -> in_group g t = false) -> (forall t, In t rest -> in_group g t = false) ->
  collect_group (pre ++ ts ++ rest) g = Done (map ungroup ts).
Proof.
  intros pre ts rest g NE H A B. destruct ts as [|t l]; [congruence|]. unfold collect_group.
  assert (I : forall t', In t' (t :: l) -> in_group g t' = true) by (intros t' Ht; unfold in_group; destruct (H t' Ht) as [-> _]; apply String.eqb_refl).
  destruct (span_app g pre ((t :: l) ++ rest) None 0 (Span None None false)) as [p1 ->].
  rewrite (span_out g pre) by (auto; left; split; reflexivity).
  destruct (span_app g (t :: l) rest p1 (0 + length pre) (Span None None false)) as [p2 ->].
  rewrite span_first by (auto; apply H; now left). rewrite span_out; [|exact B|right; split; [discriminate|reflexivity]]. cbn [sp_first sp_last].
  replace (Datatypes.S (0 + length pre + length l) - (0 + length pre))%nat with (length (t :: l)) by (cbn [length]; lia).
  rewrite skipn_app, skipn_all2 by lia. replace (0 + length pre - length pre)%nat with 0%nat by lia. cbn [app skipn].
  rewrite app_comm_cons, firstn_app, Nat.sub_diag, firstn_all. cbn [firstn]. rewrite app_nil_r. apply strip_all. intros; now apply H.
Qed.

(** ** The value of a sum *)

Definition worth (t : term) : Q := match t_value t with Some v => t_mult t * v | None => t_mult t end.
Definition addend (t : term) : Prop := t_op t = None /\ type_is "U" t = false /\ type_is "B" t = false.

Lemma addend_apply : forall root p a s t, addend t -> apply_term root p (a :: s) t = Done (p, a + worth t :: s).
Proof. intros root p a s t [O [U B]]. unfold apply_term. rewrite O, U, B. unfold worth. destruct (t_value t) eqn:V; unfold keep_flag, no_operator; rewrite V; reflexivity. Qed.
Lemma addend_run : forall root ts p a, Forall addend ts -> exists q, run_terms root ts p [a] = Done (p, [q]) /\ q == a + qsum (map worth ts).
Proof.
  intros root ts. induction ts as [|t r IH]; intros p a H; [exists a; split; [reflexivity|cbn; lra]|]. inversion H as [|? ? Ht Hr]; subst.
  cbn [run_terms map]. rewrite addend_apply by exact Ht. cbn [rbind fst snd]. destruct (IH p (a + worth t) Hr) as [q [E F]]. exists q. split; [exact E|].
  rewrite F. unfold qsum. cbn [fold_right]. lra.
Qed.
Lemma ungroup_addend : forall t, addend t -> addend (ungroup t).
Proof. intros t H. exact H. Qed.
Lemma group_value : forall root f ts, (forall t, In t ts -> addend t /\ type_is "G" t = false) ->
  exists q, top (snd (rpn_stack root (Datatypes.S f) (map ungroup ts))) = Done q /\ q == qsum (map worth ts).
Proof.
  intros root f ts H. rewrite plain_stack.
  - destruct (addend_run root (map ungroup ts) false 0) as [q [-> E]].
    + rewrite Forall_forall. intros t Ht. apply in_map_iff in Ht. destruct Ht as [t0 [<- Ht]]. apply (H t0 Ht).
    + exists q. split; [reflexivity|]. rewrite E, map_map. change (fun x => worth (ungroup x)) with worth. lra.
  - rewrite Forall_forall. intros t Ht. apply in_map_iff in Ht. destruct Ht as [t0 [<- Ht]]. split; [reflexivity|]. apply (H t0 Ht).
Qed.

(** ** Segments *)

Definition clean (s : segment) : Prop :=
  match s with
  | Alone t => addend t /\ plain t
  | Closed g ts c | Opened c g ts =>
      ts <> [] /\ (forall t, In t ts -> t_group t = Some g /\ type_is "G" t = false /\ addend t)
      /\ addend c /\ t_group c = None /\ type_is "G" c = true /\ t_value c = None
  end.
Definition seg_worth (s : segment) : Q :=
  match s with Alone t => worth t | Closed _ ts c | Opened c _ ts => t_mult c * qsum (map worth ts) end.

Lemma skip : forall root calc ts pre rest n s ign p, (forall t, In t ts -> exists g, t_group t = Some g /\ mem_str g ign = true) ->
  rpn_loop root calc (length ts + n) (length pre) (Rpn (pre ++ ts ++ rest) s ign p) =
  rpn_loop root calc n (length (pre ++ ts)) (Rpn ((pre ++ ts) ++ rest) s ign p).
Proof.
  intros root calc ts. induction ts as [|t r IH]; intros pre rest n s ign p H.
  - cbn [length app Nat.add]. now rewrite app_nil_r.
  - cbn [length Nat.add rpn_loop]. destruct (H t (or_introl eq_refl)) as [g [G M]].
    assert (E : rpn_step root calc (length pre) (Rpn (pre ++ (t :: r) ++ rest) s ign p) =
      (pre ++ (t :: r) ++ rest, Done (Rpn (pre ++ (t :: r) ++ rest) s ign p))).
    { unfold rpn_step. cbn [r_eqn app]. rewrite nth_mid. unfold open_group, ignored. cbn [r_ignore r_eqn]. rewrite G, M. cbn [negb]. rewrite andb_false_r. reflexivity. }
    rewrite E. replace (pre ++ (t :: r) ++ rest) with ((pre ++ [t]) ++ r ++ rest) by (rewrite <- !app_assoc; reflexivity).
    replace (Datatypes.S (length pre)) with (length (pre ++ [t])) by (rewrite app_length; cbn; lia).
    rewrite IH by (intros; apply H; now right). now rewrite <- !app_assoc.
Qed.

Lemma set_mid : forall pre t rest v, set_nth (length pre) v (pre ++ t :: rest) = pre ++ set_value t (Some v) :: rest.
Proof. intros pre. induction pre as [|x r IH]; intros t rest v; [reflexivity|]. cbn. now rewrite IH. Qed.

Lemma sub_none : forall ts, sub_groups (map ungroup ts) = [].
Proof. intros ts. unfold sub_groups. induction ts as [|t r IH]; [reflexivity|]. exact IH. Qed.
Lemma mem_last : forall g l, mem_str g (l ++ [g]) = true.
Proof. intros g l. apply mem_str_in. apply in_app_iff. right. now left. Qed.

Lemma factor_step : forall root calc pre c rest a ign p v, t_group c = None -> addend c ->
  rpn_step root calc (length pre) (Rpn (pre ++ set_value c (Some v) :: rest) [a] ign p) =
  (pre ++ set_value c (Some v) :: rest, Done (Rpn (pre ++ set_value c (Some v) :: rest) [a + t_mult c * v] ign p)).
Proof.
  intros root calc pre c rest a ign p v G A. unfold rpn_step. cbn [r_eqn]. rewrite nth_mid. unfold open_group. cbn [set_value t_value t_group].
  rewrite G, andb_false_r. cbn [andb r_eqn r_stack r_pop r_ignore]. rewrite nth_mid. fold (set_value c (Some v)).
  rewrite (addend_apply root p a [] (set_value c (Some v)) A). reflexivity.
Qed.

Lemma seg_group : forall s t g, clean s -> In t (seg_terms s) -> in_group g t = true -> In g (seg_ids s).
Proof.
  intros [t0|g0 ts c|c g0 ts] t g C Ht H; cbn [seg_terms seg_ids] in *; unfold in_group in H.
  - destruct Ht as [<-|[]]. destruct C as [_ [G _]]. rewrite G in H. discriminate.
  - destruct C as [_ [A [_ [G _]]]]. apply in_app_iff in Ht. destruct Ht as [Ht|[<-|[]]]; [|rewrite G in H; discriminate].
    destruct (A t Ht) as [E _]. rewrite E in H. apply String.eqb_eq in H. now left.
  - destruct C as [_ [A [_ [G _]]]]. destruct Ht as [<-|Ht]; [rewrite G in H; discriminate|].
    destruct (A t Ht) as [E _]. rewrite E in H. apply String.eqb_eq in H. now left.
Qed.
Lemma segs_group : forall segs t g, Forall clean segs -> In t (flat_map seg_terms segs) -> in_group g t = true -> In g (flat_map seg_ids segs).
Proof.
  intros segs t g C Ht H. apply in_flat_map in Ht. destruct Ht as [s [Hs Ht]]. apply in_flat_map. exists s. split; [exact Hs|].
  rewrite Forall_forall in C. now apply seg_group with t; auto.
Qed.

Lemma segments_loop : forall root f segs pre a ign, Forall clean segs -> NoDup (flat_map seg_ids segs) ->
  (forall g, In g (flat_map seg_ids segs) -> ~ In g ign /\ (forall t, In t pre -> in_group g t = false)) ->
  exists q, snd (rpn_loop root (fun g => top (snd (rpn_stack root (Datatypes.S f) g))) (length (flat_map seg_terms segs)) (length pre)
                 (Rpn (pre ++ flat_map seg_terms segs) [a] ign false)) = Done [q] /\ q == a + qsum (map seg_worth segs).
Proof.
  intros root f segs. set (calc := fun g => top (snd (rpn_stack root (Datatypes.S f) g))).
  induction segs as [|s r IH]; intros pre a ign C N H.
  - exists a. split; [reflexivity|]. cbn. lra.
  - inversion C as [|? ? Cs Cr]; subst. cbn [flat_map] in N, H. apply InvariantFacts.NoDup_app_iff in N. destruct N as [_ [Nr Nd]].
    assert (Rg : forall g t, In g (seg_ids s) -> In t (flat_map seg_terms r) -> in_group g t = false).
    { intros g t Hg Ht. destruct (in_group g t) eqn:E; [|reflexivity]. exfalso. apply (Nd g Hg). now apply segs_group with t. }
    assert (Sg : forall g t, In g (flat_map seg_ids r) -> In t (seg_terms s) -> in_group g t = false).
    { intros g t Hg Ht. destruct (in_group g t) eqn:E; [|reflexivity]. exfalso. apply (Nd g); [|exact Hg]. now apply seg_group with t. }
    destruct s as [t|g ts c|c g ts]; cbn [flat_map seg_terms map seg_worth seg_ids] in *.
    + destruct Cs as [A P]. cbn [length app rpn_loop]. rewrite plain_step by exact P. rewrite addend_apply by exact A. cbn [rbind fst snd].
      replace (pre ++ t :: flat_map seg_terms r) with ((pre ++ [t]) ++ flat_map seg_terms r) by (rewrite <- app_assoc; reflexivity).
      replace (Datatypes.S (length pre)) with (length (pre ++ [t])) by (rewrite app_length; cbn; lia).
      destruct (IH (pre ++ [t]) (a + worth t) ign Cr Nr) as [q [E F]].
      * intros g Hg. destruct (H g Hg) as [X Y]. split; [exact X|]. intros t' Ht. apply in_app_iff in Ht. destruct Ht as [Ht|[<-|[]]]; [now apply Y|].
        unfold in_group. destruct P as [-> _]. reflexivity.
      * exists q. split; [exact E|]. rewrite F. unfold qsum. cbn [fold_right]. lra.
    + destruct Cs as [NE [Tt [Ac [Gc [Tc Vc]]]]]. set (rest := flat_map seg_terms r) in *.
      destruct (H g (or_introl eq_refl)) as [NI Pg].
      assert (Mg : mem_str g ign = false) by (destruct (mem_str g ign) eqn:M; [apply mem_str_in in M; contradiction|reflexivity]).
      destruct ts as [|t ts]; [congruence|].
      assert (CG : collect_group (pre ++ (t :: ts) ++ c :: rest) g = Done (map ungroup (t :: ts))).
      { apply collect; [discriminate|intros t' Ht; now destruct (Tt t' Ht) as [X [Y _]]|exact Pg|].
        intros t' [<-|Ht]; [unfold in_group; now rewrite Gc|]. apply Rg; [now left|exact Ht]. }
      destruct (group_value root f (t :: ts)) as [v [Ev Fv]]; [intros t' Ht; destruct (Tt t' Ht) as [_ [X Y]]; auto|].
      replace (pre ++ (((t :: ts) ++ [c]) ++ rest)) with (pre ++ (t :: ts) ++ c :: rest) by (rewrite <- !app_assoc; reflexivity).
      destruct (Tt t (or_introl eq_refl)) as [Gt [Ft _]].
      set (eqn := pre ++ (t :: ts) ++ c :: rest) in *.
      set (eqn' := pre ++ (t :: ts) ++ set_value c (Some v) :: rest).
      assert (S1 : rpn_step root calc (length pre) (Rpn eqn [a] ign false) = (eqn', Done (Rpn eqn' [a] (ign ++ [g]) false))).
      { unfold rpn_step. cbn [r_eqn]. unfold eqn at 1. rewrite <- app_comm_cons, nth_mid. unfold open_group. rewrite Ft. cbn [andb]. rewrite Gt.
        cbn [r_ignore r_eqn r_stack r_pop]. rewrite Mg, CG. cbn [rbind]. unfold calc at 1. rewrite Ev. cbn [rbind].
        rewrite sub_none. rewrite map_length.
        assert (K : nth_error eqn (length pre + length (t :: ts)) = Some c).
        { unfold eqn. rewrite app_assoc. replace (length pre + length (t :: ts))%nat with (length (pre ++ t :: ts)) by (now rewrite app_length). apply nth_mid. }
        rewrite K, Tc.
        assert (K2 : set_nth (length pre + length (t :: ts)) v eqn = eqn').
        { unfold eqn, eqn'. rewrite (app_assoc pre (t :: ts)). replace (length pre + length (t :: ts))%nat with (length (pre ++ t :: ts)) by (now rewrite app_length).
          rewrite set_mid. now rewrite <- app_assoc. }
        rewrite K2. cbn [r_eqn]. reflexivity. }
      replace (length (((t :: ts) ++ [c]) ++ rest)) with (Datatypes.S (length ts + Datatypes.S (length rest))) by (rewrite !app_length; cbn; rewrite ?app_length; cbn; lia).
      cbn [rpn_loop]. rewrite S1.
      replace eqn' with ((pre ++ [t]) ++ ts ++ set_value c (Some v) :: rest) by (unfold eqn'; rewrite <- !app_assoc; reflexivity).
      replace (Datatypes.S (length pre)) with (length (pre ++ [t])) by (rewrite app_length; cbn; lia).
      rewrite skip.
      2: { intros t' Ht. exists g. split; [now destruct (Tt t' (or_intror Ht)) as [X _]|apply mem_last]. }
      cbn [rpn_loop]. rewrite (factor_step root calc _ c rest a (ign ++ [g]) false v Gc Ac).
      set (pre' := ((pre ++ [t]) ++ ts)).
      replace (pre' ++ set_value c (Some v) :: rest) with ((pre' ++ [set_value c (Some v)]) ++ rest) by (rewrite <- app_assoc; reflexivity).
      replace (Datatypes.S (length pre')) with (length (pre' ++ [set_value c (Some v)])) by (rewrite app_length; cbn; lia).
      destruct (IH (pre' ++ [set_value c (Some v)]) (a + t_mult c * v) (ign ++ [g]) Cr Nr) as [q [E F]].
      * intros g' Hg'. destruct (H g' (or_intror Hg')) as [X Y]. split.
        -- rewrite in_app_iff. intros [Z|[<-|[]]]; [now apply X|]. apply (Nd g); [now left|exact Hg'].
        -- intros t' Ht. unfold pre' in Ht. rewrite !in_app_iff in Ht. destruct Ht as [[[Ht|[<-|[]]]|Ht]|[<-|[]]].
           ++ now apply Y.
           ++ apply Sg; [exact Hg'|now left].
           ++ apply Sg; [exact Hg'|right; apply in_app_iff; now left].
           ++ unfold in_group. cbn. now rewrite Gc.
      * exists q. split; [exact E|]. rewrite F, Fv. unfold qsum. cbn [fold_right]. lra.
    + destruct Cs as [NE [Tt [Ac [Gc [Tc Vc]]]]]. set (rest := flat_map seg_terms r) in *.
      destruct (H g (or_introl eq_refl)) as [NI Pg].
      assert (CG : collect_group (pre ++ c :: ts ++ rest) g = Done (map ungroup ts)).
      { replace (pre ++ c :: ts ++ rest) with ((pre ++ [c]) ++ ts ++ rest) by (rewrite <- app_assoc; reflexivity).
        apply collect; [exact NE|intros t' Ht; now destruct (Tt t' Ht) as [X [Y _]]| |intros; apply Rg; [now left|assumption]].
        intros t' Ht. apply in_app_iff in Ht. destruct Ht as [Ht|[<-|[]]]; [now apply Pg|]. unfold in_group. now rewrite Gc. }
      destruct (group_value root f ts) as [v [Ev Fv]]; [intros t' Ht; destruct (Tt t' Ht) as [_ [X Y]]; auto|].
      assert (S1 : rpn_step root calc (length pre) (Rpn (pre ++ (c :: ts) ++ rest) [a] ign false) =
        (pre ++ set_value c (Some v) :: ts ++ rest, Done (Rpn (pre ++ set_value c (Some v) :: ts ++ rest) [a + t_mult c * v] (ign ++ [g]) false))).
      { unfold rpn_step. cbn [r_eqn]. rewrite <- app_comm_cons, nth_mid. unfold open_group, ignored. rewrite Tc, Vc, Gc. cbn [andb negb r_eqn r_ignore r_stack r_pop].
        assert (K : nth_error (pre ++ c :: ts ++ rest) (Datatypes.S (length pre)) = Some (hd c ts)).
        { destruct ts as [|t ts]; [congruence|]. replace (pre ++ c :: (t :: ts) ++ rest) with ((pre ++ [c]) ++ t :: ts ++ rest) by (rewrite <- app_assoc; reflexivity).
          replace (Datatypes.S (length pre)) with (length (pre ++ [c])) by (rewrite app_length; cbn; lia). apply nth_mid. }
        rewrite K. assert (K2 : t_group (hd c ts) = Some g) by (destruct ts as [|t ts]; [congruence|]; now destruct (Tt t (or_introl eq_refl)) as [X _]).
        rewrite K2, CG. cbn [rbind]. unfold calc at 1. rewrite Ev. cbn [rbind]. rewrite set_mid, sub_none. cbn [r_eqn r_stack r_pop r_ignore]. rewrite nth_mid.
        rewrite (addend_apply root false a [] (set_value c (Some v)) Ac). reflexivity. }
      replace (length ((c :: ts) ++ rest)) with (Datatypes.S (length ts + length rest)) by (cbn; rewrite app_length; lia).
      cbn [rpn_loop]. rewrite S1.
      replace (pre ++ set_value c (Some v) :: ts ++ rest) with ((pre ++ [set_value c (Some v)]) ++ ts ++ rest) by (rewrite <- app_assoc; reflexivity).
      replace (Datatypes.S (length pre)) with (length (pre ++ [set_value c (Some v)])) by (rewrite app_length; cbn; lia).
      rewrite skip.
      2: { intros t' Ht. exists g. split; [now destruct (Tt t' Ht) as [X _]|apply mem_last]. }
      destruct (IH ((pre ++ [set_value c (Some v)]) ++ ts) (a + t_mult c * v) (ign ++ [g]) Cr Nr) as [q [E F]].
      * intros g' Hg'. destruct (H g' (or_intror Hg')) as [X Y]. split.
        -- rewrite in_app_iff. intros [Z|[<-|[]]]; [now apply X|]. apply (Nd g); [now left|exact Hg'].
        -- intros t' Ht. rewrite !in_app_iff in Ht. destruct Ht as [[Ht|[<-|[]]]|Ht].
           ++ now apply Y.
           ++ unfold in_group. cbn. now rewrite Gc.
           ++ apply Sg; [exact Hg'|now right].
      * exists q. split; [exact E|]. rewrite F, Fv. unfold qsum. cbn [fold_right]. lra.
Qed.

(** ** From the stored equation *)

Definition ready (st : store) (t : term) : term := let t' := fill st t in if type_is "G" t' then set_value t' None else t'.
Definition seg_map (f : term -> term) (s : segment) : segment :=
  match s with Alone t => Alone (f t) | Closed g ts c => Closed g (map f ts) (f c) | Opened c g ts => Opened (f c) g (map f ts) end.

Lemma seg_map_terms : forall f segs, map f (flat_map seg_terms segs) = flat_map seg_terms (map (seg_map f) segs).
Proof.
  intros f segs. induction segs as [|s r IH]; [reflexivity|]. cbn [flat_map map]. rewrite map_app, IH. f_equal.
  destruct s; cbn; rewrite ?map_app; reflexivity.
Qed.
Lemma seg_map_ids : forall f segs, flat_map seg_ids (map (seg_map f) segs) = flat_map seg_ids segs.
Proof. intros f segs. induction segs as [|s r IH]; [reflexivity|]. cbn [flat_map map]. rewrite IH. destruct s; reflexivity. Qed.

Lemma fill_same : forall st t, set_value (fill st t) None = set_value t None.
Proof. intros st t. unfold fill. destruct (found st (t_type t) (t_id t)); reflexivity. Qed.
Lemma fill_fields : forall st t, t_type (fill st t) = t_type t /\ t_op (fill st t) = t_op t /\ t_group (fill st t) = t_group t /\ t_mult (fill st t) = t_mult t.
Proof. intros st t. unfold fill. destruct (found st (t_type t) (t_id t)); repeat split; reflexivity. Qed.

Lemma simple_neq : forall t, simple_type (t_type t) -> type_is "U" t = false /\ type_is "G" t = false /\ type_is "B" t = false /\ t_type t <> "X".
Proof.
  intros t H. unfold simple_type, type_is in *. cbn in H. split; [apply String.eqb_neq|split; [apply String.eqb_neq|split; [apply String.eqb_neq|]]]; intros E; apply H; rewrite E; auto.
Qed.

Lemma summand_ready : forall st g t, summand g t -> ready st t = fill st t /\ t_group (ready st t) = g /\ type_is "G" (ready st t) = false /\ addend (ready st t).
Proof.
  intros st g t [O [G S]]. destruct (simple_neq t S) as [U [Gt [B _]]]. destruct (fill_fields st t) as [F1 [F2 [F3 _]]].
  assert (E : ready st t = fill st t) by (unfold ready, type_is; rewrite F1; unfold type_is in Gt; now rewrite Gt).
  rewrite E. unfold addend, type_is in *. rewrite F1, F2, F3. repeat split; auto.
Qed.
Lemma factor_ready : forall st c, factor c -> ready st c = set_value c None /\ addend (ready st c).
Proof.
  intros st c [O [G T]].
  assert (F : found st (t_type c) (t_id c) = None) by (unfold found, resolve_value, type_is; rewrite T; cbn; rewrite !andb_false_r; reflexivity).
  assert (E : ready st c = set_value c None) by (unfold ready, fill; rewrite F; unfold type_is; now rewrite T).
  split; [exact E|]. rewrite E. unfold addend, type_is. cbn. rewrite T. repeat split; auto.
Qed.
Lemma ready_clean : forall st s, seg_ok s -> clean (seg_map (ready st) s).
Proof.
  intros st [t|g ts c|c g ts] H; cbn [seg_ok seg_map clean] in *.
  - destruct (summand_ready st None t H) as [_ [G [T A]]]. repeat split; auto; apply A.
  - destruct H as [NE [H F]]. destruct (factor_ready st c F) as [E A]. split; [destruct ts; [congruence|discriminate]|]. split.
    + intros t Ht. apply in_map_iff in Ht. destruct Ht as [t0 [<- Ht]]. destruct (summand_ready st (Some g) t0 (H t0 Ht)) as [_ [G [T B]]]. auto.
    + split; [exact A|]. rewrite E. destruct F as [_ [G T]]. unfold type_is. cbn. now rewrite G, T.
  - destruct H as [NE [H F]]. destruct (factor_ready st c F) as [E A]. split; [destruct ts; [congruence|discriminate]|]. split.
    + intros t Ht. apply in_map_iff in Ht. destruct Ht as [t0 [<- Ht]]. destruct (summand_ready st (Some g) t0 (H t0 Ht)) as [_ [G [T B]]]. auto.
    + split; [exact A|]. rewrite E. destruct F as [_ [G T]]. unfold type_is. cbn. now rewrite G, T.
Qed.

Lemma amount_settled : forall gen st g t q, summand g t -> amount st t q -> settled gen st t /\ worth (ready st t) == q.
Proof.
  intros gen st g t q S A. destruct (summand_ready st g t S) as [E _]. destruct S as [O [G T]]. destruct (simple_neq t T) as [_ [_ [_ X]]].
  destruct (fill_fields st t) as [_ [_ [_ M]]]. rewrite E. destruct A as [[v [V Q]]|[N [NS Q]]].
  - destruct (has_found gen st t v V) as [w [F [W R]]]. split; [unfold settled; now rewrite F|]. unfold fill, worth. rewrite F. cbn. rewrite W. now symmetry.
  - destruct (not_found gen st t N NS X) as [F R]. split; [unfold settled; now rewrite F|]. unfold fill, worth. rewrite F. destruct (t_value t); now symmetry.
Qed.
Lemma total_settled : forall gen st g ts q, (forall t, In t ts -> summand g t) -> total st ts q ->
  (forall t, In t ts -> settled gen st t) /\ qsum (map worth (map (ready st) ts)) == q.
Proof.
  intros gen st g ts q S T. induction T as [|t ts a q A T IH]; [split; [intros ? []|reflexivity]|].
  destruct (amount_settled gen st g t a (S t (or_introl eq_refl)) A) as [X Y]. destruct IH as [I J]; [intros; apply S; now right|]. split.
  - intros t' [<-|Ht]; auto.
  - unfold qsum in *. cbn [map fold_right]. now rewrite Y, J.
Qed.
Lemma factor_settled : forall gen st c, factor c -> settled gen st c.
Proof. intros gen st c [_ [_ T]]. unfold settled, found, resolve_value, type_is. rewrite T. cbn. rewrite !andb_false_r. reflexivity. Qed.

Lemma sum_settled : forall gen st segs q, Forall seg_ok segs -> seg_sum st segs q ->
  (forall t, In t (flat_map seg_terms segs) -> settled gen st t) /\ qsum (map seg_worth (map (seg_map (ready st)) segs)) == q.
Proof.
  intros gen st segs q O S. induction S as [|s r a q A S IH]; [split; [intros ? []|reflexivity]|]. inversion O as [|? ? Os Or]; subst.
  destruct (IH Or) as [I J].
  assert (K : (forall t, In t (seg_terms s) -> settled gen st t) /\ seg_worth (seg_map (ready st) s) == a).
  { destruct s as [t|g ts c|c g ts]; cbn [seg_ok seg_total seg_terms seg_map seg_worth] in *.
    - destruct (amount_settled gen st None t a Os A) as [X Y]. split; [intros t' [<-|[]]; exact X|exact Y].
    - destruct Os as [_ [H F]], A as [x [T E]]. destruct (total_settled gen st (Some g) ts x H T) as [X Y]. split.
      + intros t Ht. apply in_app_iff in Ht. destruct Ht as [Ht|[<-|[]]]; [auto|now apply factor_settled].
      + destruct (factor_ready st c F) as [-> _]. cbn. now rewrite Y, E.
    - destruct Os as [_ [H F]], A as [x [T E]]. destruct (total_settled gen st (Some g) ts x H T) as [X Y]. split.
      + intros t [<-|Ht]; [now apply factor_settled|auto].
      + destruct (factor_ready st c F) as [-> _]. cbn. now rewrite Y, E. }
  destruct K as [K1 K2]. split.
  - intros t Ht. cbn [flat_map] in Ht. apply in_app_iff in Ht. destruct Ht; auto.
  - unfold qsum in *. cbn [map fold_right]. now rewrite K2, J.
Qed.

Lemma groups_value : forall root d st c segs q, dget c (s_rhs st) = Some (flat_map seg_terms segs) -> Forall seg_ok segs ->
  NoDup (flat_map seg_ids segs) -> seg_sum st segs q ->
  exists q', snd (compute_rhs root d st c) = Done q' /\ q' == q.
Proof.
  intros root d st c segs q D O N S. destruct (sum_settled (compute_generic root d) st segs q O S) as [H W].
  rewrite (settled_eval root d st c _ D H). unfold rpn_calc. cbn [snd].
  destruct (flat_map seg_terms segs) as [|t0 r0] eqn:Q.
  - exists 0. split; [reflexivity|]. rewrite <- W.
    destruct segs as [|s r]; [reflexivity|]. exfalso. inversion O as [|? ? Os _]; subst. cbn [flat_map] in Q. apply app_eq_nil in Q. destruct Q as [Q _].
    destruct s as [|g ts x|x g ts]; cbn in Q; try discriminate. apply app_eq_nil in Q. destruct Q; discriminate.
  - rewrite <- Q. remember (length (map (fill st) (flat_map seg_terms segs))) as n eqn:Ln.
    assert (Hn : exists f, n = Datatypes.S f) by (rewrite Ln, Q; cbn; eauto). destruct Hn as [f ->].
    assert (Cl : clear_groups (map (fill st) (flat_map seg_terms segs)) = flat_map seg_terms (map (seg_map (ready st)) segs)).
    { unfold clear_groups. rewrite map_map. exact (seg_map_terms (ready st) segs). }
    destruct (segments_loop root f (map (seg_map (ready st)) segs) [] 0 []) as [q' [E F]].
    + rewrite Forall_forall. intros s Hs. apply in_map_iff in Hs. destruct Hs as [s0 [<- Hs]]. apply ready_clean. rewrite Forall_forall in O. now apply O.
    + now rewrite seg_map_ids.
    + intros g _. split; [intros []|intros t []].
    + exists q'. split.
      * change (rpn_stack root (Datatypes.S (Datatypes.S f)) (map (fill st) (flat_map seg_terms segs))) with
          (rpn_loop root (fun g => top (snd (rpn_stack root (Datatypes.S f) g))) (length (map (fill st) (flat_map seg_terms segs))) 0
             (Rpn (clear_groups (map (fill st) (flat_map seg_terms segs))) [0] [] false)).
        rewrite Cl. replace (length (map (fill st) (flat_map seg_terms segs))) with (length (flat_map seg_terms (map (seg_map (ready st)) segs))) by (rewrite <- seg_map_terms, !map_length; reflexivity).
        cbn [length app] in E. rewrite E. reflexivity.
      * rewrite F, W. lra.
Qed.

Lemma alone_terms : forall ts, flat_map seg_terms (map Alone ts) = ts.
Proof. intros ts. induction ts as [|t r IH]; [reflexivity|]. cbn. now rewrite IH. Qed.
Lemma alone_ids : forall ts, flat_map seg_ids (map Alone ts) = [].
Proof. intros ts. induction ts as [|t r IH]; [reflexivity|]. exact IH. Qed.
Lemma alone_sum : forall st ts q, total st ts q -> seg_sum st (map Alone ts) q.
Proof. intros st ts q H. induction H; cbn; constructor; auto. Qed.

Lemma linear_value : forall root d st c eqn q, dget c (s_rhs st) = Some eqn -> (forall t, In t eqn -> summand None t) -> total st eqn q ->
  exists q', snd (compute_rhs root d st c) = Done q' /\ q' == q.
Proof.
  intros root d st c eqn q D S T. apply (groups_value root d st c (map Alone eqn) q).
  - now rewrite alone_terms.
  - rewrite Forall_forall. intros s Hs. apply in_map_iff in Hs. destruct Hs as [t [<- Ht]]. now apply S.
  - rewrite alone_ids. constructor.
  - now apply alone_sum.
Qed.

(** ** The bound on nested groups *)

Definition grouped (eqn : list term) : nat := length (filter (fun t => match t_group t with Some _ => true | None => false end) eqn).

Lemma grouped_cons : forall t r, grouped (t :: r) = ((match t_group t with Some _ => 1 | None => 0 end) + grouped r)%nat.
Proof. intros t r. unfold grouped. cbn. destruct (t_group t); reflexivity. Qed.
Lemma grouped_app : forall a b, grouped (a ++ b) = (grouped a + grouped b)%nat.
Proof. intros a b. unfold grouped. now rewrite filter_app, app_length. Qed.
Lemma grouped_len : forall l, (grouped l <= length l)%nat.
Proof. intros l. induction l as [|t r IH]; [cbn; lia|]. rewrite grouped_cons. cbn [length]. destruct (t_group t); lia. Qed.
Lemma grouped_strip : forall g l l', strip g l = Done l' -> (grouped l' <= grouped l)%nat /\ ((exists t, In t l /\ in_group g t = true) -> (grouped l' < grouped l)%nat).
Proof.
  intros g l. induction l as [|t r IH]; intros l' H; cbn [strip] in H.
  - injection H as <-. split; [lia|]. intros [t [[] _]].
  - destruct (t_group t) as [x|] eqn:G; [|discriminate]. destruct (strip g r) as [r'|e] eqn:S; [|discriminate]. cbn in H. injection H as <-.
    destruct (IH r' eq_refl) as [A B]. rewrite !grouped_cons, G. destruct (String.eqb x g) eqn:E.
    + cbn [ungroup t_group]. split; [lia|]. intros _. lia.
    + rewrite G. split; [lia|]. intros [t' [[<-|Ht] I]]; [unfold in_group in I; rewrite G in I; congruence|]. assert (grouped r' < grouped r)%nat by (apply B; eauto). lia.
Qed.
Lemma grouped_part : forall l a n, (grouped (firstn n (skipn a l)) <= grouped l)%nat.
Proof.
  intros l a n. rewrite <- (firstn_skipn a l) at 2. rewrite grouped_app.
  rewrite <- (firstn_skipn n (skipn a l)) at 2. rewrite grouped_app. lia.
Qed.

(* the first position of the span holds a member of the group, and is not after the last *)
Lemma span_sound : forall g l prev i s a, sp_first (span_from g prev i l s) = Some a ->
  sp_first s = Some a \/ (sp_first s = None /\ (i <= a)%nat /\ exists t, nth_error l (a - i) = Some t /\ in_group g t = true).
Proof.
  intros g l. induction l as [|t r IH]; intros prev i s a H; [now left|]. cbn [span_from] in H. apply IH in H.
  assert (F : sp_first (span_step g prev i t s) = match sp_first s with Some x => Some x | None => if in_group g t then Some i else None end).
  { unfold span_step. destruct (sp_first s) as [f|] eqn:F0.
    - destruct (in_group g t); rewrite ?F0; cbn; destruct i as [|j], prev as [q|], (t_group t) as [x|]; cbn; rewrite ?F0; try reflexivity;
        match goal with |- context [if ?b then _ else _] => destruct b end; cbn; rewrite ?F0; reflexivity.
    - destruct (in_group g t) eqn:I; cbn; rewrite ?I, ?F0; cbn; destruct i as [|j], prev as [q|], (t_group t) as [x|]; cbn; rewrite ?F0; try reflexivity;
        match goal with |- context [if ?b then _ else _] => destruct b end; cbn; rewrite ?F0; reflexivity. }
  rewrite F in H. destruct (sp_first s) as [f|]; [destruct H as [H|[H _]]; [now left|discriminate]|]. right. split; [reflexivity|].
  destruct (in_group g t) eqn:I.
  - destruct H as [H|[H _]]; [injection H as <-|discriminate]. split; [lia|]. exists t. rewrite Nat.sub_diag. auto.
  - destruct H as [H|[_ [L [t' [N I']]]]]; [discriminate|]. split; [lia|]. exists t'. split; [|exact I'].
    replace (a - i)%nat with (Datatypes.S (a - Datatypes.S i)) by lia. exact N.
Qed.
Lemma span_order : forall g l prev i s, (match sp_first s, sp_last s with Some a, Some b => (a <= b < i)%nat | None, None => True | _, _ => False end) ->
  match sp_first (span_from g prev i l s), sp_last (span_from g prev i l s) with Some a, Some b => (a <= b < i + length l)%nat | None, None => True | _, _ => False end.
Proof.
  intros g l. induction l as [|t r IH]; intros prev i s H.
  - cbn. destruct (sp_first s), (sp_last s); auto. lia.
  - cbn [span_from]. specialize (IH (Some t) (Datatypes.S i) (span_step g prev i t s)). cbn [length]. rewrite Nat.add_succ_r. apply IH.
    clear IH. unfold span_step. destruct s as [[f|] [la|] b]; cbn in *; try contradiction.
    + destruct (in_group g t); cbn; destruct i as [|j], prev as [q|], (t_group t) as [x|]; cbn; try lia;
        match goal with |- context [if ?b then _ else _] => destruct b end; cbn; lia.
    + destruct (in_group g t) eqn:I; cbn; rewrite ?I; cbn; destruct i as [|j], prev as [q|], (t_group t) as [x|]; cbn; auto;
        match goal with |- context [if ?b then _ else _] => destruct b end; cbn; auto; lia.
Qed.

Lemma grouped_collect : forall eqn g group, collect_group eqn g = Done group -> (exists t, In t eqn /\ t_group t <> None) -> (grouped group < grouped eqn)%nat.
Proof.
  intros eqn g group H [t0 [H0 N0]]. unfold collect_group in H.
  pose proof (span_order g eqn None 0 (Span None None false) I) as O.
  destruct (sp_first (span_from g None 0 eqn (Span None None false))) as [a|] eqn:A.
  - destruct (sp_last (span_from g None 0 eqn (Span None None false))) as [b|] eqn:B; [|destruct O].
    destruct (span_sound g eqn None 0 _ a A) as [X|[_ [_ [t [N J]]]]]; [discriminate|].
    destruct (grouped_strip g _ group H) as [_ L]. eapply Nat.lt_le_trans; [apply L|apply grouped_part].
    exists t. split; [|exact J]. rewrite Nat.sub_0_r in N.
    assert (K : nth_error (firstn (Datatypes.S b - a) (skipn a eqn)) 0 = Some t).
    { replace (Datatypes.S b - a)%nat with (Datatypes.S (b - a)) by lia.
      assert (M : exists r, skipn a eqn = t :: r).
      { clear - N. revert eqn N. induction a as [|a IH]; intros [|y l] N; cbn in *; try discriminate; [injection N as ->; eauto|]. now apply IH. }
      destruct M as [r ->]. reflexivity. }
    apply nth_error_In in K. exact K.
  - injection H as <-. unfold grouped at 1. cbn.
    assert (0 < grouped eqn)%nat; [|assumption]. clear - H0 N0. induction eqn as [|x r IH]; [destruct H0|]. rewrite grouped_cons. destruct H0 as [->|H0].
    + destruct (t_group t0); [lia|congruence].
    + specialize (IH H0). lia.
Qed.

Definition shape (eqn : list term) : list (option string) := map t_group eqn.
Lemma grouped_shape : forall a b, shape a = shape b -> grouped a = grouped b.
Proof.
  intros a. induction a as [|x r IH]; intros [|y l] H; try discriminate; [reflexivity|]. cbn in H. injection H as E H. rewrite !grouped_cons, E, (IH l H). reflexivity.
Qed.
Lemma shape_clear : forall l, shape (clear_groups l) = shape l.
Proof. intros l. unfold shape, clear_groups. rewrite map_map. apply map_ext. intros t. destruct (type_is "G" t); reflexivity. Qed.
Lemma shape_set : forall i v l, shape (set_nth i v l) = shape l.
Proof. intros i v l. revert i. induction l as [|t r IH]; intros [|i]; cbn; try reflexivity. f_equal. apply IH. Qed.

Lemma collect_less : forall s i t g group, nth_error (r_eqn s) i = Some t ->
  (t_group t = Some g \/ exists n, nth_error (r_eqn s) (Datatypes.S i) = Some n /\ t_group n = Some g) ->
  collect_group (r_eqn s) g = Done group -> (grouped group < grouped (r_eqn s))%nat.
Proof.
  intros s i t g group N H C. apply (grouped_collect _ _ _ C). destruct H as [H|[n [M H]]].
  - exists t. split; [now apply nth_error_In with i|congruence].
  - exists n. split; [now apply nth_error_In with (Datatypes.S i)|congruence].
Qed.

Lemma open_ext : forall calc calc' i t s, nth_error (r_eqn s) i = Some t ->
  (forall group, (grouped group < grouped (r_eqn s))%nat -> calc group = calc' group) -> open_group calc i t s = open_group calc' i t s.
Proof.
  intros calc calc' i t s N H. unfold open_group.
  destruct (type_is "G" t && match t_value t with None => true | Some _ => false end && negb (ignored (r_ignore s) t)).
  - destruct (t_group t) as [g|] eqn:G.
    + destruct (collect_group (r_eqn s) g) as [group|e] eqn:C; [|reflexivity]. cbn [rbind]. rewrite H; [reflexivity|].
      apply (collect_less s i t g group N); auto.
    + destruct (nth_error (r_eqn s) (Datatypes.S i)) as [n|] eqn:M; [|reflexivity]. destruct (t_group n) as [g|] eqn:Gn; [|reflexivity].
      destruct (collect_group (r_eqn s) g) as [group|e] eqn:C; [|reflexivity]. cbn [rbind]. rewrite H; [reflexivity|].
      apply (collect_less s i t g group N); auto. right. eauto.
  - destruct (t_group t) as [g|] eqn:G; [|reflexivity]. destruct (mem_str g (r_ignore s)); [reflexivity|].
    destruct (collect_group (r_eqn s) g) as [group|e] eqn:C; [|reflexivity]. cbn [rbind]. rewrite H; [reflexivity|].
    apply (collect_less s i t g group N); auto.
Qed.
Lemma open_shape : forall calc i t s b s', open_group calc i t s = Done (b, s') -> shape (r_eqn s') = shape (r_eqn s).
Proof.
  intros calc i t s b s'. unfold open_group.
  destruct (type_is "G" t && match t_value t with None => true | Some _ => false end && negb (ignored (r_ignore s) t)).
  - destruct (match t_group t with Some g => Done (Some g) | None => match nth_error (r_eqn s) (Datatypes.S i) with None => Fail RIndex | Some n => Done (t_group n) end end) as [[g|]|e]; try discriminate.
    + destruct (collect_group (r_eqn s) g) as [group|e]; [|discriminate]. cbn [rbind]. destruct (calc group) as [v|e]; [|discriminate]. cbn [rbind].
      intros H; injection H as _ <-. cbn. apply shape_set.
    + intros H; injection H as _ <-. reflexivity.
  - destruct (t_group t) as [g|]; [|intros H; injection H as _ <-; reflexivity]. destruct (mem_str g (r_ignore s)); [intros H; injection H as _ <-; reflexivity|].
    destruct (collect_group (r_eqn s) g) as [group|e]; [|discriminate]. cbn [rbind]. destruct (calc group) as [v|e]; [|discriminate]. cbn [rbind].
    destruct (nth_error (r_eqn s) (i + length group)) as [n|]; [|discriminate]. destruct (type_is "G" n).
    + intros H; injection H as _ <-. cbn. apply shape_set.
    + destruct (r_stack s); [discriminate|]. intros H; injection H as _ <-. reflexivity.
Qed.
Lemma step_ext : forall root calc calc' i s, (forall group, (grouped group < grouped (r_eqn s))%nat -> calc group = calc' group) ->
  rpn_step root calc i s = rpn_step root calc' i s.
Proof.
  intros root calc calc' i s H. unfold rpn_step. destruct (nth_error (r_eqn s) i) as [t|] eqn:N; [|reflexivity]. now rewrite (open_ext calc calc' i t s N H).
Qed.
Lemma step_shape : forall root calc i s e s', rpn_step root calc i s = (e, Done s') -> shape (r_eqn s') = shape (r_eqn s).
Proof.
  intros root calc i s e s'. unfold rpn_step. destruct (nth_error (r_eqn s) i) as [t|]; [|discriminate].
  destruct (open_group calc i t s) as [[b s1]|x] eqn:O; [|discriminate]. pose proof (open_shape _ _ _ _ _ _ O) as P. destruct b.
  - intros H; injection H as _ <-. exact P.
  - destruct (t_group t); [intros H; injection H as _ <-; exact P|]. destruct (nth_error (r_eqn s1) i) as [t'|]; [|intros H; injection H as _ <-; exact P].
    destruct (apply_term root (r_pop s1) (r_stack s1) t'); cbn [rbind]; [|discriminate]. intros H; injection H as _ <-. exact P.
Qed.
Lemma loop_ext : forall root calc calc' n i s, (forall group, (grouped group < grouped (r_eqn s))%nat -> calc group = calc' group) ->
  rpn_loop root calc n i s = rpn_loop root calc' n i s.
Proof.
  intros root calc calc' n. induction n as [|n IH]; intros i s H; [reflexivity|]. cbn [rpn_loop]. rewrite (step_ext root calc calc' i s H).
  destruct (rpn_step root calc' i s) as [e [s'|x]] eqn:S; [|reflexivity]. apply IH.
  rewrite (grouped_shape _ _ (step_shape _ _ _ _ _ _ S)). exact H.
Qed.

Lemma fuel_enough : forall root f f' eqn, (grouped eqn < f)%nat -> (grouped eqn < f')%nat -> rpn_stack root f eqn = rpn_stack root f' eqn.
Proof.
  intros root f. induction f as [|f IH]; intros f' eqn A B; [lia|]. destruct f' as [|f']; [lia|]. cbn [rpn_stack]. apply loop_ext. cbn [r_eqn].
  rewrite (grouped_shape _ _ (shape_clear eqn)). intros group L. f_equal. f_equal. apply IH; lia.
Qed.
Lemma groups_end : forall root f eqn, (length eqn < f)%nat -> rpn_stack root f eqn = rpn_stack root (Datatypes.S (length eqn)) eqn.
Proof. intros root f eqn H. pose proof (grouped_len eqn). apply fuel_enough; lia. Qed.
