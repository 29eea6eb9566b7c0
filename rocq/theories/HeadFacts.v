(** Lemmas: groups headed by a term of type G that carries the id of the group. *)

From Coq Require Import QArith Qabs String List Bool Arith Lqa Lia.
Import ListNotations.
From Verif Require Import PandasModel RhsModel SpecRhs PandasFacts RhsFacts RpnFacts GroupFacts.
Open Scope string_scope.
Open Scope list_scope.

Lemma mem_of s l : In s l -> mem_str s l = true.
Proof. intros H. unfold mem_str. apply existsb_exists. exists s. split; [exact H|apply String.eqb_refl]. Qed.

(** Terms of groups that are done are passed over. *)
Lemma loop_done root calc g : forall n i s e r, (forall t, In t (r_eqn s) -> t_group t = Some g) -> In g (r_ignore s) ->
  rpn_loop root calc n i s = (e, Done r) -> r = r_stack s.
Proof.
  induction n as [|n IH]; intros i s e r G Ig H; cbn [rpn_loop] in H.
  - injection H as _ <-. reflexivity.
  - unfold rpn_step in H. destruct (nth_error (r_eqn s) i) as [t|] eqn:N; [|discriminate].
    pose proof (G t (nth_error_In _ _ N)) as T.
    assert (O : open_group calc i t s = Done (false, s)).
    { unfold open_group. unfold ignored. rewrite T, (mem_of g _ Ig). cbn [negb]. rewrite andb_false_r. reflexivity. }
    rewrite O, T in H. exact (IH _ _ _ _ G Ig H).
Qed.

Lemma set_nth_groups g i v : forall l, (forall t, In t l -> t_group t = Some g) -> forall t, In t (set_nth i v l) -> t_group t = Some g.
Proof.
  induction i as [|i IH]; intros [|a l] H t; cbn [set_nth]; try (intros []; fail).
  - intros [<-|X]; [cbn; apply H; now left|apply H; now right].
  - intros [<-|X]; [apply H; now left|]. apply (IH l); [intros u Hu; apply H; now right|exact X].
Qed.

Lemma clear_group_ids g l : (forall t, In t l -> t_group t = Some g) -> forall t, In t (clear_groups l) -> t_group t = Some g.
Proof.
  intros H t X. unfold clear_groups in X. apply in_map_iff in X. destruct X as [u [<- Hu]]. destruct (type_is "G" u); cbn; now apply H.
Qed.

(** The value of the group is stored and never added. *)
Lemma head_lost root head g ts q : type_is "G" head = true -> (forall t, In t (head :: ts) -> t_group t = Some g) ->
  snd (rpn_calc root (head :: ts)) = Done q -> q = 0.
Proof.
  intros T G. unfold rpn_calc. cbn [snd]. set (n := S (length (head :: ts))). unfold n. clear n.
  cbn [rpn_stack]. set (calc := fun g0 => top (snd (rpn_stack root (length (head :: ts)) g0))).
  pose proof (clear_group_ids g _ G) as G'. remember (clear_groups (head :: ts)) as eqn eqn:Ee.
  assert (Eh : exists r, eqn = set_value head None :: r). { subst eqn. cbn. rewrite T. eauto. }
  destruct Eh as [r0 Eh].
  assert (T' : type_is "G" (set_value head None) = true) by exact T.
  assert (Gh : t_group (set_value head None) = Some g) by (cbn; apply G; now left).
  assert (Vh : t_value (set_value head None) = None) by reflexivity.
  remember (set_value head None) as h eqn:Eqh. clear Eqh Ee.
  cbn [length rpn_loop]. unfold rpn_step. cbn [r_eqn].
  assert (N : nth_error eqn 0 = Some h) by (rewrite Eh; reflexivity). rewrite N.
  assert (O : open_group calc 0 h (Rpn eqn [0] [] false) = Fail RKey \/ (exists e, open_group calc 0 h (Rpn eqn [0] [] false) = Fail e)
    \/ exists v ign, open_group calc 0 h (Rpn eqn [0] [] false) = Done (false, Rpn (set_nth 0 v eqn) [0] (g :: ign) false)).
  { unfold open_group. rewrite T', Vh. unfold ignored. rewrite Gh. cbn [r_ignore mem_str existsb negb andb r_eqn r_stack r_pop].
    destruct (collect_group eqn g) as [grp|e]; cbn [rbind]; [|right; left; eauto].
    destruct (calc grp) as [v|e]; cbn [rbind]; [|right; left; eauto]. right. right. do 2 eexists. reflexivity. }
  destruct O as [O|[[e O]|[v [ign O]]]]; rewrite O; [discriminate|discriminate|].
  rewrite Gh. destruct (rpn_loop _ _ _ _ _) as [e [s|x]] eqn:L; cbn [snd top rbind]; [|discriminate].
  apply (loop_done root _ g) in L.
  - subst s. cbn. intros X. now injection X as <-.
  - cbn [r_eqn]. apply set_nth_groups. exact G'.
  - cbn [r_ignore]. now left.
Qed.

(** ** In the calculator *)

Lemma resolved_shape gen : forall eqn st st' eqn' e, resolve_terms gen st eqn = (st', eqn', e) ->
  Forall2 (fun t t' => t_group t' = t_group t /\ t_type t' = t_type t) eqn eqn'.
Proof.
  assert (R : forall l : list term, Forall2 (fun t t' => t_group t' = t_group t /\ t_type t' = t_type t) l l).
  { induction l; constructor; auto. }
  induction eqn as [|t r IH]; intros st st' eqn' e H; cbn [resolve_terms] in H.
  - injection H as _ <- _. constructor.
  - destruct (resolve_value gen st t) as [st1 [v|x]] eqn:V.
    + destruct (resolve_terms gen st1 r) as [[st2 r'] e'] eqn:N. injection H as _ <- _. constructor; [|exact (IH _ _ _ _ N)].
      destruct v; split; reflexivity.
    + injection H as _ <- _. apply R.
Qed.

Lemma headed_lost root d st c head g ts q : dget c (s_rhs st) = Some (head :: ts) -> t_type head = "G" ->
  (forall t, In t (head :: ts) -> t_group t = Some g) -> snd (compute_rhs root d st c) = Done q -> q = 0.
Proof.
  intros D T G. unfold compute_rhs. rewrite D. unfold eval_equation.
  destruct (resolve_terms _ st (head :: ts)) as [[st' eqn'] [x|]] eqn:R; cbn [snd]; [discriminate|].
  apply resolved_shape in R. inversion R as [|a b r r' [E1 E2] F]; subst.
  apply (head_lost root b g r'); [unfold type_is; now rewrite E2, T|].
  assert (K : forall l l', Forall2 (fun t t' : term => t_group t' = t_group t /\ t_type t' = t_type t) l l' ->
    (forall t, In t l -> t_group t = Some g) -> forall t, In t l' -> t_group t = Some g).
  { clear. induction 1 as [|a b l l' [E _] F IH]; intros H t; [intros []|]. intros [<-|X]; [rewrite E; apply H; now left|].
    apply IH; [intros u Hu; apply H; now right|exact X]. }
  exact (K _ _ R G).
Qed.

Lemma unnamed_head root d st c head g ts x : dget c (s_rhs st) = Some (head :: ts) -> factor head -> ts <> [] ->
  (forall t, In t ts -> summand (Some g) t) -> total st ts x ->
  exists q, snd (compute_rhs root d st c) = Done q /\ q == t_mult head * x.
Proof.
  intros D F N S T. destruct (groups_value root d st c [Opened head g ts] (t_mult head * x + 0)) as [q [E1 E2]].
  - cbn. now rewrite app_nil_r.
  - constructor; [|constructor]. cbn. auto.
  - cbn. constructor; [intros []|constructor].
  - apply sum_cons; [|apply sum_nil]. exists x. split; [exact T|reflexivity].
  - exists q. split; [exact E1|]. rewrite E2. ring.
Qed.

(** ** Between other terms *)

Lemma addends_loop root calc : forall ts pre rest n a ign p, (forall t, In t ts -> addend t /\ plain t) ->
  exists b, rpn_loop root calc (length ts + n) (length pre) (Rpn (pre ++ ts ++ rest) [a] ign p) =
    rpn_loop root calc n (length (pre ++ ts)) (Rpn ((pre ++ ts) ++ rest) [b] ign p) /\ b == a + qsum (map worth ts).
Proof.
  induction ts as [|t r IH]; intros pre rest n a ign p H.
  - exists a. cbn [length app Nat.add map]. rewrite app_nil_r. split; [reflexivity|]. cbn. lra.
  - destruct (H t (or_introl eq_refl)) as [A P]. cbn [length Nat.add rpn_loop app]. rewrite plain_step by exact P. rewrite addend_apply by exact A.
    cbn [rbind fst snd]. destruct (IH (pre ++ [t]) rest n (a + worth t) ign p) as [b [E F]]; [intros; apply H; now right|].
    exists b. split.
    + replace (pre ++ t :: r ++ rest) with ((pre ++ [t]) ++ r ++ rest) by (rewrite <- app_assoc; reflexivity).
      replace (Datatypes.S (length pre)) with (length (pre ++ [t])) by (rewrite app_length; cbn; apply Nat.add_1_r).
      rewrite E. now rewrite <- !app_assoc.
    + rewrite F. unfold qsum. cbn [map fold_right]. lra.
Qed.

(** ** The group itself has a value *)

Lemma span_in_g : forall g l prev i f la, (forall t, In t l -> t_group t = Some g) ->
  span_from g prev i l (Span (Some f) la true) = Span (Some f) (match l with [] => la | _ => Some (i + length l - 1)%nat end) true.
Proof.
  intros g l. induction l as [|t r IH]; intros prev i f la H; [reflexivity|]. cbn [span_from].
  assert (E : span_step g prev i t (Span (Some f) la true) = Span (Some f) (Some i) true).
  { assert (M : in_group g t = true) by (unfold in_group; rewrite (H t (or_introl eq_refl)); apply String.eqb_refl).
    unfold span_step. cbn [sp_first]. rewrite M, (H t (or_introl eq_refl)). cbn [sp_first sp_last sp_g]. rewrite String.eqb_refl. cbn [negb].
    destruct i as [|j], prev as [q|]; try reflexivity. rewrite andb_false_r. reflexivity. }
  rewrite E, IH by (intros; apply H; now right). f_equal. f_equal. destruct r; cbn; [f_equal; lia|f_equal; lia].
Qed.
Lemma span_out_g : forall g l prev i s, (forall t, In t l -> t_group t = None) -> sp_first s <> None -> span_from g prev i l s = s.
Proof.
  intros g l. induction l as [|t r IH]; intros prev i s N H; [reflexivity|]. cbn [span_from].
  assert (E : span_step g prev i t s = s).
  { unfold span_step, in_group. rewrite (N t (or_introl eq_refl)). destruct s as [[f|] l b]; [|cbn in H; congruence]. cbn. destruct i, prev; reflexivity. }
  rewrite E. apply IH; auto. intros; apply N; now right.
Qed.
Lemma collect_g pre h ts rest g : t_group h = Some g -> type_is "G" h = true -> (forall t, In t ts -> t_group t = Some g) ->
  (forall t, In t pre -> t_group t = None) -> (forall t, In t rest -> t_group t = None) ->
  collect_group (pre ++ (h :: ts) ++ rest) g = Done (map ungroup (h :: ts)).
Proof.
  intros Gh Th H A B. unfold collect_group.
  destruct (span_app g pre ((h :: ts) ++ rest) None 0 (Span None None false)) as [p1 ->].
  rewrite (span_out g pre); [|intros t Ht; unfold in_group; now rewrite (A t Ht)|left; split; reflexivity].
  destruct (span_app g (h :: ts) rest p1 (0 + length pre) (Span None None false)) as [p2 ->].
  assert (F : span_from g p1 (0 + length pre) (h :: ts) (Span None None false) = Span (Some (0 + length pre)%nat) (Some (0 + length pre + length ts)%nat) true).
  { cbn [span_from]. assert (E : forall i, span_step g p1 i h (Span None None false) = Span (Some i) (Some i) true).
    { intros i. assert (M : in_group g h = true) by (unfold in_group; rewrite Gh; apply String.eqb_refl).
      unfold span_step. cbn [sp_first]. rewrite M, Gh, Th. cbn [sp_first sp_last sp_g]. rewrite ?M. cbn [sp_first sp_last sp_g]. rewrite String.eqb_refl. cbn [negb].
      destruct i as [|j], p1 as [q|]; try reflexivity. rewrite andb_false_r. reflexivity. }
    rewrite E, span_in_g by exact H. f_equal. destruct ts; cbn [length]; f_equal; lia. }
  rewrite F, span_out_g; [|exact B|discriminate]. cbn [sp_first sp_last].
  replace (Datatypes.S (0 + length pre + length ts) - (0 + length pre))%nat with (length (h :: ts)) by (cbn [length]; lia).
  rewrite skipn_app, skipn_all2 by lia. replace (0 + length pre - length pre)%nat with 0%nat by lia. cbn [app skipn].
  rewrite app_comm_cons, firstn_app, Nat.sub_diag, firstn_all. cbn [firstn]. rewrite app_nil_r. apply strip_all. intros t [<-|Ht]; auto.
Qed.
Lemma group_runs root f h ts : type_is "G" h = true -> ts <> [] -> (forall t, In t ts -> addend t /\ type_is "G" t = false) ->
  exists v, top (snd (rpn_stack root (Datatypes.S f) (map ungroup (h :: ts)))) = Done v.
Proof.
  intros T NE H. cbn [rpn_stack]. set (k := fun g => top (snd (rpn_stack root f g))).
  assert (C : clear_groups (map ungroup (h :: ts)) = set_value (ungroup h) None :: map ungroup ts).
  { unfold clear_groups. cbn [map]. change (type_is "G" (ungroup h)) with (type_is "G" h). rewrite T. f_equal. rewrite map_map. apply map_ext_in.
    intros t Ht. change (type_is "G" (ungroup t)) with (type_is "G" t). now destruct (H t Ht) as [_ ->]. }
  rewrite C. set (h' := set_value (ungroup h) None). rewrite map_length. cbn [length rpn_loop]. unfold rpn_step. cbn [r_eqn nth_error].
  assert (O : open_group k 0 h' (Rpn (h' :: map ungroup ts) [0] [] false) = Done (true, Rpn (h' :: map ungroup ts) [0] [] false)).
  { unfold open_group. change (type_is "G" h') with (type_is "G" h). rewrite T. cbn [h' set_value ungroup t_value t_group ignored negb andb r_eqn nth_error].
    destruct ts as [|t r]; [congruence|]. reflexivity. }
  rewrite O. destruct (addends_loop root k (map ungroup ts) [h'] [] 0 0 [] false) as [b [E _]].
  { intros t Ht. apply in_map_iff in Ht. destruct Ht as [u [<- Hu]]. destruct (H u Hu) as [X Y]. split; [exact X|split; [reflexivity|exact Y]]. }
  rewrite app_nil_r, Nat.add_0_r, map_length in E. cbn [app length] in E. rewrite E. exists b. reflexivity.
Qed.

(** ** In a sum *)

Lemma lost_loop root f ts0 h g ts ts1 : (forall t, In t (ts0 ++ ts1) -> addend t /\ plain t) ->
  type_is "G" h = true -> t_value h = None -> t_group h = Some g -> ts <> [] -> (forall t, In t ts -> t_group t = Some g /\ type_is "G" t = false /\ addend t) ->
  exists b, snd (rpn_loop root (fun g => top (snd (rpn_stack root (Datatypes.S f) g))) (length (ts0 ++ h :: ts ++ ts1)) 0
                   (Rpn (ts0 ++ h :: ts ++ ts1) [0] [] false)) = Done [b]
    /\ b == qsum (map worth ts0) + qsum (map worth ts1).
Proof.
  intros A T V G NE M. set (calc := fun g => top (snd (rpn_stack root (Datatypes.S f) g))). rewrite app_length.
  destruct (addends_loop root calc ts0 [] (h :: ts ++ ts1) (length (h :: ts ++ ts1)) 0 [] false) as [b [E F]];
    [intros; apply A; apply in_app_iff; now left|].
  cbn [app length] in E |- *. rewrite E. clear E. cbn [rpn_loop]. unfold rpn_step. cbn [r_eqn]. rewrite nth_mid.
  destruct (group_runs root f h ts T NE) as [v Ev]; [intros t Ht; now destruct (M t Ht) as [_ [X Y]]|].
  assert (O : exists ign, open_group calc (length ts0) h (Rpn (ts0 ++ h :: ts ++ ts1) [b] [] false) =
         Done (false, Rpn (set_nth (length ts0) v (ts0 ++ h :: ts ++ ts1)) [b] (g :: ign) false)).
  { unfold open_group. rewrite T, V. unfold ignored. rewrite G. cbn [r_ignore mem_str existsb negb andb r_eqn r_stack r_pop].
    change (ts0 ++ h :: ts ++ ts1) with (ts0 ++ (h :: ts) ++ ts1). rewrite collect_g; auto.
    - cbn [rbind]. unfold calc. rewrite Ev. cbn [rbind]. eexists. reflexivity.
    - intros t Ht. now destruct (M t Ht).
    - intros t Ht. destruct (A t) as [_ [X _]]; [apply in_app_iff; now left|exact X].
    - intros t Ht. destruct (A t) as [_ [X _]]; [apply in_app_iff; now right|exact X]. }
  destruct O as [ign O]; rewrite O. rewrite G, set_mid.
  set (h' := set_value h (Some v)).
  replace (ts0 ++ h' :: ts ++ ts1) with ((ts0 ++ [h']) ++ ts ++ ts1) by (rewrite <- app_assoc; reflexivity).
  replace (Datatypes.S (length ts0)) with (length (ts0 ++ [h'])) by (rewrite app_length; cbn; apply Nat.add_1_r).
  rewrite app_length, skip by (intros t Ht; exists g; split; [now destruct (M t Ht)|apply mem_of; now left]).
  destruct (addends_loop root calc ts1 ((ts0 ++ [h']) ++ ts) [] 0 b (g :: ign) false) as [b' [E' F']];
    [intros; apply A; apply in_app_iff; now right|].
  rewrite app_nil_r, Nat.add_0_r in E'. rewrite E'. exists b'. split; [reflexivity|]. rewrite F', F. lra.
Qed.

Lemma lost_between root d st c ts0 head g ts ts1 x y z : dget c (s_rhs st) = Some (ts0 ++ head :: ts ++ ts1) -> t_type head = "G" -> t_op head = None ->
  t_group head = Some g -> ts <> [] -> (forall t, In t ts -> summand (Some g) t) -> (forall t, In t ts0 -> summand None t) -> (forall t, In t ts1 -> summand None t) ->
  total st ts0 x -> total st ts y -> total st ts1 z -> exists q, snd (compute_rhs root d st c) = Done q /\ q == x + z.
Proof.
  intros D Th Oh Gh NE S S0 S1 X Y Z.
  destruct (total_settled (compute_generic root d) st None ts0 x S0 X) as [H0 W0].
  destruct (total_settled (compute_generic root d) st (Some g) ts y S Y) as [H W].
  destruct (total_settled (compute_generic root d) st None ts1 z S1 Z) as [H1 W1].
  assert (Fh : found st (t_type head) (t_id head) = None) by (unfold found, resolve_value, type_is; rewrite Th; cbn; rewrite !andb_false_r; reflexivity).
  assert (Sh : settled (compute_generic root d) st head).
  { unfold settled, found, resolve_value, type_is. rewrite Th. cbn. rewrite !andb_false_r. reflexivity. }
  rewrite (settled_eval root d st c _ D).
  2: { intros t Ht. apply in_app_iff in Ht. destruct Ht as [Ht|[<-|Ht]]; [auto|exact Sh|]. apply in_app_iff in Ht. destruct Ht; auto. }
  unfold rpn_calc. cbn [snd].
  set (eqn := map (fill st) (ts0 ++ head :: ts ++ ts1)).
  assert (Cl : clear_groups eqn = map (ready st) ts0 ++ ready st head :: map (ready st) ts ++ map (ready st) ts1).
  { unfold eqn, clear_groups. rewrite map_map. rewrite map_app. cbn [map]. now rewrite map_app. }
  assert (Ln : length eqn = length (clear_groups eqn)) by (unfold clear_groups; now rewrite map_length).
  assert (Hn : exists f, length eqn = Datatypes.S f) by (rewrite Ln, Cl, app_length; cbn [length]; rewrite Nat.add_succ_r; eauto).
  destruct Hn as [f Hn].
  destruct (lost_loop root f (map (ready st) ts0) (ready st head) g (map (ready st) ts) (map (ready st) ts1)) as [b [L E]].
  - intros t Ht. rewrite <- map_app in Ht. apply in_map_iff in Ht. destruct Ht as [u [<- Hu]].
    assert (Su : summand None u) by (apply in_app_iff in Hu; destruct Hu; auto).
    destruct (summand_ready st None u Su) as [_ [E1 [E2 E3]]]. split; [exact E3|split; assumption].
  - unfold ready, fill, type_is. rewrite Fh, Th. cbn. now rewrite Th.
  - unfold ready, fill, type_is. rewrite Fh, Th. reflexivity.
  - unfold ready, fill, type_is. rewrite Fh, Th. cbn. exact Gh.
  - destruct ts; [congruence|discriminate].
  - intros t Ht. apply in_map_iff in Ht. destruct Ht as [u [<- Hu]]. destruct (summand_ready st (Some g) u (S u Hu)) as [_ [E1 [E2 E3]]]. auto.
  - exists b. split; [|rewrite E, W0, W1; reflexivity]. rewrite <- Cl, <- Ln in L. rewrite Hn in *.
    change (rpn_stack root (Datatypes.S (Datatypes.S f)) eqn) with
      (rpn_loop root (fun g => top (snd (rpn_stack root (Datatypes.S f) g))) (length eqn) 0 (Rpn (clear_groups eqn) [0] [] false)).
    rewrite Hn, L. reflexivity.
Qed.
