(** Lemmas about the evaluation of equations in reverse polish notation. *)

From Coq Require Import QArith Qminmax Qabs Lqa String List Bool Arith Lia.
Import ListNotations.
From Verif Require Import PandasModel RhsModel SpecRhs PandasFacts OffersFacts.
Open Scope string_scope.
Open Scope list_scope.

(** ** Equations without groups *)

Fixpoint run_terms (root : Q -> Q) (ts : list term) (p : bool) (s : list Q) : res (bool * list Q) :=
  match ts with
  | [] => Done (p, s)
  | t :: r => rbind (apply_term root p s t) (fun q => run_terms root r (fst q) (snd q))
  end.
Definition plain (t : term) : Prop := t_group t = None /\ type_is "G" t = false.

Lemma nth_mid : forall {A} (pre : list A) t rest, nth_error (pre ++ t :: rest) (length pre) = Some t.
Proof. intros. rewrite nth_error_app2, Nat.sub_diag by lia. reflexivity. Qed.

Lemma plain_step : forall root calc pre t rest s ign p, plain t ->
  rpn_step root calc (length pre) (Rpn (pre ++ t :: rest) s ign p) =
  (pre ++ t :: rest, rbind (apply_term root p s t) (fun q => Done (Rpn (pre ++ t :: rest) (snd q) ign (fst q)))).
Proof.
  intros root calc pre t rest s ign p [G T]. unfold rpn_step. cbn [r_eqn]. rewrite nth_mid. unfold open_group. rewrite T. cbn [andb].
  rewrite G. cbn [r_eqn r_stack r_ignore r_pop]. rewrite nth_mid. reflexivity.
Qed.
Lemma plain_loop : forall root calc rest pre s ign p, Forall plain rest ->
  snd (rpn_loop root calc (length rest) (length pre) (Rpn (pre ++ rest) s ign p)) = rbind (run_terms root rest p s) (fun q => Done (snd q)).
Proof.
  intros root calc rest. induction rest as [|t r IH]; intros pre s ign p H; [reflexivity|].
  inversion H as [|? ? Ht Hr]; subst. cbn [length rpn_loop run_terms]. rewrite plain_step by exact Ht.
  destruct (apply_term root p s t) as [[p' s']|e]; cbn [rbind fst snd]; [|reflexivity].
  replace (pre ++ t :: r) with ((pre ++ [t]) ++ r) by (rewrite <- app_assoc; reflexivity).
  replace (Datatypes.S (length pre)) with (length (pre ++ [t])) by (rewrite app_length; cbn; lia). now apply IH.
Qed.
Lemma clear_plain : forall eqn, Forall plain eqn -> clear_groups eqn = eqn.
Proof. intros eqn H. induction H as [|t r [_ T] H IH]; [reflexivity|]. unfold clear_groups in *. cbn [map]. now rewrite T, IH. Qed.
Lemma plain_stack : forall root f eqn, Forall plain eqn ->
  top (snd (rpn_stack root (Datatypes.S f) eqn)) = top (rbind (run_terms root eqn false [0]) (fun q => Done (snd q))).
Proof.
  intros root f eqn H. cbn [rpn_stack]. rewrite clear_plain by exact H. f_equal.
  exact (plain_loop root _ eqn [] [0] [] false H).
Qed.

Lemma run_app : forall root a b p s, run_terms root (a ++ b) p s = rbind (run_terms root a p s) (fun q => run_terms root b (fst q) (snd q)).
Proof.
  intros root a. induction a as [|t r IH]; intros b p s; [reflexivity|]. cbn [app run_terms].
  destruct (apply_term root p s t) as [[p' s']|e]; cbn [rbind fst snd]; [apply IH|reflexivity].
Qed.

(** ** Values of inputs *)

Definition found (st : store) (ty id : string) : option Q :=
  match snd (resolve_value (fun st _ => (st, Fail RKey)) st (RTerm ty id None 1 None None None)) with
  | Done o => o
  | Fail _ => None
  end.
Definition fill (st : store) (t : term) : term :=
  match found st (t_type t) (t_id t) with Some q => set_value t (Some q) | None => t end.

Lemma fold_qsum : forall l a, fold_left Qplus l a == a + qsum l.
Proof. intros l. induction l as [|x r IH]; intros a; cbn [fold_left qsum fold_right]; [unfold qsum; cbn; lra|]. rewrite IH. unfold qsum. cbn [fold_right]. lra. Qed.

Lemma dhas_get : forall {A} k (d : dict A) v, dget k d = Some v -> dhas k d = true.
Proof. intros A k d v H. unfold dhas. now rewrite H. Qed.

Lemma has_found : forall gen st t q, has_value st (t_type t) (t_id t) q ->
  exists w, found st (t_type t) (t_id t) = Some w /\ w == q /\ resolve_value gen st t = (st, Done (Some w)).
Proof.
  intros gen st t q [[T [d [l [D [L E]]]]]|[[T D]|[[T D]|[[T D]|[T D]]]]].
  - assert (M : mem_str (t_type t) scada_types = true) by (apply mem_str_in; exact T).
    assert (C : String.eqb (t_type t) "C" = false) by (destruct T as [<-|[<-|[<-|[<-|[<-|[]]]]]]; reflexivity).
    exists (fold_left Qplus l 0). unfold found, resolve_value, type_is. cbn [t_type t_id]. rewrite C, M, D. cbn [need_key rbind]. rewrite L. cbn [need_key rbind snd].
    split; [reflexivity|]. split; [|reflexivity]. rewrite fold_qsum. rewrite E. lra.
  - exists q. unfold found, resolve_value, type_is. cbn [t_type t_id]. rewrite T, D, (dhas_get _ _ _ D). cbn. repeat split; reflexivity.
  - exists q. unfold found, resolve_value, type_is. cbn [t_type t_id]. rewrite T, D, (dhas_get _ _ _ D). rewrite ?andb_false_r. cbn. repeat split; reflexivity.
  - exists q. unfold found, resolve_value, type_is. cbn [t_type t_id]. rewrite T, D, (dhas_get _ _ _ D). rewrite ?andb_false_r. cbn. repeat split; reflexivity.
  - exists q. unfold found, resolve_value, type_is. cbn [t_type t_id]. rewrite T, D, (dhas_get _ _ _ D). rewrite ?andb_false_r. cbn. repeat split; reflexivity.
Qed.

(** A term that takes no input has none of the types with values, or an unknown id. *)
Lemma not_found : forall gen st t, no_value st t -> ~ In (t_type t) ["A"; "S"; "R"; "I"; "W"] -> t_type t <> "X" ->
  found st (t_type t) (t_id t) = None /\ resolve_value gen st t = (st, Done None).
Proof.
  intros gen st t N S X. assert (M : mem_str (t_type t) scada_types = false) by (destruct (mem_str (t_type t) scada_types) eqn:M; [apply mem_str_in in M; contradiction|reflexivity]).
  assert (X' : String.eqb (t_type t) "X" = false) by (apply String.eqb_neq; exact X).
  assert (K : forall (d : dict Q) s, (forall q, t_type t = s -> dget (t_id t) d = Some q -> has_value st (t_type t) (t_id t) q) -> dhas (t_id t) d && String.eqb (t_type t) s = false).
  { intros d s H. destruct (String.eqb_spec (t_type t) s) as [E|E]; [|apply andb_false_r]. rewrite andb_true_r. unfold dhas.
    destruct (dget (t_id t) d) as [q|] eqn:D; [|reflexivity]. exfalso. apply (N q). now apply H. }
  assert (K1 := K (s_mw st) "T"). assert (K2 := K (s_entered st) "E"). assert (K3 := K (s_from st) "M"). assert (K4 := K (s_to st) "N"). clear K.
  unfold found, resolve_value, type_is. cbn [t_type t_id]. rewrite M, X', andb_false_r.
  rewrite K1, K2, K3, K4 by (unfold has_value; intuition auto). cbn. destruct (String.eqb (t_type t) "C"); split; reflexivity.
Qed.

Definition settled (gen : store -> string -> store * res Q) (st : store) (t : term) : Prop :=
  resolve_value gen st t = (st, Done (found st (t_type t) (t_id t))).
Lemma settled_terms : forall gen st eqn, (forall t, In t eqn -> settled gen st t) -> resolve_terms gen st eqn = (st, map (fill st) eqn, None).
Proof.
  intros gen st eqn. induction eqn as [|t r IH]; intros H; [reflexivity|]. cbn [resolve_terms map]. rewrite (H t (or_introl eq_refl)).
  rewrite IH by (intros; apply H; now right). reflexivity.
Qed.
Lemma settled_eval : forall root d st c eqn, dget c (s_rhs st) = Some eqn -> (forall t, In t eqn -> settled (compute_generic root d) st t) ->
  snd (compute_rhs root d st c) = snd (rpn_calc root (map (fill st) eqn)).
Proof. intros root d st c eqn D H. unfold compute_rhs. rewrite D. unfold eval_equation. rewrite settled_terms by exact H. reflexivity. Qed.

(** ** Expressions *)

Lemma value_type : forall st ty id q, has_value st ty id q -> ~ In ty ["U"; "G"; "B"; "X"; "C"].
Proof.
  intros st ty id q H I. cbn in I. destruct H as [[T _]|[[T _]|[[T _]|[[T _]|[T _]]]]]; cbn in T; repeat match goal with
    | H : _ \/ _ |- _ => destruct H | H : False |- _ => destruct H end; subst; discriminate.
Qed.

Lemma larger_is : forall a b, exists q, larger a b = Done q /\ q == Qmax a b.
Proof.
  intros a b. unfold larger. destruct (Qlt_bool a b) eqn:E; eexists; (split; [reflexivity|]).
  - apply qlt_true in E. rewrite Q.max_r; lra.
  - apply qlt_false in E. rewrite Q.max_l; lra.
Qed.
Lemma smaller_is : forall a b, exists q, smaller a b = Done q /\ q == Qmin a b.
Proof.
  intros a b. unfold smaller. destruct (Qlt_bool b a) eqn:E; eexists; (split; [reflexivity|]).
  - apply qlt_true in E. rewrite Q.min_r; lra.
  - apply qlt_false in E. rewrite Q.min_l; lra.
Qed.
Definition binop (o : binary) : Q -> Q -> res Q :=
  match o with Add => plus | Sub => minus | Mul => times | Div => over | Max => larger | Min => smaller end.
Lemma binop_is : forall o a b a' b', a' == a -> b' == b ->
  match two o a b with Some q => exists q', binop o a' b' = Done q' /\ q' == q | None => binop o a' b' = Fail RZero end.
Proof.
  intros o a b a' b' A B. destruct o; cbn [two binop].
  - eexists; split; [reflexivity|]. now rewrite A, B.
  - eexists; split; [reflexivity|]. now rewrite A, B.
  - eexists; split; [reflexivity|]. now rewrite A, B.
  - unfold over. replace (Qeq_bool b' 0) with (Qeq_bool b 0) by (apply eq_true_iff_eq; rewrite !Qeq_bool_iff, B; reflexivity).
    destruct (Qeq_bool b 0); [reflexivity|]. eexists; split; [reflexivity|]. now rewrite A, B.
  - destruct (larger_is a' b') as [q [E F]]. exists q. split; [exact E|]. now rewrite F, A, B.
  - destruct (smaller_is a' b') as [q [E F]]. exists q. split; [exact E|]. now rewrite F, A, B.
Qed.

Lemma apply_stack : forall root o p a b s m, 
  apply_term root p (b :: a :: s) (stack_term (Some (op_name o)) m) =
  match o with Add => Done (p, (b + a) * m :: s) | _ => keep_flag p (rbind (binop o a b) (fun q => Done (q * m :: s))) end.
Proof. intros root o p a b s m. destruct o; reflexivity. Qed.
Lemma apply_constant : forall root df o p a s c,
  apply_term root p (a :: s) (value_term df (Some (op_name o)) (Constant c)) = keep_flag p (rbind (binop o a c) (fun q => Done (q :: s))).
Proof. intros root df o p a s c. destruct o; reflexivity. Qed.

(** A term of an input type with the value [w], its own or its default. *)
Definition reads (t : term) (w : Q) : Prop :=
  value_or_default t = Done w /\ t_group t = None /\ ~ In (t_type t) ["U"; "G"; "B"; "X"; "C"].
Lemma reads_type : forall t w, reads t w -> type_is "U" t = false /\ type_is "B" t = false /\ type_is "C" t = false /\ type_is "G" t = false.
Proof.
  intros t w [_ [_ N]]. unfold type_is. repeat split; apply String.eqb_neq; intros E; apply N; rewrite E; cbn; auto 6.
Qed.
Lemma apply_input : forall root o p a s t w, t_op t = Some (op_name o) -> reads t w ->
  apply_term root p (a :: s) t = keep_flag p (rbind (binop o a w) (fun q => Done (q * t_mult t :: s))).
Proof.
  intros root o p a s t w O R. destruct (reads_type t w R) as [U [B [C _]]]. destruct R as [V _].
  unfold apply_term. rewrite O, U, B. destruct o; cbn [String.eqb op_name Ascii.eqb Bool.eqb]; f_equal;
    unfold with_value; rewrite V; cbn [rbind]; rewrite C; reflexivity.
Qed.
Lemma apply_push : forall root p s t w, t_op t = Some "PUSH" -> reads t w -> apply_term root p s t = Done (p, t_mult t * w :: s).
Proof.
  intros root p s t w O R. destruct (reads_type t w R) as [U [B [C _]]]. destruct R as [V _].
  unfold apply_term. rewrite O, B. cbn [String.eqb Ascii.eqb Bool.eqb]. unfold op_push. rewrite C, V. reflexivity.
Qed.
Lemma apply_step : forall root p a s t w, t_op t = Some "STEP" -> reads t w -> apply_term root p (a :: s) t = Done (p, a + step_fun w (t_mult t) :: s).
Proof.
  intros root p a s t w O R. destruct (reads_type t w R) as [U [B [C _]]]. destruct R as [V _].
  unfold apply_term. rewrite O, B. cbn [String.eqb Ascii.eqb Bool.eqb]. unfold op_step. rewrite U, V. reflexivity.
Qed.
Lemma apply_plus_un : forall root o p a s t w, t_op t = Some (un_name o) -> reads t w -> t_value t = Some w ->
  exists q, apply_term root p (a :: s) t = Done (p, a + q * t_mult t :: s) /\ q == one root o w.
Proof.
  intros root o p a s t w O R V. destruct (reads_type t w R) as [U [B [C _]]].
  unfold apply_term. rewrite O, B. destruct o; cbn [String.eqb un_name Ascii.eqb Bool.eqb]; unfold op_unary; rewrite U, C, V; cbn [need_key rbind keep_flag];
    (eexists; split; [reflexivity|]); cbn; unfold square, cube, negated; lra.
Qed.
Lemma step_is : forall x y m, x == y -> step_fun x m = if Qle_bool y 0 then 0 else m.
Proof.
  intros x y m E. unfold step_fun. destruct (Qle_bool y 0) eqn:L.
  - apply Qle_bool_iff in L. destruct (Qlt_bool 0 x) eqn:K; [|reflexivity]. apply qlt_true in K. lra.
  - destruct (Qlt_bool 0 x) eqn:K; [reflexivity|]. apply qlt_false in K. assert (H : y <= 0) by lra. apply Qle_bool_iff in H. congruence.
Qed.
Lemma apply_unary : forall root o p a s m, exists q,
  apply_term root p (a :: s) (stack_term (Some (un_name o)) m) = Done (p, q * m :: s) /\ q == one root o a.
Proof. intros root o p a s m. destruct o; (eexists; split; [reflexivity|]); cbn; unfold square, cube, negated; lra. Qed.

Section Expressions.
  Variables (root : Q -> Q) (st : store) (df : string -> string -> option Q) (v : string -> string -> Q).
  Hypothesis root_ok : forall a b, a == b -> root a == root b.

  Lemma one_ok : forall o a b, a == b -> one root o a == one root o b.
  Proof. intros o a b E. destruct o; cbn [one]; try (now rewrite E). now apply root_ok. Qed.

  Lemma fill_fixed : forall op m, fill st (stack_term op m) = stack_term op m.
  Proof. intros. unfold fill, found, resolve_value, type_is. cbn. rewrite !andb_false_r. reflexivity. Qed.
  Lemma fill_constant : forall op c, fill st (value_term df op (Constant c)) = value_term df op (Constant c).
  Proof. reflexivity. Qed.

  (** What is left of an input once its value has been looked up. *)
  Definition looks (op : option string) (ty id : string) (m : Q) (t : term) : Prop :=
    t_op t = op /\ t_mult t = m /\ t_type t = ty /\ t_id t = id.
  Lemma fill_has : forall op ty id m, has_value st ty id (v ty id) ->
    let t := fill st (value_term df op (Input ty id m)) in exists w, looks op ty id m t /\ reads t w /\ t_value t = Some w /\ w == v ty id.
  Proof.
    intros op ty id m H. destruct (has_found (fun st _ => (st, Fail RKey)) st (value_term df op (Input ty id m)) _ H) as [w [F [E _]]].
    exists w. unfold fill. rewrite F. unfold looks, reads. cbn. repeat split; auto. now apply value_type with st id (v ty id).
  Qed.
  Lemma fill_given : forall op ty id m, given st df ty id (v ty id) ->
    let t := fill st (value_term df op (Input ty id m)) in exists w, looks op ty id m t /\ reads t w /\ w == v ty id.
  Proof.
    intros op ty id m [H|[D [N T]]]; [destruct (fill_has op ty id m H) as [w [A [B [_ C]]]]; eauto|].
    exists (v ty id). destruct (not_found (fun st _ => (st, Fail RKey)) st (value_term df op (Input ty id m))) as [F _].
    - exact N.
    - cbn [value_term t_type]. intros X. apply T. cbn in X |- *. tauto.
    - cbn [value_term t_type]. intros ->. apply T. cbn. tauto.
    - unfold fill. rewrite F. unfold looks, reads. cbn. rewrite D. repeat split; auto; try reflexivity. intros X. apply T. cbn. tauto.
  Qed.

  Lemma express : forall e, readable st df v e -> forall p s,
    match meaning root v e with
    | Some q => exists q', run_terms root (map (fill st) (encode df e)) p s = Done (p, q' :: s) /\ q' == q
    | None => run_terms root (map (fill st) (encode df e)) p s = Fail RZero
    end.
  Proof.
    intros e. induction e as [ss|o a IHa b IHb m|o a IHa ss|o a IHa m|a IHa m|o a IHa ss|a IHa ss|a IHa ss|a IHa m]; intros [H K] p s.
    - destruct ss as [c|ty id m]; cbn [meaning encode map].
      + rewrite fill_constant. exists c. split; reflexivity.
      + destruct (fill_given (Some "PUSH") ty id m (H _ _ (or_introl eq_refl))) as [w [[O [M _]] [R E]]]. exists (m * w). split; [|now rewrite E].
        cbn [run_terms]. rewrite (apply_push root p s _ w O R), M. reflexivity.
    - assert (Ha : readable st df v a) by (split; intros; [apply H|apply K]; cbn; apply in_app_iff; auto).
      assert (Hb : readable st df v b) by (split; intros; [apply H|apply K]; cbn; apply in_app_iff; auto).
      specialize (IHa Ha p s). cbn [meaning encode]. rewrite !map_app, run_app. destruct (meaning root v a) as [x|]; cbn [lift]; [|now rewrite IHa].
      destruct IHa as [x' [-> Ex]]. cbn [rbind fst snd]. rewrite run_app. specialize (IHb Hb p (x' :: s)). destruct (meaning root v b) as [y|]; cbn [lift]; [|now rewrite IHb].
      destruct IHb as [y' [-> Ey]]. cbn [rbind fst snd map]. rewrite fill_fixed. cbn [run_terms]. rewrite apply_stack.
      pose proof (binop_is o x y x' y' Ex Ey) as B. destruct o; [cbn [two] in *|destruct (two _ x y) as [z|]..]; cbn [lift];
        try (rewrite B; reflexivity); try (destruct B as [z' [-> Ez]]; eexists; split; [reflexivity|]; now rewrite Ez).
      eexists; split; [reflexivity|]. rewrite Ex, Ey. ring.
    - assert (Ha : readable st df v a) by (split; intros; [apply H; cbn; apply in_app_iff; auto|apply K; exact H0]).
      specialize (IHa Ha p s). cbn [meaning encode]. rewrite map_app, run_app. destruct ss as [c|ty id m].
      + destruct (meaning root v a) as [x|]; cbn [lift]; [|now rewrite IHa]. destruct IHa as [x' [-> Ex]]. cbn [rbind fst snd map]. rewrite fill_constant. cbn [run_terms].
        rewrite apply_constant. pose proof (binop_is o x c x' c Ex (Qeq_refl c)) as B. destruct (two o x c) as [z|]; [|now rewrite B].
        destruct B as [z' [-> Ez]]. exists z'. split; [reflexivity|exact Ez].
      + destruct (meaning root v a) as [x|]; cbn [lift]; [|now rewrite IHa]. destruct IHa as [x' [-> Ex]]. cbn [rbind fst snd map].
        assert (Hs : given st df ty id (v ty id)) by (apply H; cbn; apply in_app_iff; right; now left).
        destruct (fill_given (Some (op_name o)) ty id m Hs) as [w [[O [M _]] [R E]]]. cbn [run_terms]. rewrite (apply_input root o p x' s _ w O R), M.
        pose proof (binop_is o x (v ty id) x' w Ex E) as B. destruct (two o x (v ty id)) as [z|]; cbn [lift]; [|now rewrite B].
        destruct B as [z' [-> Ez]]. eexists; split; [reflexivity|]. now rewrite Ez.
    - specialize (IHa (conj H K) p s). cbn [meaning encode]. rewrite map_app, run_app. destruct (meaning root v a) as [x|]; cbn [lift]; [|now rewrite IHa].
      destruct IHa as [x' [-> Ex]]. cbn [rbind fst snd map]. rewrite fill_fixed. cbn [run_terms]. destruct (apply_unary root o p x' s m) as [q [-> Eq]].
      eexists; split; [reflexivity|]. now rewrite Eq, (one_ok o _ _ Ex).
    - specialize (IHa (conj H K) p s). cbn [meaning encode]. rewrite map_app, run_app. destruct (meaning root v a) as [x|]; cbn [lift]; [|now rewrite IHa].
      destruct IHa as [x' [-> Ex]]. cbn [rbind fst snd map]. rewrite fill_fixed. eexists; split; [reflexivity|].
      change (t_mult (stack_term (Some "STEP") m)) with m. rewrite (step_is x' x m Ex). reflexivity.
    - assert (Ha : readable st df v a) by (split; intros; [apply H|apply K]; cbn; apply in_app_iff; auto).
      specialize (IHa Ha p s). cbn [meaning encode]. rewrite map_app, run_app. destruct ss as [c|ty id m].
      + destruct (meaning root v a) as [x|]; cbn [lift]; [|now rewrite IHa]. destruct IHa as [x' [-> Ex]]. cbn [rbind fst snd map]. rewrite fill_constant.
        destruct o; (eexists; split; [reflexivity|]); cbn; unfold square, cube, negated; rewrite Ex; lra.
      + destruct (meaning root v a) as [x|]; cbn [lift]; [|now rewrite IHa]. destruct IHa as [x' [-> Ex]]. cbn [rbind fst snd map].
        assert (Hs : has_value st ty id (v ty id)) by (apply K; cbn; apply in_app_iff; right; now left).
        destruct (fill_has (Some (un_name o)) ty id m Hs) as [w [[O [M _]] [R [V E]]]]. cbn [run_terms].
        destruct (apply_plus_un root o p x' s _ w O R V) as [q [-> Eq]]. rewrite M. eexists; split; [reflexivity|]. now rewrite Eq, Ex, (one_ok o _ _ E).
    - assert (Ha : readable st df v a) by (split; intros; [apply H; cbn; apply in_app_iff; auto|apply K; exact H0]).
      specialize (IHa Ha p s). cbn [meaning encode]. rewrite map_app, run_app. destruct ss as [c|ty id m].
      + destruct (meaning root v a) as [x|]; cbn [lift]; [|now rewrite IHa]. destruct IHa as [x' [-> Ex]]. cbn [rbind fst snd map]. rewrite fill_constant.
        eexists; split; [reflexivity|]. cbn. now rewrite Ex.
      + destruct (meaning root v a) as [x|]; cbn [lift]; [|now rewrite IHa]. destruct IHa as [x' [-> Ex]]. cbn [rbind fst snd map].
        assert (Hs : given st df ty id (v ty id)) by (apply H; cbn; apply in_app_iff; right; now left).
        destruct (fill_given (Some "STEP") ty id m Hs) as [w [[O [M _]] [R E]]]. cbn [run_terms]. rewrite (apply_step root p x' s _ w O R), M, (step_is w _ m E).
        eexists; split; [reflexivity|]. now rewrite Ex.
    - assert (Ha : readable st df v a) by (split; intros; [apply H|apply K]; cbn; apply in_app_iff; auto).
      specialize (IHa Ha p s). cbn [meaning encode]. rewrite map_app, run_app. destruct ss as [c|ty id m].
      + destruct (meaning root v a) as [x|]; cbn [lift]; [|now rewrite IHa]. destruct IHa as [x' [-> Ex]]. cbn [rbind fst snd map]. rewrite fill_constant.
        eexists; split; [reflexivity|]. cbn. now rewrite Ex.
      + destruct (meaning root v a) as [x|]; cbn [lift]; [|now rewrite IHa]. destruct IHa as [x' [-> Ex]]. cbn [rbind fst snd map].
        assert (Hs : has_value st ty id (v ty id)) by (apply K; cbn; apply in_app_iff; right; now left).
        destruct (fill_has None ty id m Hs) as [w [[O [M _]] [R [V E]]]]. destruct (reads_type _ _ R) as [_ [B _]]. cbn [run_terms]. unfold apply_term.
        rewrite O, V, B. unfold no_operator, keep_flag. rewrite V, M. eexists; split; [reflexivity|]. now rewrite Ex, E.
    - specialize (IHa (conj H K) p s). cbn [meaning encode]. rewrite map_app, run_app. destruct (meaning root v a) as [x|]; cbn [lift]; [|now rewrite IHa].
      destruct IHa as [x' [-> Ex]]. cbn [rbind fst snd map]. rewrite fill_fixed. eexists; split; [reflexivity|]. cbn [stack_term t_mult]. now rewrite Ex.
  Qed.

  Lemma stack_settled : forall op m gen, settled gen st (stack_term op m) /\ plain (fill st (stack_term op m)).
  Proof.
    intros op m gen. rewrite fill_fixed. split; [|split; reflexivity]. unfold settled, found, resolve_value, type_is. cbn. rewrite !andb_false_r. reflexivity.
  Qed.
  Lemma encode_terms : forall e, (forall ty id, In (ty, id) (inputs e) -> given st df ty id (v ty id)) -> forall gen t, In t (encode df e) ->
    settled gen st t /\ plain (fill st t).
  Proof.
    assert (F := stack_settled).
    assert (V : forall op ss gen, (forall ty id, In (ty, id) (inputs (Src ss)) -> given st df ty id (v ty id)) -> settled gen st (value_term df op ss) /\ plain (fill st (value_term df op ss))).
    { intros op [c|ty id m] gen H; [split; [reflexivity|split; reflexivity]|]. specialize (H ty id (or_introl eq_refl)). split.
      - unfold settled. destruct H as [H|[D [N T]]].
        + destruct (has_found gen st (value_term df op (Input ty id m)) _ H) as [w' [A [_ B]]]. now rewrite A.
        + destruct (not_found gen st (value_term df op (Input ty id m))) as [A B]; [exact N| | |now rewrite A].
          * cbn [value_term t_type]. intros X. apply T. cbn in X |- *. tauto.
          * cbn [value_term t_type]. intros ->. apply T. cbn. tauto.
      - destruct (fill_given op ty id m H) as [w [_ [R _]]]. destruct (reads_type _ _ R) as [_ [_ [_ G]]]. split; [apply R|exact G]. }
    intros e. induction e as [ss|o a IHa b IHb m|o a IHa ss|o a IHa m|a IHa m|o a IHa ss|a IHa ss|a IHa ss|a IHa m]; intros H gen t Ht;
      cbn [encode] in Ht; rewrite ?in_app_iff in Ht; cbn [In] in Ht;
      [destruct Ht as [<-|[]]; now apply V
      |destruct Ht as [Ht|[Ht|[<-|[]]]]; [apply IHa|apply IHb|apply F]; auto; intros; apply H; cbn; apply in_app_iff; auto|..];
      (destruct Ht as [Ht|[<-|[]]]; [apply IHa; auto; intros; apply H; cbn; rewrite ?in_app_iff; auto|
        first [apply F|apply V; intros; apply H; cbn; apply in_app_iff; auto]]).
  Qed.
End Expressions.

Lemma plain_eval : forall root d st c eqn, dget c (s_rhs st) = Some eqn ->
  (forall t, In t eqn -> settled (compute_generic root d) st t /\ plain (fill st t)) ->
  snd (compute_rhs root d st c) = top (rbind (run_terms root (map (fill st) eqn) false [0]) (fun q => Done (snd q))).
Proof.
  intros root d st c eqn D H. rewrite (settled_eval root d st c eqn D) by (intros; now apply H). unfold rpn_calc. cbn [snd]. apply plain_stack.
  rewrite Forall_forall. intros t Ht. apply in_map_iff in Ht. destruct Ht as [t0 [<- Ht]]. now apply H.
Qed.

Lemma expression_value : forall root df d st c e v, (forall a b, a == b -> root a == root b) -> dget c (s_rhs st) = Some (encode df e) ->
  readable st df v e ->
  match meaning root v e with
  | Some q => exists q', snd (compute_rhs root d st c) = Done q' /\ q' == q
  | None => snd (compute_rhs root d st c) = Fail RZero
  end.
Proof.
  intros root df d st c e v R D H.
  assert (E : snd (compute_rhs root d st c) = top (rbind (run_terms root (map (fill st) (encode df e)) false [0]) (fun q => Done (snd q)))).
  { apply plain_eval; [exact D|]. intros t Ht. now apply (encode_terms st df v e (proj1 H)). }
  rewrite E. pose proof (express root st df v R e H false [0]) as X. destruct (meaning root v e) as [q|]; [|now rewrite X].
  destruct X as [q' [-> Eq]]. exists q'. split; [reflexivity|exact Eq].
Qed.

(** A choice between two expressions. *)
Lemma choice_value : forall root df d st c x a b m v qx qa qb, (forall a b, a == b -> root a == root b) ->
  dget c (s_rhs st) = Some (encode df b ++ encode df a ++ encode df x ++ [stack_term (Some "POP") 1; stack_term (Some "EXLEZ") m]) ->
  readable st df v x -> readable st df v a -> readable st df v b ->
  meaning root v x = Some qx -> meaning root v a = Some qa -> meaning root v b = Some qb ->
  exists q, snd (compute_rhs root d st c) = Done q /\ (0 < qx -> q == qa) /\ (qx <= 0 -> q == m * qb).
Proof.
  intros root df d st c x a b m v qx qa qb R D Hx Ha Hb Mx Ma Mb.
  rewrite (plain_eval root d st c _ D).
  2: { intros t Ht. rewrite !in_app_iff in Ht. destruct Ht as [Ht|[Ht|[Ht|[<-|[<-|[]]]]]].
       - now apply (encode_terms st df v b (proj1 Hb)).
       - now apply (encode_terms st df v a (proj1 Ha)).
       - now apply (encode_terms st df v x (proj1 Hx)).
       - apply stack_settled.
       - apply stack_settled. }
  rewrite !map_app, run_app. pose proof (express root st df v R b Hb false [0]) as Xb. rewrite Mb in Xb. destruct Xb as [b' [-> Eb]]. cbn [rbind fst snd].
  rewrite run_app. pose proof (express root st df v R a Ha false (b' :: [0])) as Xa. rewrite Ma in Xa. destruct Xa as [a' [-> Ea]]. cbn [rbind fst snd].
  rewrite run_app. pose proof (express root st df v R x Hx false (a' :: b' :: [0])) as Xx. rewrite Mx in Xx. destruct Xx as [x' [-> Ex]]. cbn [rbind fst snd map].
  rewrite !fill_fixed. cbn [run_terms]. change (apply_term root false (x' :: a' :: b' :: [0]) (stack_term (Some "POP") 1)) with (@Done (bool * list Q) (Qle_bool x' 0, a' :: b' :: [0])).
  cbn [rbind fst snd]. destruct (Qle_bool x' 0) eqn:L.
  - apply Qle_bool_iff in L. exists (b' * m). split; [reflexivity|]. split; intros; [lra|]. rewrite Eb. ring.
  - assert (~ x' <= 0) by (intros C; apply Qle_bool_iff in C; congruence). exists a'. split; [reflexivity|]. split; intros; [exact Ea|lra].
Qed.

(** The choice by the sign of an input, whose multiplier does not matter. *)
Lemma input_settled : forall st df op ty id m q gen, has_value st ty id q ->
  settled gen st (value_term df op (Input ty id m)) /\ plain (fill st (value_term df op (Input ty id m))).
Proof.
  intros st df op ty id m q gen H. split.
  - unfold settled. destruct (has_found gen st (value_term df op (Input ty id m)) _ H) as [w [A [_ B]]]. now rewrite A.
  - destruct (fill_has st df (fun _ _ => q) op ty id m H) as [w [_ [R _]]]. destruct (reads_type _ _ R) as [_ [_ [_ G]]]. split; [apply R|exact G].
Qed.
Lemma choice_input : forall root df d st c ty id n a b m v qa qb, (forall a b, a == b -> root a == root b) ->
  dget c (s_rhs st) = Some (encode df b ++ encode df a ++ [value_term df (Some "POP") (Input ty id n); stack_term (Some "EXLEZ") m]) ->
  has_value st ty id (v ty id) -> readable st df v a -> readable st df v b ->
  meaning root v a = Some qa -> meaning root v b = Some qb ->
  exists q, snd (compute_rhs root d st c) = Done q /\ (0 < v ty id -> q == qa) /\ (v ty id <= 0 -> q == m * qb).
Proof.
  intros root df d st c ty id n a b m v qa qb R D Hx Ha Hb Ma Mb.
  rewrite (plain_eval root d st c _ D).
  2: { intros t Ht. rewrite !in_app_iff in Ht. destruct Ht as [Ht|[Ht|[<-|[<-|[]]]]].
       - now apply (encode_terms st df v b (proj1 Hb)).
       - now apply (encode_terms st df v a (proj1 Ha)).
       - now apply input_settled with (v ty id).
       - apply stack_settled. }
  rewrite !map_app, run_app. pose proof (express root st df v R b Hb false [0]) as Xb. rewrite Mb in Xb. destruct Xb as [b' [-> Eb]]. cbn [rbind fst snd].
  rewrite run_app. pose proof (express root st df v R a Ha false (b' :: [0])) as Xa. rewrite Ma in Xa. destruct Xa as [a' [-> Ea]]. cbn [rbind fst snd map].
  destruct (fill_has st df v (Some "POP") ty id n Hx) as [x' [[O _] [Rd [V Ex]]]]. destruct (reads_type _ _ Rd) as [U [B _]].
  rewrite fill_fixed. cbn [run_terms].
  assert (P : apply_term root false (a' :: b' :: [0]) (fill st (value_term df (Some "POP") (Input ty id n))) = Done (Qle_bool x' 0, a' :: b' :: [0])).
  { unfold apply_term. rewrite O, U, B. cbn [String.eqb Ascii.eqb Bool.eqb andb]. unfold op_pop. rewrite U, V. reflexivity. }
  rewrite P. cbn [rbind fst snd]. destruct (Qle_bool x' 0) eqn:L.
  - apply Qle_bool_iff in L. exists (b' * m). split; [reflexivity|]. split; intros; [lra|]. rewrite Eb. ring.
  - assert (~ x' <= 0) by (intros C; apply Qle_bool_iff in C; congruence). exists a'. split; [reflexivity|]. split; intros; [exact Ea|lra].
Qed.

(** Moves on the stack. *)
Lemma moves_run : forall root st os s s', moves os s s' -> forall p t, Forall2 Qeq t s ->
  exists t', run_terms root (map (fill st) (map move_term os)) p t = Done (p, t') /\ Forall2 Qeq t' s'.
Proof.
  intros root st os s s' M. induction M as [s|m os a r s M IH|m os a b r s M IH|m os a r z s M IH|m os a b r s M IH]; intros p t H.
  - exists t. split; [reflexivity|exact H].
  - inversion H as [|a' ? r' ? Ea Er]; subst. cbn [map move_term]. rewrite fill_fixed. apply (IH p (a' * m :: a' :: r')). repeat constructor; auto. now rewrite Ea.
  - inversion H as [|a' ? x ? Ea Ex]; subst. inversion Ex as [|b' ? r' ? Eb Er]; subst. cbn [map move_term]. rewrite fill_fixed.
    apply (IH p (b' * m :: a' :: r')). repeat constructor; auto. now rewrite Eb.
  - inversion H as [|a' ? x ? Ea Ex]; subst. apply Forall2_app_inv_r in Ex. destruct Ex as [r' [y [Er [Ey ->]]]]. inversion Ey as [|z' ? n ? Ez En]; subst. inversion En; subst.
    cbn [map move_term]. rewrite fill_fixed. destruct (IH p (z' * m :: a' :: r')) as [t' [E F]]; [repeat constructor; auto; now rewrite Ez|].
    exists t'. split; [|exact F]. cbn [run_terms]. rewrite <- E.
    assert (S : apply_term root p (a' :: r' ++ [z']) (stack_term (Some "RSD") m) = Done (p, z' * m :: a' :: r')).
    { change (a' :: r' ++ [z']) with ((a' :: r') ++ [z']). unfold apply_term. cbn [stack_term t_op t_value type_is t_type String.eqb Ascii.eqb Bool.eqb andb].
      unfold op_rsd. destruct r' as [|y' r']; [reflexivity|]. cbn [app keep_flag rbind stack_term t_mult].
      change (a' :: y' :: r' ++ [z']) with ((a' :: y' :: r') ++ [z']). rewrite last_last, removelast_last. reflexivity. }
    rewrite S. reflexivity.
  - inversion H as [|a' ? x ? Ea Ex]; subst. inversion Ex as [|b' ? r' ? Eb Er]; subst. cbn [map move_term]. rewrite fill_fixed.
    apply (IH p (b' * m :: r' ++ [a'])). constructor; [now rewrite Eb|]. apply Forall2_app; auto.
Qed.

Lemma stacked_run : forall root st df v, (forall a b, a == b -> root a == root b) -> forall es s, stacked root v es s -> (forall e, In e es -> readable st df v e) ->
  forall p, exists t, run_terms root (map (fill st) (flat_map (encode df) es)) p [0] = Done (p, t) /\ Forall2 Qeq t (s ++ [0]).
Proof.
  intros root st df v R es s S. induction S as [|es e s q S IH M]; intros H p.
  - exists [0]. split; [reflexivity|]. repeat constructor.
  - destruct (IH (fun e' He => H e' (proj2 (in_app_iff _ _ _) (or_introl He))) p) as [t [E F]]. rewrite flat_map_app, map_app, run_app, E. cbn [rbind fst snd flat_map].
    assert (He : readable st df v e) by (apply H; apply in_app_iff; right; now left).
    rewrite app_nil_r. pose proof (express root st df v R e He p t) as X. rewrite M in X.
    destruct X as [q' [-> Eq]]. exists (q' :: t). split; [reflexivity|]. now constructor.
Qed.

Lemma moves_value : forall root df d st c es os v s a r, (forall a b, a == b -> root a == root b) ->
  dget c (s_rhs st) = Some (flat_map (encode df) es ++ map move_term os) ->
  (forall e, In e es -> readable st df v e) -> stacked root v es s -> moves os (s ++ [0]) (a :: r) ->
  exists q, snd (compute_rhs root d st c) = Done q /\ q == a.
Proof.
  intros root df d st c es os v s a r R D H S M. rewrite (plain_eval root d st c _ D).
  2: { intros t Ht. apply in_app_iff in Ht. destruct Ht as [Ht|Ht].
       - apply in_flat_map in Ht. destruct Ht as [e [He Ht]]. now apply (encode_terms st df v e (proj1 (H e He))).
       - apply in_map_iff in Ht. destruct Ht as [o [<- _]]. destruct o; apply stack_settled. }
  destruct (stacked_run root st df v R es s S H false) as [t [E F]]. rewrite map_app, run_app, E. cbn [rbind fst snd].
  destruct (moves_run root st os _ _ M false t F) as [t' [-> F']]. inversion F' as [|q ? x ? Ea Ex]; subst. exists q. split; [reflexivity|exact Ea].
Qed.

