(** Lemmas about updating an input of the right hand side calculator. *)

From Coq Require Import QArith Qabs Lqa String List Bool Arith Lia.
Import ListNotations.
From Verif Require Import PandasModel RhsModel SpecRhs PandasFacts RhsFacts.
Open Scope string_scope.
Open Scope list_scope.

(** ** Stores that differ in one input *)

Definition same_scada (spd ty : string) (a b : dict (dict (list Q))) : Prop :=
  (forall k, k <> ty -> dget k a = dget k b)
  /\ match dget ty a, dget ty b with
     | Some d, Some d' => forall id, id <> spd -> dget id d = dget id d'
     | None, None => True
     | _, _ => False
     end.
Definition same_input (but : Prop) (spd : string) (a b : dict Q) : Prop :=
  (forall id, id <> spd \/ ~ but -> dget id a = dget id b) /\ (forall id, dhas id a = dhas id b).

Record apart (spd ty : string) (st st' : store) : Prop := {
  ap_scada : same_scada spd ty (s_scada st) (s_scada st');
  ap_mw : same_input (ty = "T") spd (s_mw st) (s_mw st');
  ap_entered : same_input (ty = "E") spd (s_entered st) (s_entered st');
  ap_from : same_input (ty = "M") spd (s_from st) (s_from st');
  ap_to : same_input (ty = "N") spd (s_to st) (s_to st');
  ap_generic : same_eqs (is_free st) (s_generic st) (s_generic st');
  ap_rhs : same_eqs (is_free st) (s_rhs st) (s_rhs st') }.

Lemma apart_free : forall spd ty st st', apart spd ty st st' -> forall t, is_free st t = is_free st' t.
Proof.
  intros spd ty st st' [_ [_ A] [_ B] [_ C] [_ D] G _] t. unfold is_free, resolves. now rewrite A, B, C, D, (eqs_has _ _ _ (t_id t) G).
Qed.
Lemma apart_agree : forall spd ty st st' st1 st1', apart spd ty st st' -> agree st st1 -> agree st' st1' -> apart spd ty st1 st1'.
Proof.
  intros spd ty st st' st1 st1' P A A'. assert (F := agree_free _ _ A). assert (FP := apart_free _ _ _ _ P).
  assert (E : forall d d1 d' d1', same_eqs (is_free st) d d' -> same_eqs (is_free st) d d1 -> same_eqs (is_free st') d' d1' -> same_eqs (is_free st1) d1 d1').
  { intros d d1 d' d1' H1 H2 H3. apply (eqs_free _ _ F). eapply eqs_trans; [apply eqs_sym; exact H2|]. eapply eqs_trans; [exact H1|].
    apply (eqs_free (is_free st') (is_free st)); auto. }
  destruct A as [A1 A2 A3 A4 A5 A6 A7], A' as [B1 B2 B3 B4 B5 B6 B7], P as [P1 P2 P3 P4 P5 P6 P7].
  constructor; [| | | | |exact (E _ _ _ _ P6 A6 B6)|exact (E _ _ _ _ P7 A7 B7)]; idtac; [rewrite <- ?A1, <- ?B1|rewrite <- ?A2, <- ?B2|rewrite <- ?A3, <- ?B3|rewrite <- ?A4, <- ?B4|rewrite <- ?A5, <- ?B5]; assumption.
Qed.

Lemma same_input_refl : forall b spd d, same_input b spd d d.
Proof. intros. split; auto. Qed.
Lemma same_input_set : forall (b : Prop) spd v d, b -> dhas spd d = true -> same_input b spd d (dset spd v d).
Proof.
  intros b spd v d B H. split.
  - intros id [N|N]; [|contradiction]. now rewrite dget_dset_other.
  - intros id. unfold dhas in *. destruct (string_dec id spd) as [->|N]; [rewrite dget_dset_same; now destruct (dget spd d)|now rewrite dget_dset_other].
Qed.
Lemma same_scada_refl : forall spd ty d, same_scada spd ty d d.
Proof. intros spd ty d. split; auto. destruct (dget ty d); auto. Qed.

Lemma update_apart : forall st spd ty v st', update st spd ty v = Done st' -> apart spd ty st st'.
Proof.
  intros st spd ty v st'. unfold update. destruct (mem_str ty ["C"; "R"; "X"]); [discriminate|].
  destruct (mem_str ty ["A"; "S"; "I"; "W"]).
  { unfold rbind. destruct (dget ty (s_scada st)) as [d|] eqn:D; [|discriminate]. cbn [need_key]. destruct (dget spd d) as [[|a [|b l]]|]; try discriminate.
    cbn [need_key]. intros H; injection H as <-. constructor; cbn; auto using same_input_refl, eqs_refl. split.
    - intros k N. now rewrite dget_dset_other.
    - rewrite D, dget_dset_same. intros id N. now rewrite dget_dset_other. }
  destruct (dhas spd (s_mw st) && String.eqb ty "T") eqn:E1.
  { apply andb_true_iff in E1. destruct E1 as [E1 E]. apply String.eqb_eq in E. intros H; injection H as <-.
    constructor; cbn; auto using same_input_refl, eqs_refl, same_scada_refl, same_input_set. }
  destruct (dhas spd (s_entered st) && String.eqb ty "E") eqn:E2.
  { apply andb_true_iff in E2. destruct E2 as [E2 E]. apply String.eqb_eq in E. intros H; injection H as <-.
    constructor; cbn; auto using same_input_refl, eqs_refl, same_scada_refl, same_input_set. }
  destruct (dhas spd (s_from st) && String.eqb ty "M") eqn:E3.
  { apply andb_true_iff in E3. destruct E3 as [E3 E]. apply String.eqb_eq in E. intros H; injection H as <-.
    constructor; cbn; auto using same_input_refl, eqs_refl, same_scada_refl, same_input_set. }
  destruct (dhas spd (s_to st) && String.eqb ty "N") eqn:E4; [|discriminate].
  apply andb_true_iff in E4. destruct E4 as [E4 E]. apply String.eqb_eq in E. intros H; injection H as <-.
  constructor; cbn; auto using same_input_refl, eqs_refl, same_scada_refl, same_input_set.
Qed.

(** ** What leads to an input *)

Lemma sames_in : forall f a b t, Forall2 (same_term f) a b -> In t a -> exists t', In t' b /\ set_value t None = set_value t' None.
Proof.
  intros f a b t H. induction H as [|x y l l' [E _] H IH]; [intros []|]. intros [<-|Ht]; [exists y; split; [now left|exact E]|].
  destruct (IH Ht) as [t' [A B]]. exists t'. split; [now right|exact B].
Qed.
Lemma leads_same : forall st st' f spd ty eqn, same_eqs f (s_generic st) (s_generic st') -> leads_to st spd ty eqn ->
  forall eqn' g, Forall2 (same_term g) eqn eqn' -> leads_to st' spd ty eqn'.
Proof.
  intros st st' f spd ty eqn G H. induction H as [eqn t I A B|eqn t e I T D H IH]; intros eqn' g S;
    destruct (sames_in _ _ _ _ S I) as [t' [I' E]]; unfold set_value in E; injection E as E1 E2 _ _ _ _.
  - apply leads_here with t'; congruence.
  - pose proof (eqs_get _ _ _ (t_id t) G) as K. rewrite D in K. destruct (dget (t_id t) (s_generic st')) as [e'|] eqn:D'; [|destruct K].
    apply leads_via with t' e'; try congruence. apply (IH _ f K).
Qed.
Lemma leads_cons : forall st spd ty t r, ~ leads_to st spd ty (t :: r) -> ~ leads_to st spd ty r /\ ~ (t_id t = spd /\ t_type t = ty)
  /\ (t_type t = "X" -> forall e, dget (t_id t) (s_generic st) = Some e -> ~ leads_to st spd ty e).
Proof.
  intros st spd ty t r N. split; [|split].
  - intros H. apply N. inversion H as [? t0 I A B|? t0 e I T D L]; subst.
    + apply leads_here with t0; auto. now right.
    + apply leads_via with t0 e; auto. now right.
  - intros [A B]. apply N. apply leads_here with t; auto. now left.
  - intros T e D L. apply N. apply leads_via with t e; auto. now left.
Qed.

(** ** Evaluation *)

Definition steady_but (spd ty : string) (gen : store -> string -> store * res Q) : Prop :=
  forall st st' id, apart spd ty st st' -> (forall e, dget id (s_generic st) = Some e -> ~ leads_to st spd ty e) ->
  snd (gen st id) = snd (gen st' id).

Lemma resolve_value_apart : forall gen spd ty st st' t t', steady_but spd ty gen -> apart spd ty st st' ->
  set_value t None = set_value t' None -> ~ (t_id t = spd /\ t_type t = ty) ->
  (t_type t = "X" -> forall e, dget (t_id t) (s_generic st) = Some e -> ~ leads_to st spd ty e) ->
  snd (resolve_value gen st t) = snd (resolve_value gen st' t').
Proof.
  intros gen spd ty st st' t t' S A E N L. unfold set_value in E. injection E as E1 E2 _ _ _ _.
  destruct A as [[A1 A1'] [A2 A2'] [A3 A3'] [A4 A4'] [A5 A5'] A6 A7] eqn:EA. clear EA.
  unfold resolve_value, type_is. rewrite <- E1, <- E2, <- A2', <- A3', <- A4', <- A5', <- (eqs_has _ _ _ (t_id t) A6).
  destruct (String.eqb (t_type t) "C"); [reflexivity|].
  destruct (mem_str (t_type t) scada_types).
  { cbn [snd]. destruct (string_dec (t_type t) ty) as [T|T].
    - rewrite T in *. destruct (dget ty (s_scada st)) as [d|], (dget ty (s_scada st')) as [d'|]; try destruct A1'; [|reflexivity].
      cbn [need_key rbind]. rewrite (A1' (t_id t)); [reflexivity|]. intros C. apply N. auto.
    - now rewrite (A1 _ T). }
  assert (K : forall s, String.eqb (t_type t) s = true -> t_id t <> spd \/ ty <> s).
  { intros s Hs. apply String.eqb_eq in Hs. destruct (string_dec ty s) as [T|T]; [|auto]. left. intros C. apply N. split; congruence. }
  destruct (dhas (t_id t) (s_mw st) && String.eqb (t_type t) "T") eqn:C1.
  { apply andb_true_iff in C1. destruct C1 as [_ C1]. cbn [snd]. now rewrite (A2 _ (K _ C1)). }
  destruct (dhas (t_id t) (s_entered st) && String.eqb (t_type t) "E") eqn:C2.
  { apply andb_true_iff in C2. destruct C2 as [_ C2]. cbn [snd]. now rewrite (A3 _ (K _ C2)). }
  destruct (dhas (t_id t) (s_generic st) && String.eqb (t_type t) "X") eqn:C3.
  { apply andb_true_iff in C3. destruct C3 as [_ C3]. apply String.eqb_eq in C3. cbn [snd].
    rewrite (S st st' (t_id t)); [reflexivity| |now apply L].
    constructor; [split|split|split|split|split| |]; auto. }
  destruct (dhas (t_id t) (s_from st) && String.eqb (t_type t) "M") eqn:C4.
  { apply andb_true_iff in C4. destruct C4 as [_ C4]. cbn [snd]. now rewrite (A4 _ (K _ C4)). }
  destruct (dhas (t_id t) (s_to st) && String.eqb (t_type t) "N") eqn:C5; [|reflexivity].
  apply andb_true_iff in C5. destruct C5 as [_ C5]. cbn [snd]. now rewrite (A5 _ (K _ C5)).
Qed.

Lemma resolve_terms_apart : forall gen spd ty eqn eqn' st st' st1 e1 x st1' e1' x', steady gen -> steady_but spd ty gen -> apart spd ty st st' ->
  Forall2 (same_term (is_free st)) eqn eqn' -> ~ leads_to st spd ty eqn ->
  resolve_terms gen st eqn = (st1, e1, x) -> resolve_terms gen st' eqn' = (st1', e1', x') ->
  x = x' /\ (x = None -> clear_groups e1 = clear_groups e1').
Proof.
  intros gen spd ty eqn. induction eqn as [|t r IH]; intros eqn' st st' st1 e1 x st1' e1' x' S SB A H NL; inversion H as [|? t' ? r' [E V] H']; subst.
  - cbn. intros X Y; injection X as <- <- <-; injection Y as <- <- <-. split; reflexivity.
  - cbn [resolve_terms]. destruct (leads_cons _ _ _ _ _ NL) as [NL1 [NL2 NL3]].
    pose proof (resolve_value_apart gen spd ty st st' t t' SB A E NL2 NL3) as R1.
    destruct (resolve_value_agree gen st st t t S (agree_refl st) eq_refl) as [_ [R2 R3]].
    destruct (resolve_value_agree gen st' st' t' t' S (agree_refl st') eq_refl) as [_ [R2' _]].
    destruct (resolve_value gen st t) as [st2 [v|e]], (resolve_value gen st' t') as [st2' [v'|e']]; cbn [fst snd] in *; try discriminate.
    + injection R1 as <-.
      assert (A2 : apart spd ty st2 st2') by (now apply apart_agree with st st').
      assert (H2 : Forall2 (same_term (is_free st2)) r r') by (eapply sames_free; [apply (agree_free st st2 R2)|exact H']).
      assert (N2 : ~ leads_to st2 spd ty r).
      { intros C. apply NL1. apply (leads_same st2 st (is_free st2) spd ty r) with (g := is_free st); auto; [|apply sames_refl].
        apply ag_generic. now apply agree_sym. }
      destruct (resolve_terms gen st2 r) as [[st3 e3] y] eqn:Q, (resolve_terms gen st2' r') as [[st3' e3'] y'] eqn:Q'.
      destruct (IH _ _ _ _ _ _ _ _ _ S SB A2 H2 N2 Q Q') as [I1 I4].
      intros X Y; injection X as <- <- <-; injection Y as <- <- <-. split; [exact I1|].
      intros N. cbn [clear_groups map]. specialize (I4 N). unfold clear_groups in I4. rewrite I4. f_equal.
      specialize (R3 v eq_refl).
      assert (T : type_is "G" t = type_is "G" t') by (unfold type_is; injection E as -> _ _ _ _ _; reflexivity).
      destruct v as [q|].
      * assert (Eq : forall w, set_value t w = set_value t' w) by (intros w; unfold set_value in *; injection E as -> -> -> -> -> ->; reflexivity).
        replace (type_is "G" (set_value t (Some q))) with (type_is "G" t) by reflexivity.
        replace (type_is "G" (set_value t' (Some q))) with (type_is "G" t') by reflexivity.
        rewrite <- T. destruct (type_is "G" t); [exact (Eq None)|exact (Eq (Some q))].
      * rewrite <- T. destruct (type_is "G" t) eqn:G; [exact E|]. destruct V as [V|V].
        -- destruct t, t'; cbn in *. injection E as -> -> -> -> -> ->. now subst.
        -- unfold is_free in V. rewrite G, R3 in V. discriminate.
    + injection R1 as <-. intros X Y; injection X as <- <- <-; injection Y as <- <- <-. split; [reflexivity|discriminate].
Qed.

Lemma eval_apart : forall root gen spd ty eqn eqn' st st', steady gen -> steady_but spd ty gen -> apart spd ty st st' ->
  Forall2 (same_term (is_free st)) eqn eqn' -> ~ leads_to st spd ty eqn ->
  snd (eval_equation root gen st eqn) = snd (eval_equation root gen st' eqn').
Proof.
  intros root gen spd ty eqn eqn' st st' S SB A H N. unfold eval_equation.
  destruct (resolve_terms gen st eqn) as [[s2 e2] x] eqn:Q, (resolve_terms gen st' eqn') as [[s2' e2'] x'] eqn:Q'.
  destruct (resolve_terms_apart _ _ _ _ _ _ _ _ _ _ _ _ _ S SB A H N Q Q') as [<- I].
  destruct x as [e|]; [reflexivity|]. cbn [snd]. apply rpn_calc_clear. now apply I.
Qed.

Lemma generic_but : forall root spd ty d, steady_but spd ty (compute_generic root d).
Proof.
  intros root spd ty d. induction d as [|d IH]; intros st st' id A N; [reflexivity|]. cbn [compute_generic].
  pose proof (eqs_get _ _ _ id (ap_generic _ _ _ _ A)) as G.
  destruct (dget id (s_generic st)) as [e|] eqn:D, (dget id (s_generic st')) as [e'|] eqn:D'.
  - pose proof (eval_apart root (compute_generic root d) spd ty e e' st st' (generic_steady root d) IH A G (N e eq_refl)) as K.
    destruct (eval_equation root (compute_generic root d) st e) as [[s1 e1] r] eqn:Q1, (eval_equation root (compute_generic root d) st' e') as [[s1' e1'] r'] eqn:Q2.
    exact K.
  - destruct G.
  - destruct G.
  - reflexivity.
Qed.

Lemma compute_apart : forall root d spd ty st st' id, apart spd ty st st' ->
  (forall e, dget id (s_rhs st) = Some e -> ~ leads_to st spd ty e) ->
  snd (compute_rhs root d st id) = snd (compute_rhs root d st' id).
Proof.
  intros root d spd ty st st' id A N. unfold compute_rhs. pose proof (eqs_get _ _ _ id (ap_rhs _ _ _ _ A)) as G.
  destruct (dget id (s_rhs st)) as [e|] eqn:D, (dget id (s_rhs st')) as [e'|] eqn:D'.
  - pose proof (eval_apart root (compute_generic root d) spd ty e e' st st' (generic_steady root d) (generic_but root spd ty d) A G (N e eq_refl)) as K.
    destruct (eval_equation root (compute_generic root d) st e) as [[s1 e1] r] eqn:Q1, (eval_equation root (compute_generic root d) st' e') as [[s1' e1'] r'] eqn:Q2.
    exact K.
  - destruct G.
  - destruct G.
  - reflexivity.
Qed.

Lemma unrelated : forall root d st spd ty v st' id, update st spd ty v = Done st' ->
  (forall e, dget id (s_rhs st) = Some e -> ~ leads_to st spd ty e) ->
  snd (compute_rhs root d st' id) = snd (compute_rhs root d st id).
Proof. intros root d st spd ty v st' id U N. symmetry. apply (compute_apart root d spd ty); [|exact N]. now apply update_apart with v. Qed.

(** ** The list of dependants *)

Lemma generic_in : forall st spd ty x, In x (dependent_generic st spd ty) <->
  exists e t, In (x, e) (s_generic st) /\ In t e /\ t_id t = spd /\ t_type t = ty.
Proof.
  intros st spd ty x. unfold dependent_generic.
  assert (G : forall d ids, In x (fold_left (fun ids (p : string * list term) =>
      fold_left (fun ids t => if refers spd ty t && negb (mem_str (fst p) ids) then ids ++ [fst p] else ids) (snd p) ids) d ids)
    <-> In x ids \/ exists e t, In (x, e) d /\ In t e /\ t_id t = spd /\ t_type t = ty).
  { intros d. induction d as [|[k e] d IH]; intros ids; cbn [fold_left].
    - split; [auto|]. intros [A|[e [t [[] _]]]]. exact A.
    - rewrite IH. cbn [fst snd].
      assert (I : In x (fold_left (fun ids t => if refers spd ty t && negb (mem_str k ids) then ids ++ [k] else ids) e ids)
        <-> In x ids \/ (x = k /\ exists t, In t e /\ refers spd ty t = true)).
      { clear IH. revert ids. induction e as [|t r IH]; intros ids; cbn [fold_left]; [split; [auto|]; intros [A|[_ [t [[] _]]]]; exact A|].
        rewrite IH. destruct (refers spd ty t) eqn:R; cbn [andb].
        - destruct (mem_str k ids) eqn:M; cbn [negb].
          + assert (K : In k ids) by (unfold mem_str in M; apply existsb_exists in M; destruct M as [y [Hy E]]; apply String.eqb_eq in E; now subst).
            split; [intros [A|[-> _]]; auto|]. intros [A|[-> _]]; auto.
          + rewrite in_app_iff. cbn. split; [intros [[A|[<-|[]]]|[-> [t' [B C]]]]; [auto|right; split; [reflexivity|exists t; auto]|right; split; [reflexivity|exists t'; split; [right; exact B|exact C]]]|].
            intros [A|[-> _]]; auto.
        - split; [intros [A|[-> [t' [B C]]]]; [auto|right; split; [reflexivity|exists t'; split; [right; exact B|exact C]]]|].
          intros [A|[XK [t2 [ZB C]]]]; [left; exact A|subst x; destruct ZB as [Z|B]]; [congruence|right; split; [reflexivity|exists t2; split; assumption]]. }
      rewrite I. unfold refers. split.
      + intros [[A|[-> [t [B C]]]]|[e' [t [A B]]]].
        * auto.
        * apply andb_true_iff in C. rewrite !String.eqb_eq in C. right. exists e, t. split; [now left|]. tauto.
        * right. exists e', t. split; [now right|exact B].
      + intros [A|[e' [t [[A|A] [B [C D]]]]]]; [auto| |].
        * injection A as -> ->. left. right. split; [reflexivity|]. exists t. rewrite andb_true_iff, !String.eqb_eq. auto.
        * right. exists e', t. auto. }
  rewrite G. cbn [In]. tauto.
Qed.

Lemma dependents_in : forall st spd ty x, In x (dependents st spd ty) <->
  exists e t, In (x, e) (s_rhs st) /\ In t e
    /\ ((t_id t = spd /\ t_type t = ty) \/ (t_type t = "X" /\ In (t_id t) (dependent_generic st spd ty))).
Proof.
  intros st spd ty x. unfold dependents. set (gen := dependent_generic st spd ty).
  assert (M : forall y l, mem_str y l = true <-> In y l).
  { intros y l. unfold mem_str. rewrite existsb_exists. split; [intros [z [H E]]; apply String.eqb_eq in E; now subst|].
    intros H. exists y. split; [exact H|apply String.eqb_refl]. }
  assert (G : forall d ids, In x (fold_left (fun ids (p : string * list term) =>
      fold_left (fun ids t => if (refers spd ty t && negb (mem_str (fst p) ids)) || (mem_str (t_id t) gen && type_is "X" t) then ids ++ [fst p] else ids) (snd p) ids) d ids)
    <-> In x ids \/ exists e t, In (x, e) d /\ In t e /\ ((t_id t = spd /\ t_type t = ty) \/ (t_type t = "X" /\ In (t_id t) gen))).
  { intros d. induction d as [|[k e] d IH]; intros ids; cbn [fold_left].
    - split; [auto|]. intros [A|[e [t [[] _]]]]. exact A.
    - rewrite IH. cbn [fst snd].
      assert (I : In x (fold_left (fun ids t => if (refers spd ty t && negb (mem_str k ids)) || (mem_str (t_id t) gen && type_is "X" t) then ids ++ [k] else ids) e ids)
        <-> In x ids \/ (x = k /\ exists t, In t e /\ (refers spd ty t || (mem_str (t_id t) gen && type_is "X" t) = true))).
      { clear IH. revert ids. induction e as [|t r IH]; intros ids; cbn [fold_left]; [split; [auto|]; intros [A|[_ [t [[] _]]]]; exact A|].
        rewrite IH. destruct (mem_str (t_id t) gen && type_is "X" t) eqn:R.
        - rewrite orb_true_r, in_app_iff. cbn.
          split; [intros [[A|[<-|[]]]|[-> [t' [B C]]]]; [auto|right; split; [reflexivity|exists t; rewrite R, orb_true_r; auto]|right; split; [reflexivity|exists t'; split; [right; exact B|exact C]]]|].
          intros [A|[-> _]]; auto.
        - rewrite orb_false_r. destruct (refers spd ty t) eqn:R2; cbn [andb].
          + destruct (mem_str k ids) eqn:Mk; cbn [negb].
            * apply M in Mk. split; [intros [A|[-> _]]; auto|]. intros [A|[-> _]]; auto.
            * rewrite in_app_iff. cbn. split; [intros [[A|[<-|[]]]|[-> [t' [B C]]]]; [auto|right; split; [reflexivity|exists t; rewrite R2; auto]|right; split; [reflexivity|exists t'; split; [right; exact B|exact C]]]|].
              intros [A|[-> _]]; auto.
          + split; [intros [A|[-> [t' [B C]]]]; [auto|right; split; [reflexivity|exists t'; split; [right; exact B|exact C]]]|].
            intros [A|[XK [t2 [ZB C]]]]; [left; exact A|subst x; destruct ZB as [Z|B]]; [rewrite <- Z, R, R2 in C; discriminate|right; split; [reflexivity|exists t2; split; assumption]]. }
      rewrite I. unfold refers, type_is. split.
      + intros [[A|[-> [t [B C]]]]|[e' [t [A B]]]].
        * auto.
        * rewrite orb_true_iff, !andb_true_iff, !String.eqb_eq, M in C. right. exists e, t. split; [now left|]. tauto.
        * right. exists e', t. split; [now right|exact B].
      + intros [A|[e' [t [[A|A] [B C]]]]]; [auto| |].
        * injection A as -> ->. left. right. split; [reflexivity|]. exists t. rewrite orb_true_iff, !andb_true_iff, !String.eqb_eq, M. tauto.
        * right. exists e', t. auto. }
  rewrite G. cbn [In]. tauto.
Qed.

Lemma dependents_lead : forall st spd ty x, NoDup (dkeys (s_generic st)) -> NoDup (dkeys (s_rhs st)) -> In x (dependents st spd ty) ->
  exists e, dget x (s_rhs st) = Some e /\ leads_to st spd ty e.
Proof.
  intros st spd ty x N1 N2 H. apply dependents_in in H. destruct H as [e [t [He [Ht C]]]]. exists e. split; [now apply in_dget|].
  destruct C as [[A B]|[A B]]; [now apply leads_here with t|]. apply generic_in in B. destruct B as [e' [t' [He' [Ht' [C D]]]]].
  apply leads_via with t e'; auto. - now apply in_dget. - now apply leads_here with t'.
Qed.
Lemma leads_dependents : forall st spd ty x e, flat st -> dget x (s_rhs st) = Some e -> leads_to st spd ty e -> In x (dependents st spd ty).
Proof.
  intros st spd ty x e F D L. apply dependents_in. apply dget_in in D. inversion L as [? t I A B|? t e' I T G L']; subst.
  - exists e, t. auto.
  - exists e, t. split; [exact D|]. split; [exact I|]. right. split; [exact T|]. apply generic_in.
    inversion L' as [? t' I' A' B'|? t' e2 I' T' G' L2]; subst.
    + exists e', t'. split; [now apply dget_in|]. auto.
    + rewrite (F _ _ _ G I' T') in G'. discriminate.
Qed.

Lemma unlisted : forall root d st spd ty v st' id, flat st -> update st spd ty v = Done st' -> ~ In id (dependents st spd ty) ->
  snd (compute_rhs root d st' id) = snd (compute_rhs root d st id).
Proof.
  intros root d st spd ty v st' id F U N. apply (unrelated root d st spd ty v st' id U). intros e D L. apply N. now apply leads_dependents with e.
Qed.
