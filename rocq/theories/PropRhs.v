(** Evaluation of right hand side equations and updates of their inputs: C44 and C45. *)

From Coq Require Import QArith Qminmax Qabs String List Bool Lqa Lia.
Import ListNotations.
From Verif Require Import PandasModel RhsModel SpecRhs PandasFacts RhsFacts RpnFacts GroupFacts UpdateFacts.
Open Scope string_scope.
Open Scope list_scope.

(** ** A calculator *)

Definition rx_v (ty id : string) : Q :=
  if String.eqb id "G1" then 120 else if String.eqb id "G2" then 15 # 2 else if String.eqb id "LIM" then 400 else if String.eqb id "UNIT" then 60
  else if String.eqb id "NONE" then 25 else 0.
(** Defaults of two inputs, one of which has a value. *)
Definition rx_d (ty id : string) : option Q := if String.eqb id "G1" then Some 7 else if String.eqb id "NONE" then Some 25 else None.
Definition rx_expr : expr :=
  Bin Max (Imm Sub (Bin Mul (Src (Input "A" "G1" (1 # 2))) (Src (Constant 3)) 2) (Input "E" "LIM" 1))
          (Un Abs (Scale (Plus (Src (Input "T" "UNIT" (- (1)))) (Input "A" "G2" 4)) 5) 1) (-1 # 1).
Definition rx_e2 : expr := PlusStep (PlusUn Square (Imm Mul (Src (Input "T" "UNIT" 1)) (Input "E" "NONE" 1)) (Input "A" "G1" 2)) (Input "E" "NONE" 3).
Definition rx_es : list expr := [Src (Input "A" "G1" 1); Src (Input "E" "LIM" 1); Src (Constant 5)].
Definition rx_os : list move := [Up 1; Down 2; Up 1; Swap (1 # 2); Up 1; Copy (3 # 5)].
Definition rx_term (ty id : string) (m : Q) (g : option string) : term := RTerm ty id None m None None g.
Definition rx_segs : list segment :=
  [Alone (rx_term "C" "Constant" 50 None);
   Closed "7" [rx_term "A" "G1" 1 (Some "7"); rx_term "T" "UNIT" (- (2)) (Some "7")] (rx_term "G" "Group" (1 # 2) None);
   Alone (rx_term "E" "LIM" (1 # 10) None);
   Opened (rx_term "G" "Group" 3 None) "8" [rx_term "A" "G2" 2 (Some "8"); rx_term "C" "Constant" 1 (Some "8")]].
Definition rx_choice : list term :=
  encode rx_d (Src (Constant 10)) ++ encode rx_d (Src (Input "A" "G1" 1)) ++ encode rx_d (Imm Sub (Src (Input "E" "LIM" 1)) (Constant 500))
  ++ [stack_term (Some "POP") 1; stack_term (Some "EXLEZ") (-1 # 1)].
Definition rx_switch : list term :=
  encode rx_d (Src (Constant 10)) ++ encode rx_d (Src (Input "A" "G1" 1)) ++ [value_term rx_d (Some "POP") (Input "E" "LIM" (-1 # 1)); stack_term (Some "EXLEZ") 2].
Definition rx_store : store :=
  Store [("A", [("G1", [100; 20]); ("G2", [15 # 2])]); ("R", [])] [("UNIT", 60)] [("LIM", 400)] [] []
        [("X_ONE", encode rx_d (Src (Input "A" "G2" 2)))]
        [("EXPR", encode rx_d rx_expr); ("SUM", flat_map seg_terms rx_segs); ("CHOICE", rx_choice); ("SWITCH", rx_switch);
         ("LINEAR", [rx_term "A" "G1" 1 None; rx_term "C" "Constant" (-7 # 1) None; rx_term "T" "UNIT" (1 # 4) None]);
         ("VIA", [rx_term "X" "X_ONE" 1 None]); ("DEFAULT", encode rx_d rx_e2); ("MOVES", flat_map (encode rx_d) rx_es ++ map move_term rx_os)].

Lemma rx_inputs : forall ty id, In (ty, id) [("A", "G1"); ("A", "G2"); ("E", "LIM"); ("T", "UNIT")] -> has_value rx_store ty id (rx_v ty id).
Proof.
  intros ty id H. unfold has_value. destruct H as [H|[H|[H|[H|[]]]]]; injection H as <- <-.
  - left. split; [now left|]. do 2 eexists. split; [reflexivity|]. split; [reflexivity|]. reflexivity.
  - left. split; [now left|]. do 2 eexists. split; [reflexivity|]. split; [reflexivity|]. reflexivity.
  - right; right; left. split; reflexivity.
  - right; left. split; reflexivity.
Qed.

Lemma rx_none : rx_d "E" "NONE" = Some 25 /\ (forall w, ~ has_value rx_store "E" "NONE" w) /\ ~ In "E" ["A"; "S"; "R"; "I"; "W"; "C"; "U"; "G"; "B"; "X"].
Proof.
  split; [reflexivity|]. split; [|cbn; intuition discriminate].
  intros w [[H _]|[[H _]|[[_ H]|[[H _]|[H _]]]]]; try discriminate. cbn in H. intuition discriminate.
Qed.

(** ** C44 *)

(** The terms of an expression evaluate to its value, and to ZeroDivisionError if it
    divides by zero.  The square root is any function of numbers. *)
Theorem C44_expression :
  forall root df d st c e v, (forall a b, a == b -> root a == root b) -> dget c (s_rhs st) = Some (encode df e) -> readable st df v e ->
  match meaning root v e with
  | Some q => exists q', snd (compute_rhs root d st c) = Done q' /\ q' == q
  | None => snd (compute_rhs root d st c) = Fail RZero
  end.
Proof. exact expression_value. Qed.
Print Assumptions C44_expression.

(** Of -max(0.5*120 * 3 * 2 - 400, |5 * (4*7.5 - 60)|), and of an input with a default
    and no value: 60 * 25 + 120^2 * 2 + 3. *)
Example C44_expression_case :
  (forall a b : Q, a == b -> Qabs a == Qabs b) /\ dget "EXPR" (s_rhs rx_store) = Some (encode rx_d rx_expr)
  /\ dget "DEFAULT" (s_rhs rx_store) = Some (encode rx_d rx_e2)
  /\ readable rx_store rx_d rx_v rx_expr /\ readable rx_store rx_d rx_v rx_e2
  /\ (exists q, meaning Qabs rx_v rx_expr = Some q /\ q == -150 # 1) /\ (exists q, meaning Qabs rx_v rx_e2 = Some q /\ q == 30303).
Proof.
  split; [intros a b E; now rewrite E|]. split; [reflexivity|]. split; [reflexivity|]. split; [|split; [|split; eexists; (split; [vm_compute; reflexivity|reflexivity])]].
  - split; intros ty id H; [left|]; apply rx_inputs; cbn in H; cbn; tauto.
  - split; intros ty id H.
    + cbn in H. destruct H as [H|[H|[H|[H|[]]]]]; try (left; apply rx_inputs; rewrite <- H; cbn; tauto); injection H as <- <-; right; exact rx_none.
    + apply rx_inputs. cbn in H. cbn. tauto.
Qed.

(** Moves on the stack, at whose bottom is a zero: the answer is the element they
    bring to the top. *)
Theorem C44_moves :
  forall root df d st c es os v s a r, (forall a b, a == b -> root a == root b) ->
  dget c (s_rhs st) = Some (flat_map (encode df) es ++ map move_term os) ->
  (forall e, In e es -> readable st df v e) -> stacked root v es s -> moves os (s ++ [0]) (a :: r) ->
  exists q, snd (compute_rhs root d st c) = Done q /\ q == a.
Proof. exact moves_value. Qed.
Print Assumptions C44_moves.

Example C44_moves_case :
  dget "MOVES" (s_rhs rx_store) = Some (flat_map (encode rx_d) rx_es ++ map move_term rx_os)
  /\ (forall e, In e rx_es -> readable rx_store rx_d rx_v e)
  /\ exists s a r, stacked Qabs rx_v rx_es s /\ moves rx_os (s ++ [0]) (a :: r) /\ a == 240.
Proof.
  split; [reflexivity|]. split.
  - intros e [<-|[<-|[<-|[]]]]; (split; intros ty id H; [left|]; apply rx_inputs; cbn in H; cbn; tauto).
  - do 3 eexists. split; [|split].
    + apply (stacked_snoc Qabs rx_v [Src (Input "A" "G1" 1); Src (Input "E" "LIM" 1)]); [|reflexivity].
      apply (stacked_snoc Qabs rx_v [Src (Input "A" "G1" 1)]); [|reflexivity]. apply (stacked_snoc Qabs rx_v []); [constructor|reflexivity].
    + cbn. apply moves_up. cbn. apply (moves_down _ _ _ [_; _]). cbn. apply moves_up. apply moves_swap. cbn. apply moves_up. cbn. apply moves_copy. apply moves_none.
    + vm_compute. reflexivity.
Qed.

(** An equation without operators is the sum of the multipliers times the values. *)
Theorem C44_linear :
  forall root d st c eqn q, dget c (s_rhs st) = Some eqn -> (forall t, In t eqn -> summand None t) -> total st eqn q ->
  exists q', snd (compute_rhs root d st c) = Done q' /\ q' == q.
Proof. exact linear_value. Qed.
Print Assumptions C44_linear.

Lemma rx_amount : forall t q, amount rx_store t q -> forall q', q == q' -> amount rx_store t q'.
Proof.
  intros t q [[v [A B]]|[A [B C]]] q' E; [left; exists v; split; [exact A|now rewrite <- E]|].
  right. split; [exact A|]. split; [exact B|]. destruct (t_value t); now rewrite <- E.
Qed.
Lemma rx_constant : forall m g, amount rx_store (rx_term "C" "Constant" m g) m.
Proof.
  intros m g. right. split; [|split].
  - intros v [[H _]|[[H _]|[[H _]|[[H _]|[H _]]]]]; try discriminate. cbn in H. intuition discriminate.
  - cbn. intuition discriminate.
  - reflexivity.
Qed.
Lemma rx_input : forall ty id m g, In (ty, id) [("A", "G1"); ("A", "G2"); ("E", "LIM"); ("T", "UNIT")] ->
  amount rx_store (rx_term ty id m g) (m * rx_v ty id).
Proof. intros ty id m g H. left. exists (rx_v ty id). split; [now apply rx_inputs|reflexivity]. Qed.

Example C44_linear_case :
  exists eqn q, dget "LINEAR" (s_rhs rx_store) = Some eqn /\ (forall t, In t eqn -> summand None t) /\ total rx_store eqn q /\ q == 128.
Proof.
  eexists _, _. split; [reflexivity|]. split.
  - intros t [<-|[<-|[<-|[]]]]; unfold summand, simple_type; cbn; intuition discriminate.
  - split.
    + eapply total_cons; [apply rx_input; cbn; auto|]. eapply total_cons; [apply rx_constant|]. eapply total_cons; [apply rx_input; cbn; auto|]. apply total_nil.
    + vm_compute. reflexivity.
Qed.

(** With groups that have a term for their factor before or after them, each group
    counts with the sum of its terms times the factor. *)
Theorem C44_groups :
  forall root d st c segs q, dget c (s_rhs st) = Some (flat_map seg_terms segs) -> Forall seg_ok segs ->
  NoDup (flat_map seg_ids segs) -> seg_sum st segs q ->
  exists q', snd (compute_rhs root d st c) = Done q' /\ q' == q.
Proof. exact groups_value. Qed.
Print Assumptions C44_groups.

(** 50 + (120 - 2*60) / 2 + 400 / 10 + 3 * (2 * 7.5 + 1). *)
Example C44_groups_case :
  dget "SUM" (s_rhs rx_store) = Some (flat_map seg_terms rx_segs) /\ Forall seg_ok rx_segs /\ NoDup (flat_map seg_ids rx_segs)
  /\ exists q, seg_sum rx_store rx_segs q /\ q == 138.
Proof.
  split; [reflexivity|]. split.
  { apply Forall_forall. intros s [<-|[<-|[<-|[<-|[]]]]]; unfold seg_ok, summand, simple_type, factor.
    - cbn. intuition discriminate.
    - split; [discriminate|]. split; [intros t [<-|[<-|[]]]; cbn; intuition discriminate|cbn; intuition discriminate].
    - cbn. intuition discriminate.
    - split; [discriminate|]. split; [intros t [<-|[<-|[]]]; cbn; intuition discriminate|cbn; intuition discriminate]. }
  split; [repeat constructor; cbn; intuition discriminate|]. eexists. split.
  - eapply sum_cons; [apply rx_constant|]. eapply sum_cons.
    { eexists. split; [|apply Qeq_refl]. eapply total_cons; [apply rx_input; cbn; auto|]. eapply total_cons; [apply rx_input; cbn; auto|]. apply total_nil. }
    eapply sum_cons; [apply rx_input; cbn; auto|]. eapply sum_cons.
    { eexists. split; [|apply Qeq_refl]. eapply total_cons; [apply rx_input; cbn; auto|]. eapply total_cons; [apply rx_constant|]. apply total_nil. }
    apply sum_nil.
  - vm_compute. reflexivity.
Qed.

(** POP and EXLEZ choose between two expressions by the sign of a third. *)
Theorem C44_choice :
  forall root df d st c x a b m v qx qa qb, (forall a b, a == b -> root a == root b) ->
  dget c (s_rhs st) = Some (encode df b ++ encode df a ++ encode df x ++ [stack_term (Some "POP") 1; stack_term (Some "EXLEZ") m]) ->
  readable st df v x -> readable st df v a -> readable st df v b ->
  meaning root v x = Some qx -> meaning root v a = Some qa -> meaning root v b = Some qb ->
  exists q, snd (compute_rhs root d st c) = Done q /\ (0 < qx -> q == qa) /\ (qx <= 0 -> q == m * qb).
Proof. exact choice_value. Qed.
Print Assumptions C44_choice.

Example C44_choice_case :
  let x := Imm Sub (Src (Input "E" "LIM" 1)) (Constant 500) in let a := Src (Input "A" "G1" 1) in let b := Src (Constant 10) in
  dget "CHOICE" (s_rhs rx_store) = Some (encode rx_d b ++ encode rx_d a ++ encode rx_d x ++ [stack_term (Some "POP") 1; stack_term (Some "EXLEZ") (-1 # 1)])
  /\ (forall e, In e [x; a; b] -> readable rx_store rx_d rx_v e)
  /\ (exists qx, meaning Qabs rx_v x = Some qx /\ qx <= 0) /\ (exists qa, meaning Qabs rx_v a = Some qa) /\ meaning Qabs rx_v b = Some 10.
Proof.
  cbn zeta. split; [reflexivity|]. split.
  { intros e [<-|[<-|[<-|[]]]]; (split; intros ty id H; [left|]; apply rx_inputs; cbn in H; cbn; tauto). }
  split; [eexists; split; [vm_compute; reflexivity|vm_compute; discriminate]|]. split; [eexists; reflexivity|reflexivity].
Qed.

(** POP on an input leaves the stack alone and chooses by the sign of its value. *)
Theorem C44_choice_by_input :
  forall root df d st c ty id n a b m v qa qb, (forall a b, a == b -> root a == root b) ->
  dget c (s_rhs st) = Some (encode df b ++ encode df a ++ [value_term df (Some "POP") (Input ty id n); stack_term (Some "EXLEZ") m]) ->
  has_value st ty id (v ty id) -> readable st df v a -> readable st df v b ->
  meaning root v a = Some qa -> meaning root v b = Some qb ->
  exists q, snd (compute_rhs root d st c) = Done q /\ (0 < v ty id -> q == qa) /\ (v ty id <= 0 -> q == m * qb).
Proof. exact choice_input. Qed.
Print Assumptions C44_choice_by_input.

Example C44_choice_by_input_case :
  let a := Src (Input "A" "G1" 1) in let b := Src (Constant 10) in
  dget "SWITCH" (s_rhs rx_store) = Some (encode rx_d b ++ encode rx_d a ++ [value_term rx_d (Some "POP") (Input "E" "LIM" (-1 # 1)); stack_term (Some "EXLEZ") 2])
  /\ has_value rx_store "E" "LIM" (rx_v "E" "LIM") /\ 0 < rx_v "E" "LIM"
  /\ (forall e, In e [a; b] -> readable rx_store rx_d rx_v e) /\ (exists qa, meaning Qabs rx_v a = Some qa) /\ meaning Qabs rx_v b = Some 10.
Proof.
  cbn zeta. split; [reflexivity|]. split; [apply rx_inputs; cbn; tauto|]. split; [vm_compute; reflexivity|]. split.
  { intros e [<-|[<-|[]]]; (split; intros ty id H; [left|]; apply rx_inputs; cbn in H; cbn; tauto). }
  split; [eexists; reflexivity|reflexivity].
Qed.

(** The evaluation of nested groups ends: a group has fewer terms with ids than the
    equation around it. *)
Theorem C44_groups_end :
  forall root f eqn, (length eqn < f)%nat -> rpn_stack root f eqn = rpn_stack root (S (length eqn)) eqn.
Proof. exact groups_end. Qed.
Print Assumptions C44_groups_end.

Example C44_groups_end_case : exists eqn q, (length eqn < 50)%nat /\ length (filter (fun t => match t_group t with Some _ => true | None => false end) eqn) = 4%nat
  /\ snd (rpn_calc Qabs eqn) = Done q /\ q == 60.
Proof.
  exists [rx_term "G" "Group" 2 None; rx_term "G" "Group" 3 (Some "1"); rx_term "C" "Constant" 4 (Some "2");
          rx_term "C" "Constant" (13 # 3) (Some "2"); rx_term "C" "Constant" 5 (Some "1"); rx_term "C" "Constant" 0 None].
  eexists. split; [cbn; lia|]. split; [reflexivity|]. split; [vm_compute; reflexivity|]. vm_compute. reflexivity.
Qed.

(** Evaluations change no later answer: after any calls the right hand side is what it
    is after only the updates among them; in particular evaluating twice gives the
    same answer. *)
Theorem C44_repeat :
  forall root d cs st id,
  snd (compute_rhs root d (do_calls root d cs st) id) = snd (compute_rhs root d (do_calls root d (filter is_update cs) st) id).
Proof. exact history_irrelevant. Qed.
Print Assumptions C44_repeat.

Example C44_repeat_case :
  let cs := [Compute "SUM"; Compute "EXPR"; Update "G1" "A" 40; Compute "SUM"; Update "LIM" "E" 10; Compute "VIA"] in
  filter is_update cs = [Update "G1" "A" 40; Update "LIM" "E" 10]
  /\ do_calls Qabs 100 [Update "G1" "A" 40; Update "UNIT" "T" 10] rx_store <> rx_store
  /\ do_calls Qabs 100 [Compute "SUM"] rx_store <> rx_store.
Proof. cbn zeta. split; [reflexivity|]. split; vm_compute; discriminate. Qed.

(** A list of constraints gives what the constraints give one by one. *)
Theorem C44_list :
  forall root d ids st l, snd (compute_all root d st ids) = Done l ->
  Forall2 (fun id p => fst p = id /\ snd (compute_rhs root d st id) = Done (snd p)) ids l.
Proof. intros root d ids st l. exact (all_each root d ids st st l (agree_refl st)). Qed.
Print Assumptions C44_list.

Example C44_list_case : exists l, snd (compute_all Qabs 100 rx_store ["SUM"; "EXPR"; "SUM"; "VIA"]) = Done l /\ length l = 4%nat.
Proof. eexists. split; [vm_compute; reflexivity|reflexivity]. Qed.

(** A group that ends the equation without a term for its factor raises IndexError
    although the group alone has a value. *)
Theorem C44_last_group_refuted :
  exists st c eqn, dget c (s_rhs st) = Some eqn /\ (forall t, In t eqn -> t_op t = None /\ simple_type (t_type t))
  /\ (exists q, total st eqn q) /\ snd (compute_rhs Qabs 100 st c) = Fail RIndex.
Proof.
  exists (Store (s_scada rx_store) (s_mw rx_store) (s_entered rx_store) [] [] [] [("END", [rx_term "C" "Constant" 5 None; rx_term "C" "Constant" 7 (Some "1")])]), "END".
  eexists. split; [reflexivity|]. split; [intros t [<-|[<-|[]]]; unfold simple_type; cbn; intuition discriminate|]. split; [|vm_compute; reflexivity].
  assert (K : forall m g st, amount st (rx_term "C" "Constant" m g) m).
  { intros m g st. right. split; [|split; [cbn; intuition discriminate|reflexivity]].
    intros v [[H _]|[[H _]|[[H _]|[[H _]|[H _]]]]]; try discriminate. cbn in H. intuition discriminate. }
  eexists. eapply total_cons; [apply K|]. eapply total_cons; [apply K|]. apply total_nil.
Qed.
Print Assumptions C44_last_group_refuted.

(** ** C45 *)

(** An update changes no right hand side whose equation does not lead to the input,
    directly or through generic equations nested to any depth. *)
Theorem C45_unrelated :
  forall root d st spd ty v st' id, update st spd ty v = Done st' ->
  (forall e, dget id (s_rhs st) = Some e -> ~ leads_to st spd ty e) ->
  snd (compute_rhs root d st' id) = snd (compute_rhs root d st id).
Proof. exact unrelated. Qed.
Print Assumptions C45_unrelated.

Definition rx_linear_unrelated : forall e, dget "VIA" (s_rhs rx_store) = Some e -> ~ leads_to rx_store "UNIT" "T" e.
Proof.
  intros e E L. cbn in E. injection E as <-. inversion L as [? t I A B|? t e I T G L']; subst.
  - destruct I as [<-|[]]. discriminate.
  - destruct I as [<-|[]]. cbn in G. injection G as <-. inversion L' as [? t' I' A B|? t' e' I' T' G' L2]; subst.
    + destruct I' as [<-|[]]. discriminate.
    + destruct I' as [<-|[]]. discriminate.
Qed.
Example C45_unrelated_case :
  (exists st', update rx_store "UNIT" "T" 99 = Done st' /\ snd (compute_rhs Qabs 100 st' "LINEAR") <> snd (compute_rhs Qabs 100 rx_store "LINEAR"))
  /\ (forall e, dget "VIA" (s_rhs rx_store) = Some e -> ~ leads_to rx_store "UNIT" "T" e).
Proof. split; [|exact rx_linear_unrelated]. eexists. split; [reflexivity|]. vm_compute. discriminate. Qed.

(** If no generic equation refers to another one, the listed constraints are all that
    an update can change.  Missing: nested generic equations, which the list misses. *)
Theorem C45_unlisted_partial :
  forall root d st spd ty v st' id, flat st -> update st spd ty v = Done st' -> ~ In id (dependents st spd ty) ->
  snd (compute_rhs root d st' id) = snd (compute_rhs root d st id).
Proof. exact unlisted. Qed.
Print Assumptions C45_unlisted_partial.

Example C45_unlisted_case :
  flat rx_store /\ dependents rx_store "G2" "A" = ["EXPR"; "SUM"; "VIA"]
  /\ (exists st', update rx_store "G2" "A" 1 = Done st' /\ snd (compute_rhs Qabs 100 st' "VIA") <> snd (compute_rhs Qabs 100 rx_store "VIA")).
Proof.
  split; [|split; [reflexivity|eexists; split; [reflexivity|vm_compute; discriminate]]].
  intros id eqn t D I T. cbn in D. destruct (String.eqb id "X_ONE"); [|discriminate]. injection D as <-. destruct I as [<-|[]]. discriminate.
Qed.

(** Every listed constraint exists and does lead to the input. *)
Theorem C45_listed :
  forall st spd ty x, NoDup (dkeys (s_generic st)) -> NoDup (dkeys (s_rhs st)) -> In x (dependents st spd ty) ->
  exists e, dget x (s_rhs st) = Some e /\ leads_to st spd ty e.
Proof. exact dependents_lead. Qed.
Print Assumptions C45_listed.

Example C45_listed_case : NoDup (dkeys (s_generic rx_store)) /\ NoDup (dkeys (s_rhs rx_store)) /\ In "VIA" (dependents rx_store "G2" "A").
Proof. split; [repeat constructor; cbn; intuition discriminate|]. split; [repeat constructor; cbn; intuition discriminate|]. vm_compute. auto. Qed.

(** A constraint that uses the input through two generic equations changes with it
    but is not listed. *)
Theorem C45_nested_refuted :
  exists st spd ty v st' id, update st spd ty v = Done st' /\ ~ In id (dependents st spd ty)
  /\ (exists a b, snd (compute_rhs Qabs 100 st id) = Done a /\ snd (compute_rhs Qabs 100 st' id) = Done b /\ ~ a == b).
Proof.
  exists (Store (s_scada rx_store) [] [] [] [] [("X_ONE", [rx_term "A" "G2" 2 None]); ("X_TWO", [rx_term "X" "X_ONE" 1 None])] [("VIA", [rx_term "X" "X_TWO" 1 None])]),
    "G2", "A", 1. eexists. exists "VIA". split; [reflexivity|]. split; [vm_compute; auto|]. do 2 eexists. split; [vm_compute; reflexivity|].
  split; [vm_compute; reflexivity|]. vm_compute. discriminate.
Qed.
Print Assumptions C45_nested_refuted.
