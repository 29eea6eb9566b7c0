(** Tables with values that are documented to be refused. *)

From Coq Require Import QArith ZArith Lqa String List Bool.
Import ListNotations.
From Verif Require Import PandasModel TablesModel MarketModel FrameModel SpecFrame CallModel SpecCalls SpecValues PandasFacts FrameFacts CallFacts RowFacts
  RejectFacts.
Open Scope string_scope.
Open Scope list_scope.

(** The description of a column has a rule. *)
Definition demands (d : series) (r : rule) : Prop :=
  match r with Real => se_real d = true | NotNegative => se_not_negative d = true | AtMostOne => False end.
Lemma demands_broken d r c i x : demands d r -> nth_error (cl_cells c) i = Some x -> breaks r x -> ~ right_values d c.
Proof.
  intros D N B V. destruct (V x (nth_error_In _ _ N)) as [_ [V1 V2]]. destruct r; cbn in D, B; [| |contradiction].
  - destruct (V1 D) as [A1 [A2 A3]]. destruct B as [B|[B|B]]; contradiction.
  - destruct (V2 D) as [A1 A2]. destruct B as [B|[q [Q L]]]; [contradiction|]. pose proof (A2 q Q). lra.
Qed.

Definition keeps (f f' : frame) : Prop := forall c, In c (fm_cols f) -> In c (fm_cols f').
Lemma keeps_fill n t v f : keeps f (fill n t v f).
Proof. intros c I. unfold fill. destruct (mem_str n (names f)); [exact I|]. cbn. apply in_app_iff. now left. Qed.
Lemma keeps_link f f' : fill_link f = Some f' -> keeps f f'.
Proof.
  unfold fill_link. destruct (mem_str "link" (names f)); [intros H; inversion H; subst; intros k I; exact I|].
  destruct (col "interconnector" f); [|discriminate]. intros H; inversion H; subst. intros k I. cbn. apply in_app_iff. now left.
Qed.
Lemma keeps_trans f g h : keeps f g -> keeps g h -> keeps f h.
Proof. intros A B c I. exact (B c (A c I)). Qed.

Lemma broken_unfit keys cols f f' d b n r i x :
  keeps f f' -> In (d, b) cols -> se_name d = n -> demands d r -> holds f n i x -> breaks r x -> ~ fits keys cols f'.
Proof.
  intros K I E D [c [Ic [En N]]] B [_ [_ [C _]]]. destruct (C d b c I (K c Ic) (eq_trans En (eq_sym E))) as [_ V].
  exact (demands_broken d r c i x D N B V).
Qed.

(** Every rule that is checked is one of the schema. *)
Definition rule_eqb (a b : rule) : bool := match a, b with Real, Real | NotNegative, NotNegative | AtMostOne, AtMostOne => true | _, _ => false end.
Definition demandsb (d : series) (r : rule) : bool := match r with Real => se_real d | NotNegative => se_not_negative d | AtMostOne => false end.
Definition coveredb (cols : list (series * bool)) (u l : list (string * rule)) : bool :=
  forallb (fun nr : string * rule =>
    existsb (fun v : string * rule => String.eqb (fst v) (fst nr) && rule_eqb (snd v) (snd nr)) u
    || existsb (fun c : series * bool => String.eqb (se_name (fst c)) (fst nr) && demandsb (fst c) (snd nr)) cols) l.
Lemma covered cols u l n r : coveredb cols u l = true -> In (n, r) l -> ~ In (n, r) u ->
  exists d b, In (d, b) cols /\ se_name d = n /\ demands d r.
Proof.
  intros H I N. unfold coveredb in H. rewrite forallb_forall in H. specialize (H (n, r) I). apply orb_true_iff in H. destruct H as [H|H].
  - exfalso. apply existsb_exists in H. destruct H as [[n' r'] [I' E]]. apply andb_true_iff in E. destruct E as [E1 E2].
    apply String.eqb_eq in E1. cbn in E1, E2. apply N. destruct r, r'; try discriminate E2; subst; exact I'.
  - apply existsb_exists in H. destruct H as [[d b] [I' E]]. apply andb_true_iff in E. destruct E as [E1 E2].
    apply String.eqb_eq in E1. exists d, b. split; [exact I'|]. split; [exact E1|]. destruct r; [exact E2|exact E2|discriminate E2].
Qed.

Lemma rule_found req m c c1 f l : before_check c = Some c1 -> In (f, l) (rules c) ->
  exists keys cols f1, In (keys, cols, f1) (tables req m c1) /\ keeps f f1 /\ coveredb cols (unchecked c) l = true.
Proof.
  intros B I.
  assert (S : forall g : frame, keeps g g) by (intros g k Ik; exact Ik).
  destruct c as [g|g|g v|g v|g s p t v|g v| |g v|g v|g v|g p t v|g v|g v|g|lf bps|g v|g|g|g|k v|v];
    cbn [before_check rules] in B, I; try contradiction I;
    try (inversion B; subst c1; clear B; destruct I as [I|[]]; inversion I; subst f l; clear I;
         do 3 eexists; split; [now left|]; split; [apply S|]; destruct req; reflexivity).
  - unfold given in B. destruct (fill_link g) as [g'|] eqn:E; [|discriminate]. inversion B; subst c1; clear B.
    destruct I as [I|[]]; inversion I; subst f l; clear I. do 3 eexists. split; [now left|]. split; [|reflexivity].
    eapply keeps_trans; [exact (keeps_link _ _ E)|]. eapply keeps_trans; [apply keeps_fill|]. eapply keeps_trans; apply keeps_fill.
  - unfold given in B. destruct (fill_link lf) as [g|] eqn:E; [|discriminate]. destruct (fill_link bps) as [h|] eqn:E'; [|discriminate].
    inversion B; subst c1; clear B. destruct I as [I|[I|[]]]; inversion I; subst f l; clear I.
    + do 3 eexists. split; [now left|]. split; [exact (keeps_link _ _ E)|reflexivity].
    + do 3 eexists. split; [right; now left|]. split; [exact (keeps_link _ _ E')|reflexivity].
Qed.

Lemma broken_refused req c m m' r back n rl :
  args_tables c -> breaks_rule c n rl -> ~ In (n, rl) (unchecked c) -> call req c m = Some (m', r, back) ->
  m' = m /\ exists e, r = Some e.
Proof.
  intros A [f [l [i [x [I [L [H B]]]]]]] N C. unfold call in C. destruct (first_check c m) as [e|]; [inversion C; eauto|].
  destruct (before_check c) as [c1|] eqn:E; [|inversion C; eauto]. pose proof (before_table c c1 A E) as A1.
  destruct (checks req m c1) as [e|] eqn:K; [inversion C; eauto|]. exfalso.
  apply (checks_fit req m c1 A1) in K. destruct K as [F _].
  destruct (rule_found req m c c1 f l E I) as [keys [cols [f1 [T [Kp Cv]]]]]. destruct (covered cols _ l n rl Cv L N) as [d [b [D [En Dm]]]].
  rewrite Forall_forall in F. exact (broken_unfit keys cols f f1 d b n rl i x Kp D En Dm H B (F _ T)).
Qed.

(** The loss factors of units. *)
Lemma broken_units rs interval f i x r :
  is_table f -> holds f "loss_factor" i x -> breaks r x -> r <> AtMostOne -> ~ exists req m f', construct rs interval f = Some (Ok (req, m, f')).
Proof.
  intros T H B N C. destruct (proj1 (proj1 (constructor_exact rs interval f T)) C) as [_ [_ [F _]]]. destruct H as [c [Ic [En Nx]]].
  assert (Ic' : In c (fm_cols (fill "dispatch_type" DObject (CStr "generator") (fill "loss_factor" DFloat (CNum 1) f)))) by (do 2 apply keeps_fill; exact Ic).
  destruct (F (real_pos "loss_factor") false c) as [_ V]; [cbn; tauto|exact Ic'|exact En|].
  refine (demands_broken (real_pos "loss_factor") r c i x _ Nx B V). destruct r; [reflexivity|reflexivity|congruence].
Qed.

(** Losses before any interconnector. *)
Lemma losses_early req m m' lf bps r back : m_inter m = None ->
  call req (FLosses lf bps) m = Some (m', r, back) -> exists e, r = Some e /\ e <> EModelBuild.
Proof.
  intros N C. unfold call in C. cbn [first_check] in C. destruct (before_check (FLosses lf bps)) as [c1|] eqn:E; [|inversion C; subst; eexists; split; [reflexivity|discriminate]].
  assert (X : exists g h, c1 = FLosses g h).
  { cbn [before_check] in E. unfold given in E. destruct (fill_link lf); [|discriminate]. destruct (fill_link bps); [|discriminate]. inversion E; eauto. }
  destruct X as [g [h ->]]. destruct (checks req m (FLosses g h)) as [e|] eqn:K.
  - pose proof (checks_class req m _ e (I : both_sides m (FLosses g h)) K) as V. inversion C; subst. exists e. split; [reflexivity|]. intros ->.
    destruct V as [V|[V|[V|[V|V]]]]; discriminate V.
  - cbn [typed] in C. unfold given in C. destruct (read_lossfn g) as [l|]; [|discriminate]. destruct (read_bps h) as [b|]; [|discriminate].
    cbn [step cost_of_call cost_error] in C. unfold set_losses in C. unfold guard in C. destruct (check_losses l b) as [e|] eqn:Kl.
    + inversion C; subst. exists e. split; [reflexivity|]. intros ->. unfold check_losses, first_err, all_rows, no_repeats in Kl.
      repeat match type of Kl with (if ?b then _ else _) = _ => destruct b; [|discriminate Kl] end. discriminate Kl.
    + change (m_directions (set_m_shares (Some l) m)) with (m_directions m) in C. change (m_inter (set_m_shares (Some l) m)) with (m_inter m) in C.
      rewrite N in C. destruct (m_directions m); inversion C; subst; eexists; (split; [reflexivity|discriminate]).
Qed.
