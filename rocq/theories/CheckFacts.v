(** Decision procedures used only in the examples: is a point feasible, is a
    history sane, does a call stand. *)

From Coq Require Import QArith String List Bool Arith Lia.
Import ListNotations.
From Verif Require Import PandasModel TablesModel MarketModel SolverModel SpecLp SpecHistory PandasFacts.
Open Scope string_scope.
Open Scope list_scope.

Definition zeros_but (k : nat) (l : list Q) : bool :=
  Nat.leb (length (filter (fun q => negb (Qeq_bool q 0)) l)) k.

Definition relationb (ty : string) (a b : Q) : bool :=
  (String.eqb ty "<=" && Qle_bool a b) || (String.eqb ty ">=" && Qle_bool b a)
  || (String.eqb ty "=" && Qeq_bool a b).

Lemma relationb_ok ty a b : relationb ty a b = true -> relation ty a b.
Proof.
  unfold relationb, relation. rewrite !orb_true_iff, !andb_true_iff, !String.eqb_eq, !Qle_bool_iff, Qeq_bool_iff.
  tauto.
Qed.

Definition in_boundsb (x : assignment) (v : pvar) : bool :=
  Qle_bool (pv_lb v) (x (pv_id v)) && match pv_ub v with Some u => Qle_bool (x (pv_id v)) u | None => true end.

Lemma in_boundsb_ok x v : in_boundsb x v = true -> in_bounds x v.
Proof.
  unfold in_boundsb, in_bounds. rewrite andb_true_iff, Qle_bool_iff. destruct (pv_ub v); [rewrite Qle_bool_iff|]; tauto.
Qed.

(** At most two neighbours differ from zero. *)
Fixpoint sos2b (x : assignment) (ids : list nat) : bool :=
  match ids with
  | [] => true
  | a :: t => if Qeq_bool (x a) 0 then sos2b x t
              else forallb (fun b => Qeq_bool (x b) 0) (tl t)
  end.

Lemma forallb_zero (x : assignment) l b : forallb (fun b => Qeq_bool (x b) 0) l = true -> In b l -> x b == 0.
Proof. intros H Hb. rewrite forallb_forall in H. apply Qeq_bool_iff. auto. Qed.

Lemma sos2b_ok x ids : sos2b x ids = true -> sos2_ok x ids.
Proof.
  induction ids as [|a t IH]; intros H i j p q Lt Hi Hj Np Nq; [destruct i; discriminate|].
  cbn in H. destruct i as [|i], j as [|j]; try lia.
  - cbn in Hi, Hj. inversion Hi; subst p. destruct (Qeq_bool (x a) 0) eqn:E.
    + apply Qeq_bool_iff in E. contradiction.
    + destruct j as [|j]; [reflexivity|]. exfalso. apply Nq. apply (forallb_zero x (tl t)); auto.
      destruct t as [|b t]; [discriminate|]. cbn in *. now apply nth_error_In in Hj.
  - cbn in Hi, Hj. destruct (Qeq_bool (x a) 0) eqn:E.
    + f_equal. apply (IH H i j p q); auto. lia.
    + exfalso. apply Nq. apply (forallb_zero x (tl t)); auto. destruct t as [|b t]; [destruct i; discriminate|].
      cbn. destruct j; [lia|]. cbn in Hj. now apply nth_error_In in Hj.
Qed.

(** At most one differs from zero. *)
Fixpoint sos1b (x : assignment) (ids : list nat) : bool :=
  match ids with
  | [] => true
  | a :: t => if Qeq_bool (x a) 0 then sos1b x t else forallb (fun b => Qeq_bool (x b) 0) t
  end.

Lemma sos1b_ok x ids : sos1b x ids = true -> sos1_ok x ids.
Proof.
  induction ids as [|a t IH]; intros H i j p q Lt Hi Hj Np Nq; [destruct i; discriminate|].
  cbn in H. destruct i as [|i], j as [|j]; try lia; cbn in Hi, Hj.
  - inversion Hi; subst p. destruct (Qeq_bool (x a) 0) eqn:E.
    + apply Qeq_bool_iff in E. contradiction.
    + apply Nq. apply (forallb_zero x t); auto. now apply nth_error_In in Hj.
  - destruct (Qeq_bool (x a) 0) eqn:E.
    + apply (IH H i j p q); auto. lia.
    + apply Nq. apply (forallb_zero x t); auto. now apply nth_error_In in Hj.
Qed.

Definition feasibleb (p : problem) (x : assignment) : bool :=
  forallb (in_boundsb x) (p_vars p)
  && forallb (fun c => relationb (pc_type c) (linear (pc_terms c) x) (rhs_value (pc_rhs c) x)) (p_cons p)
  && forallb (sos2b x) (p_sos2 p) && forallb (sos1b x) (p_sos1 p).

Lemma feasibleb_ok p x : feasibleb p x = true -> feasible p x.
Proof.
  unfold feasibleb, feasible. rewrite !andb_true_iff, !forallb_forall. intros [[[H1 H2] H3] H4].
  repeat split; intros.
  - now apply (in_boundsb_ok x v), H1.
  - now apply (in_boundsb_ok x v), H1.
  - now apply relationb_ok, H2.
  - now apply sos2b_ok, H3.
  - now apply sos1b_ok, H4.
Qed.

Definition solutionb (m : market) (x : assignment) : bool :=
  match assemble m with Ok p => feasibleb p x | Err _ => false end.

Lemma solutionb_ok m x : solutionb m x = true -> solution m x.
Proof.
  unfold solutionb, solution. destruct (assemble m) as [p|]; [|discriminate]. intros H. exists p.
  split; [reflexivity|now apply feasibleb_ok].
Qed.

(** Values by variable id. *)
Definition values (l : list Q) : assignment := fun i => nth i l 0.

Definition saneb_op (o : op) (m : market) : bool :=
  match o with
  | OpGeneric l _ => match l with [] => false | _ => true end
  | OpLosses _ bps =>
    forallb (fun b => existsb (fun v => String.eqb (iv_inter v) (bp_inter b)
                                        && String.eqb (iv_link v) (bp_link b)) (rows_or_nil (m_inter m))) bps
  | _ => true
  end.
Fixpoint saneb (ops : list op) (m : market) : bool :=
  match ops with [] => true | o :: t => saneb_op o m && saneb t (fst (step o m)) end.

Lemma saneb_ok ops m : saneb ops m = true -> sane ops m.
Proof.
  unfold sane. revert m. induction ops as [|o t IH]; intros m H; [exact I|]. cbn in *.
  apply andb_true_iff in H. destruct H as [H1 H2]. split; [|auto].
  destruct o; cbn in *; auto.
  - intros b Hb. rewrite forallb_forall in H1. specialize (H1 b Hb). apply existsb_exists in H1.
    destruct H1 as [v [Hv E]]. apply andb_true_iff in E. rewrite !String.eqb_eq in E. exists v. tauto.
  - destruct l; congruence.
Qed.

Definition leavesb (k : string) (ops : list op) : bool :=
  forallb (fun o => negb (mem_str k (touches o))) ops.
Lemma leavesb_ok k ops : leavesb k ops = true -> leaves k ops.
Proof.
  unfold leavesb, leaves. rewrite forallb_forall. intros H o Ho Hk. specialize (H o Ho).
  apply negb_true_iff in H. unfold mem_str in H. rewrite <- not_true_iff_false in H. apply H.
  apply existsb_exists. exists k. split; [exact Hk|apply String.eqb_refl].
Qed.

(** The call at position [n] of the history stands. *)
Definition standsb (m0 : market) (ops : list op) (n : nat) : bool :=
  match nth_error ops n with
  | Some o => match snd (step o (run (firstn n ops) m0)) with
              | None => forallb (fun k => leavesb k (skipn (S n) ops)) (touches o)
              | Some _ => false
              end
  | None => false
  end.

Lemma nth_split' {A} (l : list A) n a : nth_error l n = Some a -> l = firstn n l ++ a :: skipn (S n) l.
Proof.
  revert n. induction l as [|b t IH]; intros [|n] H; try discriminate; cbn in *.
  - now inversion H.
  - f_equal. now apply IH.
Qed.

Lemma standsb_ok m0 ops n o : nth_error ops n = Some o -> standsb m0 ops n = true -> stands m0 ops o.
Proof.
  intros E H. unfold standsb in H. rewrite E in H.
  destruct (snd (step o (run (firstn n ops) m0))) eqn:St; [discriminate|].
  exists (firstn n ops), (skipn (S n) ops). split; [now apply nth_split'|]. split; [exact St|].
  intros k Hk. rewrite forallb_forall in H. now apply leavesb_ok, H.
Qed.

Definition checkb (c : config) (ops : list op) (n : nat) : bool :=
  match new_market c with
  | Ok m0 => saneb ops m0 && standsb m0 ops n
  | Err _ => false
  end.

Definition final (c : config) (ops : list op) : market :=
  match new_market c with Ok m0 => run ops m0 | Err _ => empty_market c end.

Lemma checkb_ok c ops n o : nth_error ops n = Some o -> checkb c ops n = true -> in_force c o (final c ops).
Proof.
  unfold checkb, final, in_force. destruct (new_market c) as [m0|]; [|discriminate].
  intros E H. apply andb_true_iff in H. destruct H as [H1 H2]. exists m0, ops. split; [reflexivity|].
  split; [now apply saneb_ok|]. split; [|reflexivity]. now apply (standsb_ok m0 ops n).
Qed.

(** Proof of [in_force] for the call at position [n] of a concrete history. *)
Ltac in_force_at n := apply (checkb_ok _ _ n); [reflexivity|vm_compute; reflexivity].
Lemma checkb_met c ops n o : nth_error ops n = Some o -> checkb c ops n = true ->
  in_force_at c o (final c (firstn n ops)) (final c ops).
Proof.
  unfold checkb, final, in_force_at. destruct (new_market c) as [m0|]; [|discriminate].
  intros E H. apply andb_true_iff in H. destruct H as [H1 H2]. exists m0, (firstn n ops), (skipn (S n) ops).
  split; [reflexivity|]. pose proof (nth_split' ops n o E) as Sp. rewrite <- Sp.
  split; [now apply saneb_ok|]. split; [reflexivity|].
  unfold standsb in H2. rewrite E in H2. destruct (snd (step o (run (firstn n ops) m0))); [discriminate|].
  split; [reflexivity|]. split; [|reflexivity].
  intros k Hk. rewrite forallb_forall in H2. now apply leavesb_ok, H2.
Qed.
Ltac in_force_met n := apply (checkb_met _ _ n); [reflexivity|vm_compute; reflexivity].

(** Proof of [solution] for concrete values. *)
Ltac solves := apply solutionb_ok; vm_compute; reflexivity.

From Verif Require Import SpecDispatch.

Definition registeredb (c : config) (u d : string) : bool :=
  existsb (fun r => String.eqb (ui_unit r) u && String.eqb (ui_dt r) d) (c_ui c).
Lemma registeredb_ok c u d : registeredb c u d = true <-> registered c u d.
Proof.
  unfold registeredb, registered. rewrite existsb_exists. split.
  - intros [r [Hr E]]. apply andb_true_iff in E. rewrite !String.eqb_eq in E. exists r. tauto.
  - intros [r [Hr [E1 E2]]]. exists r. rewrite E1, E2, !String.eqb_refl. auto.
Qed.
Lemma not_registeredb c u d : registeredb c u d = false -> ~ registered c u d.
Proof. intros H R. apply registeredb_ok in R. congruence. Qed.

Definition two_sidedb (c : config) (u : string) : bool := registeredb c u "generator" && registeredb c u "load".
Lemma two_sidedb_ok c u : two_sidedb c u = true <-> two_sided c u.
Proof. unfold two_sidedb, two_sided. now rewrite andb_true_iff, !registeredb_ok. Qed.
Lemma not_two_sidedb c u : two_sidedb c u = false -> ~ two_sided c u.
Proof. intros H R. apply two_sidedb_ok in R. congruence. Qed.

Definition offersb (m : market) (u s d : string) : bool :=
  existsb (fun v => String.eqb (bv_unit v) u && String.eqb (bv_service v) s && String.eqb (bv_dt v) d)
          (rows_or_nil (m_bids m)).
Lemma offersb_ok m u s d : offersb m u s d = true -> offers m u s d.
Proof.
  unfold offersb, offers. rewrite existsb_exists. intros [v [Hv E]].
  rewrite !andb_true_iff, !String.eqb_eq in E. exists v. tauto.
Qed.

(** Proof of a decidable side condition of an example. *)
Ltac decided :=
  first [ apply registeredb_ok; vm_compute; reflexivity | apply not_registeredb; vm_compute; reflexivity
        | apply two_sidedb_ok; vm_compute; reflexivity | apply not_two_sidedb; vm_compute; reflexivity
        | apply offersb_ok; vm_compute; reflexivity | vm_compute; reflexivity
        | vm_compute; discriminate | cbn; auto 20 ].
(** The same for a conjunction. *)
Ltac all_decided := repeat match goal with |- _ /\ _ => split end; try decided.
