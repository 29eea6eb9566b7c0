(** Deciding shadow prices of concrete problems. *)

From Coq Require Import QArith Lqa String List Bool Arith.
Import ListNotations.
From Verif Require Import PandasModel TablesModel MarketModel SolverModel SpecLp SpecHistory SpecDispatch SpecNetwork SpecPrices SpecDual
  CheckFacts CheckLpFacts DualFacts.
Open Scope string_scope.
Open Scope list_scope.

Definition signedb (ty : string) (q : Q) : bool :=
  (negb (String.eqb ty "<=") || Qle_bool q 0) && (negb (String.eqb ty ">=") || Qle_bool 0 q).
Lemma signedb_ok ty q : signedb ty q = true -> signed_price ty q.
Proof.
  unfold signedb, signed_price. rewrite andb_true_iff, !orb_true_iff, !negb_true_iff, !Qle_bool_iff. intros [H1 H2].
  split; intros ->; [destruct H1 as [H1|H1]|destruct H2 as [H2|H2]]; auto; discriminate.
Qed.

Definition shadowb (p : problem) (x : assignment) (pi : nat -> Q) : bool :=
  feasibleb p x && forallb (fun c => signedb (pc_type c) (pi (pc_id c)) && Qeq_bool (pi (pc_id c) * gap c x) 0) (p_cons p).
Lemma shadowb_ok p x pi : shadowb p x pi = true -> (forall y, boxed p y -> lagrangian p pi x <= lagrangian p pi y) -> shadow_prices p x pi.
Proof.
  unfold shadowb. rewrite andb_true_iff, forallb_forall. intros [F C] L. split; [now apply feasibleb_ok|].
  split; [|split; [|exact L]]; intros c Hc; specialize (C c Hc); apply andb_true_iff in C; destruct C as [C1 C2].
  - now apply signedb_ok.
  - now apply Qeq_bool_iff.
Qed.
(** No point within the bounds is cheaper at the prices. *)
Ltac no_cheaper :=
  let y := fresh "y" in let B := fresh "B" in
  intros y B; unfold boxed in B; cbn [p_vars] in B; split_all B; unfold in_bounds in *; cbn [pv_id pv_lb pv_ub] in *;
  unfold lagrangian, objective, gap; cbn [p_obj p_cons map qsum linear rhs_value pc_id pc_terms pc_rhs];
  unfold values; cbn [nth]; cbn -[Qmult Qplus Qle Qminus Qopp]; lra.

Lemma boxedb_ok p y : forallb (in_boundsb y) (p_vars p) = true -> boxed p y.
Proof. rewrite forallb_forall. intros H v Hv. now apply in_boundsb_ok, H. Qed.

Definition metb (pi : nat -> Q) (y : assignment) (c : pcon) : bool :=
  relationb (pc_type c) (linear (pc_terms c) y) (rhs_value (pc_rhs c) y) || Qeq_bool (pi (pc_id c)) 0.
Lemma metb_ok pi y c : metb pi y c = true -> met_or_free pi y c.
Proof. unfold metb. rewrite orb_true_iff, Qeq_bool_iff. intros [H|H]; [left; now apply relationb_ok|now right]. Qed.

Definition balance_conb (m : market) (r : string) (c : pcon) : bool :=
  match dget "demand" (m_mrhs m) with
  | Some rows => existsb (fun row => match cr_key row with KRegion r' => String.eqb r' r | _ => false end && Nat.eqb (pc_id c) (cr_id row)) rows
  | None => false
  end.
Lemma balance_conb_ok m r c : balance_conb m r c = true -> balance_con m r c.
Proof.
  unfold balance_conb, balance_con. destruct (dget _ _) as [rows|]; [|discriminate]. intros H. apply existsb_exists in H.
  destruct H as [row [Hr H]]. apply andb_true_iff in H. destruct H as [K E]. exists rows, row.
  split; [reflexivity|]. split; [exact Hr|]. split; [|now apply Nat.eqb_eq].
  destruct (cr_key row); try discriminate. apply String.eqb_eq in K. now subst.
Qed.
Lemma others_met m q pi y r : forallb (fun c => balance_conb m r c || metb pi y c) (p_cons q) = true ->
  forall con, In con (p_cons q) -> ~ balance_con m r con -> met_or_free pi y con.
Proof.
  rewrite forallb_forall. intros H con Hc N. specialize (H con Hc). apply orb_true_iff in H.
  destruct H as [H|H]; [destruct N; now apply balance_conb_ok|now apply metb_ok].
Qed.
Lemma all_others_met m q pi y rs : forallb (fun c => existsb (fun r => balance_conb m r c) rs || metb pi y c) (p_cons q) = true ->
  forall con, In con (p_cons q) -> (forall r, ~ balance_con m r con) -> met_or_free pi y con.
Proof.
  rewrite forallb_forall. intros H con Hc N. specialize (H con Hc). apply orb_true_iff in H.
  destruct H as [H|H]; [|now apply metb_ok]. apply existsb_exists in H. destruct H as [r [_ H]].
  destruct (N r). now apply balance_conb_ok.
Qed.

Definition set_conb (m : market) (s : string) (c : pcon) : bool :=
  match dget "fcas" (m_mrhs m) with
  | Some rows => existsb (fun row => match cr_key row with KSet s' => String.eqb s' s | _ => false end && Nat.eqb (pc_id c) (cr_id row)) rows
  | None => false
  end.
Lemma set_conb_ok m s c : set_conb m s c = true -> set_con m s c.
Proof.
  unfold set_conb, set_con. destruct (dget _ _) as [rows|]; [|discriminate]. intros H. apply existsb_exists in H.
  destruct H as [row [Hr H]]. apply andb_true_iff in H. destruct H as [K E]. exists rows, row.
  split; [reflexivity|]. split; [exact Hr|]. split; [|now apply Nat.eqb_eq].
  destruct (cr_key row); try discriminate. apply String.eqb_eq in K. now subst.
Qed.
Lemma other_sets m q l r sv (P : pcon -> bool) (Q : pcon -> Prop) : (forall c, P c = true -> Q c) ->
  forallb (fun c => existsb (fun b => String.eqb (fq_region b) r && String.eqb (fq_service b) sv && set_conb m (fq_set b) c) l || P c) (p_cons q) = true ->
  forall con, In con (p_cons q) -> (forall s, set_con m s con -> ~ required l s r sv) -> Q con.
Proof.
  intros PQ. rewrite forallb_forall. intros H con Hc N. specialize (H con Hc). apply orb_true_iff in H.
  destruct H as [H|H]; [|now apply PQ]. apply existsb_exists in H. destruct H as [b [Hb H]].
  rewrite !andb_true_iff, !String.eqb_eq in H. destruct H as [[E1 E2] H]. destruct (N (fq_set b)); [now apply set_conb_ok|].
  exists b. auto.
Qed.

Definition mentionsb (c : pcon) (i : nat) : bool :=
  existsb (fun t => Nat.eqb (fst t) i) (pc_terms c) || match pc_rhs c with RVar j => Nat.eqb j i | RNum _ => false end.
Lemma mentionsb_of c i : mentions c i -> mentionsb c i = true.
Proof.
  unfold mentions, mentionsb. intros [[q H]|H]; apply orb_true_iff.
  - left. apply existsb_exists. exists (i, q). split; [exact H|apply Nat.eqb_refl].
  - right. rewrite H. apply Nat.eqb_refl.
Qed.
(** Constraints with the variable, other than the ones named, are free. *)
Definition freeb (q : problem) (pi : nat -> Q) (named : pcon -> bool) (i : nat) : bool :=
  forallb (fun c => negb (mentionsb c i) || named c || Qeq_bool (pi (pc_id c)) 0) (p_cons q).
Lemma freeb_ok q pi named i con : freeb q pi named i = true -> In con (p_cons q) -> mentions con i -> named con = false -> pi (pc_id con) == 0.
Proof.
  unfold freeb. rewrite forallb_forall. intros H Hc M N. specialize (H con Hc). rewrite (mentionsb_of con i M), N in H. now apply Qeq_bool_iff.
Qed.
Lemma band_free m q pi u s d b r : forallb (fun w => freeb q pi (balance_conb m r) (bv_id w)) (band_vars m u s d b) = true ->
  forall w con, In w (band_vars m u s d b) -> In con (p_cons q) -> mentions con (bv_id w) -> ~ balance_con m r con -> pi (pc_id con) == 0.
Proof.
  rewrite forallb_forall. intros H w con Hw Hc M N. apply (freeb_ok q pi (balance_conb m r) (bv_id w)); auto.
  destruct (balance_conb m r con) eqn:E; [|reflexivity]. destruct N. now apply balance_conb_ok.
Qed.
Lemma flow_free m q pi i rs : freeb q pi (fun c => existsb (fun r => balance_conb m r c) rs) i = true ->
  forall con, In con (p_cons q) -> mentions con i -> (forall r, ~ balance_con m r con) -> pi (pc_id con) == 0.
Proof.
  intros H con Hc M N. apply (freeb_ok q pi _ i con H Hc M). destruct (existsb _ _) eqn:E; [|reflexivity].
  apply existsb_exists in E. destruct E as [r [_ E]]. destruct (N r). now apply balance_conb_ok.
Qed.
Lemma reserve_free m q l pi u s d b r sv :
  forallb (fun w => freeb q pi (fun c => existsb (fun a => String.eqb (fq_region a) r && String.eqb (fq_service a) sv && set_conb m (fq_set a) c) l) (bv_id w))
    (band_vars m u s d b) = true ->
  forall w con, In w (band_vars m u s d b) -> In con (p_cons q) -> mentions con (bv_id w) ->
    (forall set, set_con m set con -> ~ required l set r sv) -> pi (pc_id con) == 0.
Proof.
  rewrite forallb_forall. intros H w con Hw Hc M N. apply (freeb_ok q pi _ (bv_id w) con (H w Hw) Hc M).
  destruct (existsb _ _) eqn:E; [|reflexivity]. apply existsb_exists in E. destruct E as [a [Ha E]].
  rewrite !andb_true_iff, !String.eqb_eq in E. destruct E as [[E1 E2] E]. destruct (N (fq_set a)); [now apply set_conb_ok|].
  exists a. auto.
Qed.

Definition sameb (l : list nat) (x y : assignment) : bool := forallb (fun i => Qeq_bool (y i) (x i)) l.
Lemma sameb_ok l x y : sameb l x y = true -> forall i, In i l -> y i == x i.
Proof. unfold sameb. rewrite forallb_forall. intros H i Hi. now apply Qeq_bool_iff, H. Qed.
