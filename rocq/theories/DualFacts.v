(** Shadow prices of any linear problem: marginal cost and complementary slackness. *)

From Coq Require Import QArith Qminmax Lqa String List Bool Arith Lia.
Import ListNotations.
From Verif Require Import PandasModel TablesModel MarketModel SolverModel PricingModel SpecLp SpecDual
  PandasFacts SolverFacts MeaningFacts BidFacts BalanceFacts ExchangeFacts.
Open Scope string_scope.
Open Scope list_scope.

Lemma lagrangian_sum p pi y : lagrangian p pi y = objective p y - sumQ (fun c => pi (pc_id c) * gap c y) (p_cons p).
Proof. reflexivity. Qed.

Lemma lagrangian_here p x pi : shadow_prices p x pi -> lagrangian p pi x == objective p x.
Proof.
  intros [_ [_ [T _]]]. rewrite lagrangian_sum, sumQ_zero; [ring|]. intros c Hc. now apply T.
Qed.

Lemma price_gap ty q g : signed_price ty q -> relation ty g 0 -> 0 <= q * g.
Proof.
  intros [S1 S2] [[-> R]|[[-> R]|[-> R]]].
  - specialize (S1 eq_refl). setoid_replace (q * g) with ((- q) * (- g)) by ring. apply Qmult_le_0_compat; lra.
  - specialize (S2 eq_refl). apply Qmult_le_0_compat; lra.
  - rewrite R. lra.
Qed.

Lemma holds_gap y c : con_holds y c -> relation (pc_type c) (gap c y) 0.
Proof.
  unfold con_holds, relation, gap. intros [[E R]|[[E R]|[E R]]]; [left|right; left|right; right]; (split; [exact E|lra]).
Qed.

(** Any point within the bounds: constraints may be met, or changed by a known amount. *)
Lemma marginal p x pi y (s : pcon -> Q) : shadow_prices p x pi -> boxed p y ->
  (forall c, In c (p_cons p) -> (met_or_free pi y c /\ s c == 0) \/ gap c y == gap c x + s c) ->
  objective p x + sumQ (fun c => pi (pc_id c) * s c) (p_cons p) <= objective p y.
Proof.
  intros Sh B H. pose proof (lagrangian_here p x pi Sh) as E. destruct Sh as [_ [Si [T Min]]].
  specialize (Min y B). rewrite E, lagrangian_sum in Min.
  assert (L : sumQ (fun c => pi (pc_id c) * s c) (p_cons p) <= sumQ (fun c => pi (pc_id c) * gap c y) (p_cons p)).
  { apply sumQ_le. intros c Hc. destruct (H c Hc) as [[Hy Z]|Z].
    - rewrite Z, Qmult_0_r. destruct Hy as [Hy|Hy].
      + exact (price_gap _ _ _ (Si c Hc) (holds_gap y c Hy)).
      + rewrite Hy, Qmult_0_l. lra.
    - rewrite Z, Qmult_plus_distr_r, (T c Hc). lra. }
  lra.
Qed.

(** Shadow prices prove that the point is optimal. *)
Lemma shadow_optimal p x pi : shadow_prices p x pi -> optimal p x.
Proof.
  intros Sh. split; [apply Sh|]. intros y [B [C _]].
  pose proof (marginal p x pi y (fun _ => 0) Sh B) as M.
  rewrite sumQ_zero in M; [|intros; ring]. rewrite Qplus_0_r in M. apply M. intros c Hc. left. split; [left; auto|reflexivity].
Qed.

(** ** One variable *)

(** Coefficient of a variable in a constraint, both sides. *)
Definition column (c : pcon) (i : nat) : Q :=
  linear (pc_terms c) (at_one i) - match pc_rhs c with RNum _ => 0 | RVar v => at_one i v end.
Definition reduced_cost (p : problem) (pi : nat -> Q) (i : nat) : Q :=
  linear (p_obj p) (at_one i) - sumQ (fun c => pi (pc_id c) * column c i) (p_cons p).
Definition moved (x : assignment) (i : nat) (e : Q) : assignment := fun k => x k + e * at_one i k.

Lemma linear_moved ts x i e : linear ts (moved x i e) == linear ts x + e * linear ts (at_one i).
Proof. rewrite !linear_sum, <- sumQ_scale, <- sumQ_plus. apply sumQ_ext. intros l. unfold moved. ring. Qed.

Lemma gap_moved c x i e : gap c (moved x i e) == gap c x + e * column c i.
Proof.
  unfold gap, column. rewrite linear_moved. destruct (pc_rhs c); cbn [rhs_value]; unfold moved; ring.
Qed.

Lemma lagrangian_moved p pi x i e : lagrangian p pi (moved x i e) == lagrangian p pi x + e * reduced_cost p pi i.
Proof.
  rewrite !lagrangian_sum. unfold reduced_cost, objective. rewrite linear_moved.
  rewrite (sumQ_ext _ (fun c => pi (pc_id c) * gap c x + e * (pi (pc_id c) * column c i))) by (intros c; rewrite gap_moved; ring).
  rewrite sumQ_plus, sumQ_scale. ring.
Qed.

Lemma moved_here x i e : moved x i e i == x i + e.
Proof. unfold moved, at_one. rewrite Nat.eqb_refl. ring. Qed.
Lemma moved_other x i e k : k <> i -> moved x i e k == x k.
Proof. intros N. unfold moved, at_one. rewrite (proj2 (Nat.eqb_neq k i) N). ring. Qed.

Lemma linear_unmentioned ts i : (forall q, ~ In (i, q) ts) -> linear ts (at_one i) == 0.
Proof.
  intros H. rewrite linear_sum. apply sumQ_zero. intros [j q] Hj. cbn [fst snd]. unfold at_one.
  destruct (Nat.eqb j i) eqn:E; [|ring]. apply Nat.eqb_eq in E. subst j. now apply H in Hj.
Qed.
Lemma column_unmentioned c i : ~ mentions c i -> column c i == 0.
Proof.
  intros H. unfold column. rewrite linear_unmentioned by (intros q Hq; apply H; left; eauto).
  destruct (pc_rhs c) as [k|j] eqn:E; [ring|]. unfold at_one. destruct (Nat.eqb j i) eqn:E2; [|ring].
  apply Nat.eqb_eq in E2. subst j. destruct H. now right.
Qed.
Lemma gap_holds y c : relation (pc_type c) (gap c y) 0 -> con_holds y c.
Proof.
  unfold con_holds, relation, gap. intros [[E R]|[[E R]|[E R]]]; [left|right; left|right; right]; (split; [exact E|lra]).
Qed.
Lemma unmentioned_holds x c i e : ~ mentions c i -> con_holds x c -> con_holds (moved x i e) c.
Proof.
  intros H K. apply gap_holds. apply holds_gap in K.
  assert (E : gap c (moved x i e) == gap c x) by (rewrite gap_moved, (column_unmentioned c i H); ring).
  unfold relation in *. rewrite E. exact K.
Qed.

Lemma moved_boxed p x v e : NoDup (map pv_id (p_vars p)) -> boxed p x -> In v (p_vars p) ->
  pv_lb v <= x (pv_id v) + e -> (forall u, pv_ub v = Some u -> x (pv_id v) + e <= u) -> boxed p (moved x (pv_id v) e).
Proof.
  intros ND B Hv L U w Hw. destruct (Nat.eq_dec (pv_id w) (pv_id v)) as [E|N].
  - assert (w = v) by (apply (NoDup_map_inj pv_id (p_vars p)); auto). subst w. split.
    + now rewrite moved_here.
    + destruct (pv_ub v) as [u|] eqn:Eu; [|exact I]. rewrite moved_here. now apply U.
  - destruct (B w Hw) as [B1 B2]. split; [now rewrite moved_other|]. destruct (pv_ub w); [|exact I]. now rewrite moved_other.
Qed.

(** A variable that could be larger has no negative reduced cost ... *)
Lemma reduced_up p x pi v : NoDup (map pv_id (p_vars p)) -> shadow_prices p x pi -> In v (p_vars p) ->
  (forall u, pv_ub v = Some u -> x (pv_id v) < u) -> 0 <= reduced_cost p pi (pv_id v).
Proof.
  intros ND [[B _] [_ [_ Min]]] Hv U.
  assert (E : exists e, 0 < e /\ forall u, pv_ub v = Some u -> x (pv_id v) + e <= u).
  { destruct (pv_ub v) as [u|].
    - exists (u - x (pv_id v)). specialize (U u eq_refl). split; [lra|]. intros u' E. inversion E. lra.
    - exists 1. split; [lra|discriminate]. }
  destruct E as [e [Pe Ue]]. destruct (B v Hv) as [B1 B2].
  assert (Bx : boxed p (moved x (pv_id v) e)) by (apply moved_boxed; auto; lra).
  specialize (Min _ Bx). rewrite lagrangian_moved in Min.
  destruct (Qlt_le_dec (reduced_cost p pi (pv_id v)) 0) as [N|N]; [exfalso|exact N].
  assert (0 < e * - reduced_cost p pi (pv_id v)) by (apply Qmult_lt_0_compat; lra).
  assert (e * - reduced_cost p pi (pv_id v) == - (e * reduced_cost p pi (pv_id v))) by ring. lra.
Qed.

(** ... and one that could be smaller no positive one. *)
Lemma reduced_down p x pi v : NoDup (map pv_id (p_vars p)) -> shadow_prices p x pi -> In v (p_vars p) ->
  pv_lb v < x (pv_id v) -> reduced_cost p pi (pv_id v) <= 0.
Proof.
  intros ND [[B _] [_ [_ Min]]] Hv L. set (e := x (pv_id v) - pv_lb v). assert (Pe : 0 < e) by (unfold e; lra).
  destruct (B v Hv) as [B1 B2].
  assert (Bx : boxed p (moved x (pv_id v) (- e))).
  { apply moved_boxed; auto; [unfold e; lra|]. intros u E. rewrite E in B2. lra. }
  specialize (Min _ Bx). rewrite lagrangian_moved in Min.
  destruct (Qlt_le_dec 0 (reduced_cost p pi (pv_id v))) as [N|N]; [exfalso|exact N].
  assert (0 < e * reduced_cost p pi (pv_id v)) by (apply Qmult_lt_0_compat; lra).
  assert (- e * reduced_cost p pi (pv_id v) == - (e * reduced_cost p pi (pv_id v))) by ring. lra.
Qed.

(** ** Sums over constraints and over their ids *)

Lemma sum_by_key {A} (key : A -> nat) (f : A -> Q) (l : list A) (cs : list pcon) : NoDup (map pc_id cs) ->
  (forall a, In a l -> exists c, In c cs /\ pc_id c = key a) ->
  sumQ (fun c => sumQ (fun a => if Nat.eqb (key a) (pc_id c) then f a else 0) l) cs == sumQ f l.
Proof.
  intros ND H. rewrite sumQ_swap. apply sumQ_ext_in. intros i Hi. destruct (H i Hi) as [c [Hc E]].
  rewrite (sumQ_pick (fun _ => f i) (fun c' => Nat.eqb (key i) (pc_id c')) c); auto.
  - reflexivity.
  - now apply Nat.eqb_eq.
  - intros b Hb Eb. apply Nat.eqb_eq in Eb. apply (NoDup_map_inj pc_id cs); auto. congruence.
  - now apply NoDup_map_inv in ND.
Qed.
Lemma sum_by_id (f : nat -> Q) (ids : list nat) (cs : list pcon) : NoDup (map pc_id cs) ->
  (forall i, In i ids -> exists c, In c cs /\ pc_id c = i) ->
  sumQ (fun c => sumQ (fun i => if Nat.eqb i (pc_id c) then f i else 0) ids) cs == sumQ f ids.
Proof. exact (sum_by_key (fun i => i) f ids cs). Qed.
