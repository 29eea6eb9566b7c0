(** What is expected of the solver, and of what dispatch records. *)

From Coq Require Import QArith Qabs String List Bool Arith.
Import ListNotations.
From Verif Require Import PandasModel TablesModel MarketModel SolverModel PricingModel DispatchModel
  SpecLp SpecHistory SpecElastic SpecPricing SpecDual.
Open Scope string_scope.
Open Scope list_scope.

(** Solutions are optimal, prices are shadow prices, sorting sorts. *)
Definition sound (s : solver) : Prop :=
  (forall p x, sv_mip s p = Some x -> optimal p x)
  /\ (forall q y pi, sv_lin s q = Some (y, pi) -> shadow_prices q y pi)
  /\ sorts (sv_sort s).
(** A problem without an answer has no optimal point. *)
Definition complete_at (s : solver) (p : problem) : Prop := sv_mip s p = None -> ~ exists x, optimal p x.

(** Every group of market constraints has the prices [pi] recorded for its rows. *)
Definition prices_recorded (m : market) (r : recorded) (pi : nat -> Q) : Prop :=
  forall k rows, dget k (m_mrhs m) = Some rows -> dget k (d_prices r) = Some (map (fun w => (cr_id w, pi (cr_id w))) rows).

(** The size of a slack is the distance of the constraint from being tight; its sign is
    the solver's convention. *)
Definition distance (p : problem) (x : assignment) (i : nat) (d : Q) : Prop :=
  forall con, In con (p_cons p) -> pc_id con = i -> Qabs d == Qabs (rhs_value (pc_rhs con) x - linear (pc_terms con) x).

(** All three price limits were given. *)
Definition limits_given (a : dispatch_args) : bool :=
  match da_ceiling a, da_floor a, da_fcas a with Some _, Some _, Some _ => true | _, _, _ => false end.

(** Price limits were given, one of the prices is at or beyond its limit, and a
    generic or FCAS constraint is violated by more than 0.0001. *)
Definition beyond_limits (a : dispatch_args) (m : market) (pi : nat -> Q) : Prop :=
  exists ec ef fc, da_ceiling a = Some ec /\ da_floor a = Some ef /\ da_fcas a = Some fc
    /\ ((exists rows r, dget "fcas" (m_mrhs m) = Some rows /\ In r rows /\ fc <= pi (cr_id r))
        \/ (exists rows r, dget "demand" (m_mrhs m) = Some rows /\ In r rows /\ (ec <= pi (cr_id r) \/ pi (cr_id r) <= ef))).
Definition rerun_due (a : dispatch_args) (m : market) (x : assignment) (pi : nat -> Q) : Prop :=
  da_rerun a = true /\ beyond_limits a m pi /\ exists k, relaxed m x k.

(** The problems priced for the dispatch [x]: the linear problem, or its relaxation. *)
Definition priced_by (sort : list near -> list near) (m : market) (p : problem) (x : assignment) (q : problem) : Prop :=
  q = pricing_problem sort m x p
  \/ exists ec ef fc prices, rerun_problem ec ef fc prices m x (pricing_problem sort m x p) = Some q.

(** [p] without the constraints named. *)
Definition without_cons (p : problem) (gone : list nat) : problem :=
  Problem (p_vars p) (p_obj p) (filter (fun d => negb (existsb (Nat.eqb (pc_id d)) gone)) (p_cons p)) (p_sos2 p) (p_sos1 p).
(** No special ordered sets. *)
Definition no_sets (p : problem) : Prop := p_sos2 p = [] /\ p_sos1 p = [].
