(** Solvers that answer given problems, for the examples. *)

From Coq Require Import QArith String List Bool Arith.
Import ListNotations.
From Verif Require Import PandasModel TablesModel MarketModel SolverModel PricingModel DispatchModel
  SpecLp SpecNetwork SpecPricing SpecPrices SpecDual SpecSolver CheckDualFacts.
Open Scope string_scope.
Open Scope list_scope.

Definition problem_eq_dec (a b : problem) : {a = b} + {a <> b}.
Proof. repeat decide equality. Defined.

(** Answers by problem. *)
Fixpoint answer {A : Type} (l : list (problem * A)) (p : problem) : option A :=
  match l with
  | [] => None
  | (q, a) :: t => if problem_eq_dec p q then Some a else answer t p
  end.
Lemma answer_in {A : Type} (l : list (problem * A)) p a : answer l p = Some a -> In (p, a) l.
Proof.
  induction l as [|[q b] t IH]; cbn [answer]; [discriminate|]. destruct (problem_eq_dec p q) as [->|_].
  - intros H. injection H as ->. now left.
  - intros H. right. now apply IH.
Qed.

Definition table_solver (mip : list (problem * (nat -> Q))) (lin : list (problem * ((nat -> Q) * (nat -> Q)))) (sort : list near -> list near) : solver :=
  Solver (answer mip) (answer lin) sort.
Lemma table_sound mip lin sort : sorts sort -> (forall p x, In (p, x) mip -> optimal p x) ->
  (forall q y pi, In (q, (y, pi)) lin -> shadow_prices q y pi) -> sound (table_solver mip lin sort).
Proof.
  intros S M L. split; [|split; [|exact S]]; cbn [table_solver sv_mip sv_lin].
  - intros p x H. apply M. now apply answer_in.
  - intros q y pi H. apply L. now apply answer_in.
Qed.

(** The only constraints that mention a band are the balance of its region. *)
Definition only_balance (m : market) (p : problem) (u s d b r : string) : bool :=
  forallb (fun w => forallb (fun con => negb (mentionsb con (bv_id w)) || balance_conb m r con) (p_cons p)) (band_vars m u s d b).
Lemma only_balance_ok m p u s d b r : only_balance m p u s d b r = true ->
  forall w con, In w (band_vars m u s d b) -> In con (p_cons p) -> mentions con (bv_id w) -> balance_con m r con.
Proof.
  unfold only_balance. rewrite forallb_forall. intros H w con Hw Hc M. specialize (H w Hw). rewrite forallb_forall in H.
  specialize (H con Hc). rewrite (mentionsb_of con _ M) in H. now apply balance_conb_ok.
Qed.
