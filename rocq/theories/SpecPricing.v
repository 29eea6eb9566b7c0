(** The pricing run and the over-constrained re-run. *)

From Coq Require Import QArith Qabs String List Bool ZArith Permutation Sorted.
Import ListNotations.
From Verif Require Import PandasModel TablesModel MarketModel SolverModel SpecLp SpecHistory SpecElastic SpecNetwork.
Open Scope string_scope.
Open Scope list_scope.

(** [sort] puts pairs in the order of their first parts. *)
Definition sorts (sort : list (Q * nat) -> list (Q * nat)) : Prop :=
  forall l, Permutation l (sort l) /\ StronglySorted (fun a b => fst a <= fst b) (sort l).

(** No gap between neighbouring break points of the link is longer than the next
    two gaps on either side together (where there are two). *)
Definition balanced (d : inter_row) (bps : list bp_row) : Prop :=
  forall a b e e', adjacent d bps a b -> In e bps -> In e' bps -> at_link d e = true -> at_link d e' = true ->
    (bp_point b < bp_point e -> bp_point e < bp_point e' -> bp_point b - bp_point a <= bp_point e' - bp_point b)
    /\ (bp_point e' < bp_point e -> bp_point e < bp_point a -> bp_point b - bp_point a <= bp_point a - bp_point e').

(** Every link with break points has a loss function. *)
Definition all_losses (lf : list lossfn_row) (bps : list bp_row) : Prop :=
  forall b, In b bps -> exists f, In f lf /\ lf_inter f = bp_inter b /\ lf_link f = bp_link b.

(** ** The over-constrained re-run *)

(** The groups that are relaxed: of the two, those with a violation above 0.0001. *)
Definition relaxed (m : market) (x : assignment) (k : string) : Prop :=
  (k = "generic" \/ k = "fcas") /\ exists i, In i (violation_vars m k) /\ (1 # 10000) < Qabs (x i).

(** Every constraint of the group is elastic. *)
Definition all_elastic (c : config) (k : string) (m : market) (g : list crow) : Prop :=
  exists v, made_elastic c k v m /\ once v /\ group m k = Some g /\ g <> []
    /\ forall r, In r g -> exists q, cost_of v r q.

(** [y] is [x] without the violations of the relaxed groups. *)
Definition without (m : market) (x y : assignment) : Prop :=
  (forall k i, relaxed m x k -> In i (violation_vars m k) -> y i == 0)
  /\ (forall i, (forall k, relaxed m x k -> ~ In i (violation_vars m k)) -> y i == x i).

(** The same constraint with another right-hand side. *)
Definition same_lhs (a b : pcon) : Prop := pc_id a = pc_id b /\ pc_type a = pc_type b /\ pc_terms a = pc_terms b.

(** The relaxation a constraint with violation [d] is to get. *)
Definition allowance (d : Q) : Q := if Qeq_bool d 0 then 0 else d + (1 # 100).
