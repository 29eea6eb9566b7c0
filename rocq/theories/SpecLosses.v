(** Dispatch apart from the weights that the losses are built with. *)

From Coq Require Import QArith String List Bool Arith ZArith.
Import ListNotations.
From Verif Require Import PandasModel TablesModel MarketModel SolverModel SpecLp.
Open Scope string_scope.
Open Scope list_scope.

(** [y] is [x] up to the interpolation weights. *)
Definition same_but_weights (m : market) (x y : assignment) : Prop :=
  forall i, (forall w, In w (rows_or_nil (m_weights m)) -> wv_id w <> i) -> y i == x i.
