(** The id columns of a market's tables. *)

From Coq Require Import QArith String List.
Import ListNotations.
From Verif Require Import PandasModel TablesModel MarketModel.
Open Scope string_scope.
Open Scope list_scope.

(** The variable_id column of every decision variable table: bids,
    interconnector flows, losses, interpolation weights, violation variables. *)
Definition variable_ids (m : market) : list nat :=
  map bv_id (rows_or_nil (m_bids m)) ++ map iv_id (rows_or_nil (m_inter m))
  ++ map lv_id (rows_or_nil (m_loss m)) ++ map wv_id (rows_or_nil (m_weights m))
  ++ map df_id (dconcat (m_deficits m)).

(** The constraint_id column of every right-hand-side table: unit level and
    generic groups, regional groups, groups whose right-hand side is a variable. *)
Definition constraint_ids (m : market) : list nat :=
  map cr_id (dconcat (m_rhs m)) ++ map cr_id (dconcat (m_mrhs m))
  ++ map dy_id (rows_or_nil (m_dyn m)).

(** The history never calls set_generic_constraints with an empty table. *)
Definition no_empty_generic (ops : list op) : Prop :=
  forall l v, In (OpGeneric l v) ops -> l <> [].
