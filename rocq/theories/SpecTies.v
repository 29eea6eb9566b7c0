(** Tied bids and what the tie-break constraints should do. *)

From Coq Require Import QArith String List Bool Arith.
Import ListNotations.
From Verif Require Import PandasModel TablesModel MarketModel SolverModel SpecLp SpecHistory SpecPrices SpecElastic.
Open Scope string_scope.
Open Scope list_scope.

(** Bid [v] offers energy at [q] per MW, at the regional reference node, and its
    unit is in region [r]. *)
Definition energy_offer (c : config) (tp : bid_table) (m : market) (v : bidvar) (q : Q) (r : string) : Prop :=
  In v (rows_or_nil (m_bids m)) /\ bv_service v = "energy"
  /\ (exists p u, offered tp (bv_unit v) "energy" (bv_dt v) (bv_band v) p /\ In u (c_ui c) /\ ui_unit u = bv_unit v
        /\ ui_dt u = bv_dt v /\ q == mw_cost (ui_lf u) "energy" (bv_dt v) p)
  /\ exists u, In u (c_ui c) /\ ui_unit u = bv_unit v /\ ui_region u = r.

(** Energy bids of different units at the same cost in the same region, on the
    same side of the market. *)
Definition tied (c : config) (tp : bid_table) (m : market) (v w : bidvar) : Prop :=
  bv_unit v <> bv_unit w /\ bv_dt v = bv_dt w
  /\ exists q r, energy_offer c tp m v q r /\ energy_offer c tp m w q r.

(** The text that the code keeps one pair of: unit and band names, sorted and
    put together. *)
Definition label (v w : bidvar) : string :=
  String.concat "" (sort_rows String.leb [bv_unit v; bv_band v; bv_unit w; bv_band w]).

(** Pairs of tied bids have different labels. *)
Definition clear_labels (c : config) (tp : bid_table) (m : market) : Prop :=
  forall v w v' w', tied c tp m v w -> tied c tp m v' w' -> label v w = label v' w' -> (v, w) = (v', w') \/ (v, w) = (w', v').

(** Constraint [i] is in the problem and, while the violation variables of the
    group are not used, holds exactly if both bids are dispatched in the same
    proportion of their volumes. *)
Definition compares (m : market) (i : nat) (v w : bidvar) : Prop :=
  forall p, assemble m = Ok p -> exists con, In con (p_cons p) /\ pc_id con = i
    /\ forall x, no_violation m "tie_break" x ->
         (con_holds x con <-> x (bv_id v) / bv_ub v == x (bv_id w) / bv_ub w).

(** The constraints of the group, each with the pair of tied bids that it is for:
    every tied pair, or another pair with its label, has one. *)
Definition tie_list (c : config) (tp : bid_table) (m' m : market) (pairs : list (nat * (bidvar * bidvar))) : Prop :=
  (exists g, dget "tie_break" (m_rhs m) = Some g /\ map cr_id g = map fst pairs)
  /\ NoDup (map fst pairs) /\ NoDup (map (fun p => label (fst (snd p)) (snd (snd p))) pairs)
  /\ (forall i v w, In (i, (v, w)) pairs -> tied c tp m' v w /\ (0 < bv_ub v -> 0 < bv_ub w -> compares m i v w))
  /\ (forall v w, tied c tp m' v w -> exists i v' w', In (i, (v', w')) pairs /\ label v' w' = label v w).
