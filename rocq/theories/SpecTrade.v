(** What units are paid and what running costs them. *)

From Coq Require Import QArith String List Bool Arith.
Import ListNotations.
From Verif Require Import PandasModel TablesModel MarketModel SolverModel SpecLp SpecHistory SpecDispatch SpecPrices SpecDual.
Open Scope string_scope.
Open Scope list_scope.

(** From [x] to [y] only bids of units in the group change. *)
Definition only_group (m : market) (group : string -> bool) (x y : assignment) : Prop :=
  (forall v, In v (rows_or_nil (m_bids m)) -> group (bv_unit v) = false -> y (bv_id v) == x (bv_id v))
  /\ (forall n, (forall v, In v (rows_or_nil (m_bids m)) -> bv_id v <> n) -> y n == x n).

(** What one side of a unit is paid for energy and for reserves at the prices of its
    region; a load pays for energy. *)
Definition energy_income (m : market) (x : assignment) (pe : list (string * Q)) (ui : unit_info_row) : Q :=
  qsum (map (fun a => earns "energy" (ui_dt ui) (snd a) * dispatch m x (ui_unit ui) "energy" (ui_dt ui))
    (filter (fun a => String.eqb (fst a) (ui_region ui)) pe)).
Definition fcas_income (m : market) (x : assignment) (pf : list ((string * string) * Q)) (ui : unit_info_row) : Q :=
  qsum (map (fun a => snd a * dispatch m x (ui_unit ui) (snd (fst a)) (ui_dt ui))
    (filter (fun a => String.eqb (fst (fst a)) (ui_region ui)) pf)).
Definition income (c : config) (m : market) (group : string -> bool) (pe : list (string * Q)) (pf : list ((string * string) * Q))
  (x : assignment) : Q :=
  qsum (map (fun ui => energy_income m x pe ui + fcas_income m x pf ui) (filter (fun ui => group (ui_unit ui)) (c_ui c))).

(** What the group asks for its dispatch by its own price bids. *)
Definition asked (c : config) (m : market) (tp : bid_table) (group : string -> bool) (x : assignment) : Q :=
  bids_cost c m (BidTable (bt_bands tp) (filter (fun r => group (br_unit r)) (bt_rows tp))) x.
Definition profit (c : config) (m : market) (tp : bid_table) (group : string -> bool) (pe : list (string * Q))
  (pf : list ((string * string) * Q)) (x : assignment) : Q :=
  income c m group pe pf x - asked c m tp group x.
