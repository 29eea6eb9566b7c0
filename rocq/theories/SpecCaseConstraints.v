(** What the constraints of a case file say about the dispatch of a market. *)

From Coq Require Import QArith String List Bool.
Import ListNotations.
From Verif Require Import PandasModel TablesModel MarketModel ConstraintsModel SpecLp SpecDispatch SpecNetwork SpecConstraints.
Open Scope string_scope.
Open Scope list_scope.

(** The service that a trade type is for. *)
Definition service_for (trade : string) : string :=
  match trade with
  | "R5RE" => "raise_reg" | "L5RE" => "lower_reg"
  | "R1SE" => "raise_1s" | "L1SE" => "lower_1s"
  | "R6SE" => "raise_6s" | "L6SE" => "lower_6s"
  | "R60S" => "raise_60s" | "L60S" => "lower_60s"
  | "R5MI" => "raise_5min" | "L5MI" => "lower_5min"
  | _ => "energy"
  end.

Definition traders_of (c : case_constraint) : list factor_row := match cc_lhs c with Some l => lf_traders l | None => [] end.
Definition links_of (c : case_constraint) : list inter_factor := match cc_lhs c with Some l => lf_inters l | None => [] end.

(** The terms of units and interconnectors of a constraint. *)
Definition terms_value (m : market) (x : assignment) (c : case_constraint) : Q :=
  qsum (map (fun f => fa_coef f * unit_output m x (fa_of f) (service_for (fa_trade f))) (traders_of c))
  + qsum (map (fun f => if_coef f * interconnector_flow m x (if_inter f)) (links_of c)).
(** The terms of regions, without their factors. *)
Definition regions_supply (m : market) (x : assignment) (c : case_constraint) : Q :=
  qsum (map (fun f => region_supply m x (fa_of f) (service_for (fa_trade f))) (regions_of c)).

(** Some term of the constraint stands for a variable of the market. *)
Definition has_term (m : market) (c : case_constraint) : Prop :=
  (exists f d, In f (traders_of c) /\ registered (m_cfg m) (fa_of f) d /\ offers m (fa_of f) (service_for (fa_trade f)) d)
  \/ (exists f v, In f (links_of c) /\ In v (rows_or_nil (m_inter m)) /\ iv_inter v = if_inter f).
(** The same for its terms of regions. *)
Definition has_regional_term (m : market) (c : case_constraint) : Prop :=
  exists f, In f (regions_of c) /\ region_offers m (fa_of f) (service_for (fa_trade f)).
