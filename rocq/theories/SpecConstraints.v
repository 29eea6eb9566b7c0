(** The constraints of a case file described without the tables nempy builds. *)

From Coq Require Import QArith String List.
Import ListNotations.
From Verif Require Import PandasModel ConstraintsModel.
Open Scope string_scope.
Open Scope list_scope.

(** A constraint of the case file is invoked if the dispatch run that is not an
    intervention run has a solution for it. *)
Definition invoked (x : case_file) (c : case_constraint) (rhs : Q) : Prop :=
  In c (cf_constraints x) /\ exists s, In s (cf_solutions x) /\ cs_id s = cc_id c /\ cs_intervention s = "0" /\ cs_rhs s = rhs.

Definition regions_of (c : case_constraint) : list factor_row :=
  match cc_lhs c with Some l => lf_regions l | None => [] end.

(** The relation a type stands for. *)
Definition type_symbol (ty symbol : string) : Prop :=
  (ty = "LE" /\ symbol = "<=") \/ (ty = "EQ" /\ symbol = "=") \/ (ty = "GE" /\ symbol = ">=").

(** The service a trade type stands for. *)
Definition trade_service (trade service : string) : Prop :=
  (In trade ["ENOF"; "LDOF"; "DROF"; "BDOF"] /\ service = "energy")
  \/ In (trade, service) [("L5RE", "lower_reg"); ("R5RE", "raise_reg"); ("R5MI", "raise_5min"); ("L5MI", "lower_5min");
                          ("R60S", "raise_60s"); ("L60S", "lower_60s"); ("R6SE", "raise_6s"); ("L6SE", "lower_6s");
                          ("R1SE", "raise_1s"); ("L1SE", "lower_1s")].

(** Constraint ids are not repeated, neither in the inputs nor among the solutions of
    the run. *)
Definition unique_ids (x : case_file) : Prop :=
  NoDup (map cc_id (cf_constraints x))
  /\ NoDup (map cs_id (filter (fun s => String.eqb (cs_intervention s) "0") (cf_solutions x))).

(** The types and trade types are known. *)
Definition known_names (x : case_file) : Prop :=
  (forall c rhs, invoked x c rhs -> exists s, type_symbol (cc_type c) s)
  /\ (forall c l f, In c (cf_constraints x) -> cc_lhs c = Some l -> In f (lf_regions l ++ lf_traders l) -> exists s, trade_service (fa_trade f) s).
