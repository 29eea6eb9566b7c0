(** Model of the SpotMarket class of /repo/src/nempy/markets.py: the state and the market
    building methods.  Definitions only.

    A method is a function [market -> market * option err]: the market returned
    is the state the python object is left in, also when an exception is raised.

    Simplification: the next constraint id becomes NaN after
    set_generic_constraints is called with an empty table (/repo/src/nempy/markets.py:2360).
    Constraint rows made afterwards carry a NaN id.  No join or groupby of
    [dispatch] matches such rows (/repo/src/nempy/spot_market_backend/solver_interface.py:213-215), so the model
    stores no rows for them.  The deficit variables that python still makes for
    such rows appear in no constraint; the model makes none. *)

From Coq Require Import QArith String List Bool Arith ZArith.
Import ListNotations.
From Verif Require Import PandasModel TablesModel VariableIdsModel MarketConstraintsModel
  UnitConstraintsModel RampModel FcasModel InterModel ElasticModel.
Open Scope string_scope.
Open Scope list_scope.

(** Arguments of the constructor.  /repo/src/nempy/markets.py:92-136. *)
Record config := Config {
  c_regions : list string; c_ui : list unit_info_row; c_interval : Q }.

(** The state of a SpotMarket, /repo/src/nempy/markets.py:92-139.  Dictionaries whose keys are
    fixed are split into one optional field per key; the others are [dict]s. *)
Record market := Market {
  (* /repo/src/nempy/markets.py:93-94, 110, 136-139 *)
  m_cfg : config;
  (* _decision_variables['bids'], /repo/src/nempy/markets.py:262 *)
  m_bids : option (list bidvar);
  (* _decision_variables['interconnectors'], /repo/src/nempy/markets.py:1998 *)
  m_inter : option (list intervar);
  (* _decision_variables['interconnector_losses'], /repo/src/nempy/markets.py:2257 *)
  m_loss : option (list lossvar);
  (* _decision_variables['interpolation_weights'], /repo/src/nempy/markets.py:2259 *)
  m_weights : option (list weightvar);
  (* _decision_variables['..._deficit'], /repo/src/nempy/markets.py:2737 *)
  m_deficits : dict (list defvar);
  (* _variable_to_constraint_map['regional']['bids'], /repo/src/nempy/markets.py:265 *)
  m_reg_bids : option (list rvrow);
  (* _variable_to_constraint_map['regional']['interconnectors'], /repo/src/nempy/markets.py:1998 *)
  m_reg_inter : option (list irow);
  (* _variable_to_constraint_map['regional']['interconnector_losses'], /repo/src/nempy/markets.py:2258 *)
  m_reg_loss : option (list rvrow);
  (* _variable_to_constraint_map['unit_level']['bids'], /repo/src/nempy/markets.py:266 *)
  m_unit_bids : option (list uvrow);
  (* _constraint_to_variable_map['regional'], /repo/src/nempy/markets.py:1141, 1246 *)
  m_c2v_reg : dict (list rcrow);
  (* _constraint_to_variable_map['unit_level'], /repo/src/nempy/markets.py:528 *)
  m_c2v_unit : dict (list ucrow);
  (* _lhs_coefficients, /repo/src/nempy/markets.py:2260, 2741, 2850 *)
  m_lhs : dict (list lrow);
  (* _generic_constraint_lhs['unit'], /repo/src/nempy/markets.py:2444 *)
  m_gen_unit : option (list gunit_row);
  (* _generic_constraint_lhs['region'], /repo/src/nempy/markets.py:2530 *)
  m_gen_region : option (list gregion_row);
  (* _generic_constraint_lhs['interconnectors'], /repo/src/nempy/markets.py:2607 *)
  m_gen_inter : option (list ginter_row);
  (* _constraints_rhs_and_type, /repo/src/nempy/markets.py:527 *)
  m_rhs : dict (list crow);
  (* _market_constraints_rhs_and_type, /repo/src/nempy/markets.py:1140, 1245 *)
  m_mrhs : dict (list crow);
  (* _constraints_dynamic_rhs_and_type['link_loss_to_flow'], /repo/src/nempy/markets.py:2262 *)
  m_dyn : option (list dynrow);
  (* _objective_function_components['bids'], /repo/src/nempy/markets.py:402 *)
  m_obj_bids : option (list objrow);
  (* _objective_function_components['..._deficit'], /repo/src/nempy/markets.py:2739 *)
  m_obj_def : dict (list costrow);
  (* _interconnector_directions, /repo/src/nempy/markets.py:1996 *)
  m_directions : option (list inter_row);
  (* _interconnector_loss_shares, /repo/src/nempy/markets.py:2217 *)
  m_shares : option (list lossfn_row);
  (* _next_variable_id, /repo/src/nempy/markets.py:267, 2001, 2263, 2742 *)
  m_nv : nat;
  (* _next_constraint_id, /repo/src/nempy/markets.py:529, 2264, 2360; None stands for NaN *)
  m_nc : option nat }.

(** Assignment to _decision_variables['bids'], /repo/src/nempy/markets.py:262. *)
Definition set_m_bids (v : option (list bidvar)) (m : market) : market :=
  Market (m_cfg m) v (m_inter m) (m_loss m) (m_weights m) (m_deficits m) (m_reg_bids m) (m_reg_inter m) (m_reg_loss m) (m_unit_bids m) (m_c2v_reg m) (m_c2v_unit m) (m_lhs m) (m_gen_unit m) (m_gen_region m) (m_gen_inter m) (m_rhs m) (m_mrhs m) (m_dyn m) (m_obj_bids m) (m_obj_def m) (m_directions m) (m_shares m) (m_nv m) (m_nc m).
(** Assignment to _decision_variables['interconnectors'], /repo/src/nempy/markets.py:1998. *)
Definition set_m_inter (v : option (list intervar)) (m : market) : market :=
  Market (m_cfg m) (m_bids m) v (m_loss m) (m_weights m) (m_deficits m) (m_reg_bids m) (m_reg_inter m) (m_reg_loss m) (m_unit_bids m) (m_c2v_reg m) (m_c2v_unit m) (m_lhs m) (m_gen_unit m) (m_gen_region m) (m_gen_inter m) (m_rhs m) (m_mrhs m) (m_dyn m) (m_obj_bids m) (m_obj_def m) (m_directions m) (m_shares m) (m_nv m) (m_nc m).
(** Assignment to _decision_variables['interconnector_losses'], /repo/src/nempy/markets.py:2257. *)
Definition set_m_loss (v : option (list lossvar)) (m : market) : market :=
  Market (m_cfg m) (m_bids m) (m_inter m) v (m_weights m) (m_deficits m) (m_reg_bids m) (m_reg_inter m) (m_reg_loss m) (m_unit_bids m) (m_c2v_reg m) (m_c2v_unit m) (m_lhs m) (m_gen_unit m) (m_gen_region m) (m_gen_inter m) (m_rhs m) (m_mrhs m) (m_dyn m) (m_obj_bids m) (m_obj_def m) (m_directions m) (m_shares m) (m_nv m) (m_nc m).
(** Assignment to _decision_variables['interpolation_weights'], /repo/src/nempy/markets.py:2259. *)
Definition set_m_weights (v : option (list weightvar)) (m : market) : market :=
  Market (m_cfg m) (m_bids m) (m_inter m) (m_loss m) v (m_deficits m) (m_reg_bids m) (m_reg_inter m) (m_reg_loss m) (m_unit_bids m) (m_c2v_reg m) (m_c2v_unit m) (m_lhs m) (m_gen_unit m) (m_gen_region m) (m_gen_inter m) (m_rhs m) (m_mrhs m) (m_dyn m) (m_obj_bids m) (m_obj_def m) (m_directions m) (m_shares m) (m_nv m) (m_nc m).
(** Assignment to _decision_variables['..._deficit'], /repo/src/nempy/markets.py:2737. *)
Definition set_m_deficits (v : dict (list defvar)) (m : market) : market :=
  Market (m_cfg m) (m_bids m) (m_inter m) (m_loss m) (m_weights m) v (m_reg_bids m) (m_reg_inter m) (m_reg_loss m) (m_unit_bids m) (m_c2v_reg m) (m_c2v_unit m) (m_lhs m) (m_gen_unit m) (m_gen_region m) (m_gen_inter m) (m_rhs m) (m_mrhs m) (m_dyn m) (m_obj_bids m) (m_obj_def m) (m_directions m) (m_shares m) (m_nv m) (m_nc m).
(** Assignment to _variable_to_constraint_map['regional']['bids'], /repo/src/nempy/markets.py:265. *)
Definition set_m_reg_bids (v : option (list rvrow)) (m : market) : market :=
  Market (m_cfg m) (m_bids m) (m_inter m) (m_loss m) (m_weights m) (m_deficits m) v (m_reg_inter m) (m_reg_loss m) (m_unit_bids m) (m_c2v_reg m) (m_c2v_unit m) (m_lhs m) (m_gen_unit m) (m_gen_region m) (m_gen_inter m) (m_rhs m) (m_mrhs m) (m_dyn m) (m_obj_bids m) (m_obj_def m) (m_directions m) (m_shares m) (m_nv m) (m_nc m).
(** Assignment to _variable_to_constraint_map['regional']['interconnectors'], /repo/src/nempy/markets.py:1998. *)
Definition set_m_reg_inter (v : option (list irow)) (m : market) : market :=
  Market (m_cfg m) (m_bids m) (m_inter m) (m_loss m) (m_weights m) (m_deficits m) (m_reg_bids m) v (m_reg_loss m) (m_unit_bids m) (m_c2v_reg m) (m_c2v_unit m) (m_lhs m) (m_gen_unit m) (m_gen_region m) (m_gen_inter m) (m_rhs m) (m_mrhs m) (m_dyn m) (m_obj_bids m) (m_obj_def m) (m_directions m) (m_shares m) (m_nv m) (m_nc m).
(** Assignment to _variable_to_constraint_map['regional']['interconnector_losses'], /repo/src/nempy/markets.py:2258. *)
Definition set_m_reg_loss (v : option (list rvrow)) (m : market) : market :=
  Market (m_cfg m) (m_bids m) (m_inter m) (m_loss m) (m_weights m) (m_deficits m) (m_reg_bids m) (m_reg_inter m) v (m_unit_bids m) (m_c2v_reg m) (m_c2v_unit m) (m_lhs m) (m_gen_unit m) (m_gen_region m) (m_gen_inter m) (m_rhs m) (m_mrhs m) (m_dyn m) (m_obj_bids m) (m_obj_def m) (m_directions m) (m_shares m) (m_nv m) (m_nc m).
(** Assignment to _variable_to_constraint_map['unit_level']['bids'], /repo/src/nempy/markets.py:266. *)
Definition set_m_unit_bids (v : option (list uvrow)) (m : market) : market :=
  Market (m_cfg m) (m_bids m) (m_inter m) (m_loss m) (m_weights m) (m_deficits m) (m_reg_bids m) (m_reg_inter m) (m_reg_loss m) v (m_c2v_reg m) (m_c2v_unit m) (m_lhs m) (m_gen_unit m) (m_gen_region m) (m_gen_inter m) (m_rhs m) (m_mrhs m) (m_dyn m) (m_obj_bids m) (m_obj_def m) (m_directions m) (m_shares m) (m_nv m) (m_nc m).
(** Assignment to _constraint_to_variable_map['regional'], /repo/src/nempy/markets.py:1141, 1246. *)
Definition set_m_c2v_reg (v : dict (list rcrow)) (m : market) : market :=
  Market (m_cfg m) (m_bids m) (m_inter m) (m_loss m) (m_weights m) (m_deficits m) (m_reg_bids m) (m_reg_inter m) (m_reg_loss m) (m_unit_bids m) v (m_c2v_unit m) (m_lhs m) (m_gen_unit m) (m_gen_region m) (m_gen_inter m) (m_rhs m) (m_mrhs m) (m_dyn m) (m_obj_bids m) (m_obj_def m) (m_directions m) (m_shares m) (m_nv m) (m_nc m).
(** Assignment to _constraint_to_variable_map['unit_level'], /repo/src/nempy/markets.py:528. *)
Definition set_m_c2v_unit (v : dict (list ucrow)) (m : market) : market :=
  Market (m_cfg m) (m_bids m) (m_inter m) (m_loss m) (m_weights m) (m_deficits m) (m_reg_bids m) (m_reg_inter m) (m_reg_loss m) (m_unit_bids m) (m_c2v_reg m) v (m_lhs m) (m_gen_unit m) (m_gen_region m) (m_gen_inter m) (m_rhs m) (m_mrhs m) (m_dyn m) (m_obj_bids m) (m_obj_def m) (m_directions m) (m_shares m) (m_nv m) (m_nc m).
(** Assignment to _lhs_coefficients, /repo/src/nempy/markets.py:2260, 2741, 2850. *)
Definition set_m_lhs (v : dict (list lrow)) (m : market) : market :=
  Market (m_cfg m) (m_bids m) (m_inter m) (m_loss m) (m_weights m) (m_deficits m) (m_reg_bids m) (m_reg_inter m) (m_reg_loss m) (m_unit_bids m) (m_c2v_reg m) (m_c2v_unit m) v (m_gen_unit m) (m_gen_region m) (m_gen_inter m) (m_rhs m) (m_mrhs m) (m_dyn m) (m_obj_bids m) (m_obj_def m) (m_directions m) (m_shares m) (m_nv m) (m_nc m).
(** Assignment to _generic_constraint_lhs['unit'], /repo/src/nempy/markets.py:2444. *)
Definition set_m_gen_unit (v : option (list gunit_row)) (m : market) : market :=
  Market (m_cfg m) (m_bids m) (m_inter m) (m_loss m) (m_weights m) (m_deficits m) (m_reg_bids m) (m_reg_inter m) (m_reg_loss m) (m_unit_bids m) (m_c2v_reg m) (m_c2v_unit m) (m_lhs m) v (m_gen_region m) (m_gen_inter m) (m_rhs m) (m_mrhs m) (m_dyn m) (m_obj_bids m) (m_obj_def m) (m_directions m) (m_shares m) (m_nv m) (m_nc m).
(** Assignment to _generic_constraint_lhs['region'], /repo/src/nempy/markets.py:2530. *)
Definition set_m_gen_region (v : option (list gregion_row)) (m : market) : market :=
  Market (m_cfg m) (m_bids m) (m_inter m) (m_loss m) (m_weights m) (m_deficits m) (m_reg_bids m) (m_reg_inter m) (m_reg_loss m) (m_unit_bids m) (m_c2v_reg m) (m_c2v_unit m) (m_lhs m) (m_gen_unit m) v (m_gen_inter m) (m_rhs m) (m_mrhs m) (m_dyn m) (m_obj_bids m) (m_obj_def m) (m_directions m) (m_shares m) (m_nv m) (m_nc m).
(** Assignment to _generic_constraint_lhs['interconnectors'], /repo/src/nempy/markets.py:2607. *)
Definition set_m_gen_inter (v : option (list ginter_row)) (m : market) : market :=
  Market (m_cfg m) (m_bids m) (m_inter m) (m_loss m) (m_weights m) (m_deficits m) (m_reg_bids m) (m_reg_inter m) (m_reg_loss m) (m_unit_bids m) (m_c2v_reg m) (m_c2v_unit m) (m_lhs m) (m_gen_unit m) (m_gen_region m) v (m_rhs m) (m_mrhs m) (m_dyn m) (m_obj_bids m) (m_obj_def m) (m_directions m) (m_shares m) (m_nv m) (m_nc m).
(** Assignment to _constraints_rhs_and_type, /repo/src/nempy/markets.py:527. *)
Definition set_m_rhs (v : dict (list crow)) (m : market) : market :=
  Market (m_cfg m) (m_bids m) (m_inter m) (m_loss m) (m_weights m) (m_deficits m) (m_reg_bids m) (m_reg_inter m) (m_reg_loss m) (m_unit_bids m) (m_c2v_reg m) (m_c2v_unit m) (m_lhs m) (m_gen_unit m) (m_gen_region m) (m_gen_inter m) v (m_mrhs m) (m_dyn m) (m_obj_bids m) (m_obj_def m) (m_directions m) (m_shares m) (m_nv m) (m_nc m).
(** Assignment to _market_constraints_rhs_and_type, /repo/src/nempy/markets.py:1140, 1245. *)
Definition set_m_mrhs (v : dict (list crow)) (m : market) : market :=
  Market (m_cfg m) (m_bids m) (m_inter m) (m_loss m) (m_weights m) (m_deficits m) (m_reg_bids m) (m_reg_inter m) (m_reg_loss m) (m_unit_bids m) (m_c2v_reg m) (m_c2v_unit m) (m_lhs m) (m_gen_unit m) (m_gen_region m) (m_gen_inter m) (m_rhs m) v (m_dyn m) (m_obj_bids m) (m_obj_def m) (m_directions m) (m_shares m) (m_nv m) (m_nc m).
(** Assignment to _constraints_dynamic_rhs_and_type['link_loss_to_flow'], /repo/src/nempy/markets.py:2262. *)
Definition set_m_dyn (v : option (list dynrow)) (m : market) : market :=
  Market (m_cfg m) (m_bids m) (m_inter m) (m_loss m) (m_weights m) (m_deficits m) (m_reg_bids m) (m_reg_inter m) (m_reg_loss m) (m_unit_bids m) (m_c2v_reg m) (m_c2v_unit m) (m_lhs m) (m_gen_unit m) (m_gen_region m) (m_gen_inter m) (m_rhs m) (m_mrhs m) v (m_obj_bids m) (m_obj_def m) (m_directions m) (m_shares m) (m_nv m) (m_nc m).
(** Assignment to _objective_function_components['bids'], /repo/src/nempy/markets.py:402. *)
Definition set_m_obj_bids (v : option (list objrow)) (m : market) : market :=
  Market (m_cfg m) (m_bids m) (m_inter m) (m_loss m) (m_weights m) (m_deficits m) (m_reg_bids m) (m_reg_inter m) (m_reg_loss m) (m_unit_bids m) (m_c2v_reg m) (m_c2v_unit m) (m_lhs m) (m_gen_unit m) (m_gen_region m) (m_gen_inter m) (m_rhs m) (m_mrhs m) (m_dyn m) v (m_obj_def m) (m_directions m) (m_shares m) (m_nv m) (m_nc m).
(** Assignment to _objective_function_components['..._deficit'], /repo/src/nempy/markets.py:2739. *)
Definition set_m_obj_def (v : dict (list costrow)) (m : market) : market :=
  Market (m_cfg m) (m_bids m) (m_inter m) (m_loss m) (m_weights m) (m_deficits m) (m_reg_bids m) (m_reg_inter m) (m_reg_loss m) (m_unit_bids m) (m_c2v_reg m) (m_c2v_unit m) (m_lhs m) (m_gen_unit m) (m_gen_region m) (m_gen_inter m) (m_rhs m) (m_mrhs m) (m_dyn m) (m_obj_bids m) v (m_directions m) (m_shares m) (m_nv m) (m_nc m).
(** Assignment to _interconnector_directions, /repo/src/nempy/markets.py:1996. *)
Definition set_m_directions (v : option (list inter_row)) (m : market) : market :=
  Market (m_cfg m) (m_bids m) (m_inter m) (m_loss m) (m_weights m) (m_deficits m) (m_reg_bids m) (m_reg_inter m) (m_reg_loss m) (m_unit_bids m) (m_c2v_reg m) (m_c2v_unit m) (m_lhs m) (m_gen_unit m) (m_gen_region m) (m_gen_inter m) (m_rhs m) (m_mrhs m) (m_dyn m) (m_obj_bids m) (m_obj_def m) v (m_shares m) (m_nv m) (m_nc m).
(** Assignment to _interconnector_loss_shares, /repo/src/nempy/markets.py:2217. *)
Definition set_m_shares (v : option (list lossfn_row)) (m : market) : market :=
  Market (m_cfg m) (m_bids m) (m_inter m) (m_loss m) (m_weights m) (m_deficits m) (m_reg_bids m) (m_reg_inter m) (m_reg_loss m) (m_unit_bids m) (m_c2v_reg m) (m_c2v_unit m) (m_lhs m) (m_gen_unit m) (m_gen_region m) (m_gen_inter m) (m_rhs m) (m_mrhs m) (m_dyn m) (m_obj_bids m) (m_obj_def m) (m_directions m) v (m_nv m) (m_nc m).
(** Assignment to _next_variable_id, /repo/src/nempy/markets.py:267, 2001, 2263, 2742. *)
Definition set_m_nv (v : nat) (m : market) : market :=
  Market (m_cfg m) (m_bids m) (m_inter m) (m_loss m) (m_weights m) (m_deficits m) (m_reg_bids m) (m_reg_inter m) (m_reg_loss m) (m_unit_bids m) (m_c2v_reg m) (m_c2v_unit m) (m_lhs m) (m_gen_unit m) (m_gen_region m) (m_gen_inter m) (m_rhs m) (m_mrhs m) (m_dyn m) (m_obj_bids m) (m_obj_def m) (m_directions m) (m_shares m) v (m_nc m).
(** Assignment to _next_constraint_id, /repo/src/nempy/markets.py:529, 2264, 2360; None stands for NaN. *)
Definition set_m_nc (v : option nat) (m : market) : market :=
  Market (m_cfg m) (m_bids m) (m_inter m) (m_loss m) (m_weights m) (m_deficits m) (m_reg_bids m) (m_reg_inter m) (m_reg_loss m) (m_unit_bids m) (m_c2v_reg m) (m_c2v_unit m) (m_lhs m) (m_gen_unit m) (m_gen_region m) (m_gen_inter m) (m_rhs m) (m_mrhs m) (m_dyn m) (m_obj_bids m) (m_obj_def m) (m_directions m) (m_shares m) (m_nv m) v.

(** Units that appear exactly twice in unit_info.
    /repo/src/nempy/markets.py:138-139. *)
Definition count_unit (u : string) (ui : list unit_info_row) : nat :=
  length (filter (fun r => String.eqb (ui_unit r) u) ui).
(** As above.  /repo/src/nempy/markets.py:138-139. *)
Definition bidirectional (ui : list unit_info_row) : list string :=
  filter (fun u => Nat.eqb (count_unit u ui) 2) (keys_of String.eqb (map ui_unit ui)).
(** As above.  /repo/src/nempy/markets.py:138-139. *)
Definition m_bdu (m : market) : list string := bidirectional (c_ui (m_cfg m)).

(** Allowed values.  /repo/src/nempy/markets.py:111-120. *)
Definition allowed_dt : list string := ["generator"; "load"].
(** As above.  /repo/src/nempy/markets.py:111-120. *)
Definition allowed_services : list string :=
  ["energy"; "raise_reg"; "lower_reg"; "raise_5min"; "lower_5min"; "raise_60s";
   "lower_60s"; "raise_6s"; "lower_6s"; "raise_1s"; "lower_1s"].
(** As above.  /repo/src/nempy/markets.py:111-120. *)
Definition allowed_fcas : list string := tl allowed_services.
(** As above.  /repo/src/nempy/markets.py:111-120. *)
Definition allowed_contingency : list string := tl (tl allowed_fcas).
(** As above.  /repo/src/nempy/markets.py:111-120. *)
Definition allowed_regulation : list string := ["raise_reg"; "lower_reg"].
(** As above.  /repo/src/nempy/markets.py:111-120. *)
Definition allowed_types : list string := ["<="; "="; ">="].
(** As above.  /repo/src/nempy/markets.py:111-120. *)
Definition allowed_bands : list string :=
  ["1"; "2"; "3"; "4"; "5"; "6"; "7"; "8"; "9"; "10"].

(** Validation of the typed tables: the first check that fails gives the error.
    Only the checks on values and keys are needed here, the row types already
    guarantee columns and column types (the frame layer covers those).
    /repo/src/nempy/spot_market_backend/dataframe_validator.py:18-37, 60-93. *)
Definition check := (bool * err)%type.
(** As above.  /repo/src/nempy/spot_market_backend/dataframe_validator.py:18-37, 60-93. *)
Fixpoint first_err (l : list check) : option err :=
  match l with
  | [] => None
  | (true, _) :: t => first_err t
  | (false, e) :: _ => Some e
  end.

(** A column check: every row satisfies it.
    /repo/src/nempy/spot_market_backend/dataframe_validator.py:76-93. *)
Definition all_rows {A : Type} (f : A -> bool) (l : list A) : check := (forallb f l, EColumnValues).

(** [_check_for_repeated_rows].
    /repo/src/nempy/spot_market_backend/dataframe_validator.py:34-37. *)
Definition no_repeats {A : Type} (same : A -> A -> bool) (l : list A) : check :=
  (Nat.eqb (length l) (length (drop_duplicates same l)), ERepeatedRow).

(** No negative number.  /repo/src/nempy/spot_market_backend/dataframe_validator.py:90-93. *)
Definition non_neg (q : Q) : bool := Qle_bool 0 q.
(** A unit of the market.
    /repo/src/nempy/spot_market_backend/dataframe_validator.py:76-79,
    /repo/src/nempy/markets.py:136, 271. *)
Definition is_unit (m : market) (u : string) : bool := mem_str u (map ui_unit (c_ui (m_cfg m))).
(** A region of the market.
    /repo/src/nempy/spot_market_backend/dataframe_validator.py:76-79,
    /repo/src/nempy/markets.py:110, 144. *)
Definition is_region (m : market) (r : string) : bool := mem_str r (c_regions (m_cfg m)).

(** [_validate_unit_info].  /repo/src/nempy/markets.py:141-148. *)
Definition check_unit_info (c : config) : option err :=
  first_err
    [ all_rows (fun r => mem_str (ui_region r) (c_regions c)) (c_ui c);
      all_rows (fun r => non_neg (ui_lf r)) (c_ui c);
      all_rows (fun r => mem_str (ui_dt r) allowed_dt) (c_ui c);
      no_repeats (fun a b => String.eqb (ui_unit a) (ui_unit b) && String.eqb (ui_dt a) (ui_dt b))
                 (c_ui c) ].

(** The constructor.  /repo/src/nempy/markets.py:92-139. *)
Definition empty_market (c : config) : market :=
  Market c None None None None [] None None None None [] [] [] None None None [] [] None None []
         None None 0 (Some 0%nat).
(** As above.  /repo/src/nempy/markets.py:92-139. *)
Definition new_market (c : config) : result market :=
  match check_unit_info c with
  | Some e => Err e
  | None => Ok (empty_market c)
  end.

(** Calls: state left behind and exception.
    /repo/src/nempy/markets.py:150-2853. *)
Definition outcome := (market * option err)%type.
(** The call ends with an exception.  /repo/src/nempy/spot_market_backend/dataframe_validator.py:18-37. *)
Definition raise (e : err) (m : market) : outcome := (m, Some e).
(** The call ends without one.  /repo/src/nempy/markets.py:150-2853. *)
Definition done (m : market) : outcome := (m, None).
(** One part of a call after the other.  /repo/src/nempy/markets.py:527-532. *)
Definition andthen (r : outcome) (k : market -> outcome) : outcome :=
  match r with
  | (m, None) => k m
  | (m, Some e) => (m, Some e)
  end.
(** The rest of a call if a check passes.  /repo/src/nempy/markets.py:257, 521. *)
Definition guard (o : option err) (m : market) (k : market -> outcome) : outcome :=
  match o with Some e => raise e m | None => k m end.

(** Bid tables: keys and values.  Duplicate band columns make pandas return a
    table instead of a column, on which the type test raises AttributeError.
    /repo/src/nempy/markets.py:269-281, 406-418. *)
Definition same_bid (a b : bid_row) : bool :=
  String.eqb (br_unit a) (br_unit b) && String.eqb (br_service a) (br_service b)
  && String.eqb (br_dt a) (br_dt b).
(** As above.  /repo/src/nempy/markets.py:269-281, 406-418. *)
Definition check_bids (positive : bool) (m : market) (t : bid_table) : option err :=
  first_err
    [ (forallb (fun b => mem_str b allowed_bands) (bt_bands t), EUnexpectedColumn);
      (mem_str "1" (bt_bands t), EMissingColumn);
      (Nat.eqb (length (bt_bands t)) (length (keys_of String.eqb (bt_bands t))), EAttribute);
      all_rows (fun r => is_unit m (br_unit r)) (bt_rows t);
      all_rows (fun r => mem_str (br_dt r) allowed_dt) (bt_rows t);
      all_rows (fun r => mem_str (br_service r) allowed_services) (bt_rows t);
      (if positive
       then all_rows (fun r => forallb (fun b => non_neg (br_val r b)) (bt_bands t)) (bt_rows t)
       else (true, EColumnValues));
      no_repeats same_bid (bt_rows t) ].

(** [_validate_bidirectional_unit_inputs] on the units of the rows.
    /repo/src/nempy/markets.py:283-292. *)
Definition check_bdu (m : market) (units : list string) : option err :=
  let us := filter (fun u => mem_str u (m_bdu m)) units in
  first_err [ (Nat.eqb (length us) (length (keys_of String.eqb us) * 2), EModelBuild) ].

(** The units with energy bids.  /repo/src/nempy/markets.py:287-289. *)
Definition energy_units (t : bid_table) : list string :=
  map br_unit (filter (fun r => String.eqb (br_service r) "energy") (bt_rows t)).

(** [set_unit_volume_bids].  /repo/src/nempy/markets.py:257-267. *)
Definition set_volume_bids (t : bid_table) (m : market) : outcome :=
  guard (check_bids true m t) m (fun m =>
  guard (check_bdu m (energy_units t)) m (fun m =>
    let vs := bid_variables t (m_nv m) in
    let m := set_m_bids (Some vs) m in
    let m := set_m_reg_bids (Some (bid_regional_map vs (c_ui (m_cfg m)))) m in
    let m := set_m_unit_bids (Some (bid_unit_map vs (c_ui (m_cfg m)) (m_bdu m))) m in
    match next_id (map bv_id vs) with
    | None => raise EValue m
    | Some n => done (set_m_nv n m)
    end)).

(** [_check_unit_volume_bids_set].  /repo/src/nempy/markets.py:420-422. *)
Definition need_bids (m : market) (k : market -> outcome) : outcome :=
  match m_bids m with None => raise EModelBuild m | Some _ => k m end.

(** [set_unit_price_bids].  /repo/src/nempy/markets.py:397-404. *)
Definition set_price_bids (t : bid_table) (m : market) : outcome :=
  match m_bids m with
  | None => raise EModelBuild m
  | Some vs =>
    guard (check_bids false m t) m (fun m =>
    guard (check_bdu m (energy_units t)) m (fun m =>
      done (set_m_obj_bids
              (Some (scale_by_loss_factors (objective_bids vs t) (c_ui (m_cfg m)))) m)))
  end.

(** Argument violation_cost: a number, a table of costs per set, or anything else.
    /repo/src/nempy/markets.py:2727-2733. *)
Inductive vcost : Type :=
| VNum (c : Q)
| VTable (t : list (string * Q))
| VOther.

(** [_validate_violation_cost].  /repo/src/nempy/markets.py:2744-2749. *)
Definition check_vcost (t : list (string * Q)) : option err :=
  first_err [ no_repeats (fun a b => String.eqb (fst a) (fst b) && Qeq_bool (snd a) (snd b)) t ].

(** The set a constraint row belongs to.
    /repo/src/nempy/markets.py:2731. *)
Definition in_set (r : crow) (s : string) : bool :=
  match cr_key r with KSet s' => String.eqb s' s | _ => false end.

(** [constraints_key + '_deficit'].  /repo/src/nempy/markets.py:2737. *)
Definition deficit_key (k : string) : string := (k ++ "_deficit")%string.

(** Groups whose table has a column 'set'.
    /repo/src/nempy/spot_market_backend/market_constraints.py:181, /repo/src/nempy/markets.py:2359. *)
Definition has_set_column (k : string) : bool := String.eqb k "fcas" || String.eqb k "generic".

(** Constraint rows of a key.  /repo/src/nempy/markets.py:2720-2725. *)
Definition group_rows (k : string) (m : market) : option (list crow) :=
  match dget k (m_mrhs m) with
  | Some l => Some l
  | None => dget k (m_rhs m)
  end.

(** The second half of [make_constraints_elastic].
    /repo/src/nempy/markets.py:2735-2742. *)
Definition add_deficits (k : string) (rows : list (crow * Q)) (m : market) : outcome :=
  match rows with
  | [] => done m
  | _ =>
    let n := m_nv m in
    let m := set_m_deficits (dset (deficit_key k) (deficit_variables rows n) (m_deficits m)) m in
    let m := set_m_obj_def (dset (deficit_key k) (deficit_costs rows n) (m_obj_def m)) m in
    let m := set_m_lhs (dset (deficit_key k) (deficit_lhs rows n) (m_lhs m)) m in
    match next_id (map df_id (deficit_variables rows n)) with
    | None => raise EValue m
    | Some n' => done (set_m_nv n' m)
    end
  end.

(** [make_constraints_elastic].  With a table the group must have a column 'set'
    (else KeyError); with anything else the ValueError is built but not raised and
    the missing column 'cost' gives a KeyError.  /repo/src/nempy/markets.py:2720-2742. *)
Definition make_elastic (k : string) (v : vcost) (m : market) : outcome :=
  match group_rows k m with
  | None => raise EModelBuild m
  | Some rows =>
    match v with
    | VNum c => add_deficits k (map (fun r => (r, c)) rows) m
    | VTable t =>
      guard (check_vcost t) m (fun m =>
        if has_set_column k
        then add_deficits k (map (fun p => (fst p, snd (snd p)))
                                 (merge (fun r (s : string * Q) => in_set r (fst s)) rows t)) m
        else raise EKey m)
    | VOther => match rows with [] => done m | _ => raise EKey m end
    end
  end.

(** Constraints become elastic if a cost is given.  /repo/src/nempy/markets.py:531-532. *)
Definition maybe_elastic (k : string) (v : option vcost) (m : market) : outcome :=
  match v with None => done m | Some v => make_elastic k v m end.

(** Save a unit level group and advance the next constraint id:
    [self._constraints_rhs_and_type[k] = ...],
    [self._constraint_to_variable_map['unit_level'][k] = ...],
    [self._next_constraint_id = max(...) + 1].
    /repo/src/nempy/markets.py:527-529 and the same lines of the other methods. *)
Definition put_unit (k : string) (r : list crow) (c : list ucrow) (m : market) : market :=
  set_m_c2v_unit (dset k c (m_c2v_unit m)) (set_m_rhs (dset k r (m_rhs m)) m).
(** As above.  /repo/src/nempy/markets.py:527-529. *)
Definition new_unit_group (k : string) (mk_rhs : nat -> list crow) (mk_map : nat -> list ucrow)
  (m : market) : outcome :=
  match m_nc m with
  | Some n =>
    let m := put_unit k (mk_rhs n) (mk_map n) m in
    match next_id (map cr_id (mk_rhs n)) with
    | None => raise EValue m
    | Some n' => done (set_m_nc (Some n') m)
    end
  | None =>
    let m := put_unit k [] [] m in
    match mk_rhs 0%nat with [] => raise EValue m | _ => done m end
  end.

(** The same for a regional group.  /repo/src/nempy/markets.py:1140-1142, 1245-1247. *)
Definition put_regional (k : string) (r : list crow) (c : list rcrow) (m : market) : market :=
  set_m_c2v_reg (dset k c (m_c2v_reg m)) (set_m_mrhs (dset k r (m_mrhs m)) m).
(** As above.  /repo/src/nempy/markets.py:1140-1142, 1245-1247. *)
Definition new_regional_group (k : string) (mk_rhs : nat -> list crow) (mk_map : nat -> list rcrow)
  (m : market) : outcome :=
  match m_nc m with
  | Some n =>
    let m := put_regional k (mk_rhs n) (mk_map n) m in
    match next_id (map cr_id (mk_rhs n)) with
    | None => raise EValue m
    | Some n' => done (set_m_nc (Some n') m)
    end
  | None =>
    let m := put_regional k [] [] m in
    match mk_rhs 0%nat with [] => raise EValue m | _ => done m end
  end.

(** [_validate_unit_limits], [_validate_uigf_limits].
    /repo/src/nempy/markets.py:534-540, 645-649.  Nulls and infinities, which are
    accepted, are left out of the model. *)
Definition check_limits (m : market) (l : list limit_row) : option err :=
  first_err
    [ all_rows (fun r => is_unit m (li_unit r)) l;
      all_rows (fun r => mem_str (li_dt r) allowed_dt) l;
      no_repeats (fun a b => String.eqb (li_unit a) (li_unit b) && String.eqb (li_dt a) (li_dt b)) l ].
(** As above.  /repo/src/nempy/markets.py:534-540, 645-649. *)
Definition check_uigf (m : market) (l : list uigf_row) : option err :=
  first_err
    [ all_rows (fun r => is_unit m (ug_unit r)) l;
      no_repeats (fun a b => String.eqb (ug_unit a) (ug_unit b)) l ].

(** [set_unit_bid_capacity_constraints].  /repo/src/nempy/markets.py:520-532. *)
Definition set_capacity (l : list limit_row) (v : option vcost) (m : market) : outcome :=
  need_bids m (fun m =>
  guard (check_limits m l) m (fun m =>
  andthen (new_unit_group "unit_bid_capacity" (capacity_rhs l)
             (fun n => capacity_map l n (m_bdu m)) m)
          (maybe_elastic "unit_bid_capacity" v))).

(** [set_unconstrained_intermittent_generation_forecast_constraint].
    /repo/src/nempy/markets.py:635-643. *)
Definition set_uigf (l : list uigf_row) (v : option vcost) (m : market) : outcome :=
  need_bids m (fun m =>
  guard (check_uigf m l) m (fun m =>
  andthen (new_unit_group "uigf_capacity" (uigf_rhs l) (uigf_map l) m)
          (maybe_elastic "uigf_capacity" v))).

(** [_validate_ramp_rates], [_validate_scada_ramp_rates],
    [_validate_fast_start_profiles_for_ramp_rates].
    /repo/src/nempy/markets.py:884-921. *)
Definition check_ramp (m : market) (t : ramp_table) : option err :=
  let l := map ri_row (rt_rows t) in
  first_err
    [ all_rows (fun r => is_unit m (rr_unit r)) l;
      all_rows (fun r => mem_str (rr_dt r) allowed_dt) l;
      no_repeats (fun a b => String.eqb (rr_unit a) (rr_unit b) && String.eqb (rr_dt a) (rr_dt b)) l ].
(** As above.  /repo/src/nempy/markets.py:884-921. *)
Definition check_scada (m : market) (s : scada_table) : option err :=
  first_err
    [ all_rows (fun r => is_unit m (sc_unit r)) (st_rows s);
      no_repeats (fun a b => String.eqb (sc_unit a) (sc_unit b)) (st_rows s) ].
(** As above.  /repo/src/nempy/markets.py:884-921. *)
Definition check_fs_ramp (m : market) (run_type : string) (l : list fs_ramp_row) : option err :=
  first_err
    [ all_rows (fun r => is_unit m (fr_unit r)) l;
      (if String.eqb run_type "fast_start_first_run"
       then all_rows (fun r => Z.leb 0 (fr_current_mode r)) l
       else if String.eqb run_type "fast_start_second_run"
       then all_rows (fun r => Z.leb 0 (fr_end_mode r) && non_neg (fr_min_loading r)
                       && match fr_since_mode_two r with Some t => non_neg t | None => true end) l
       else (true, EColumnValues));
      no_repeats (fun a b => String.eqb (fr_unit a) (fr_unit b)) l ].

(** The fast start table is validated only when given and the run uses it.
    /repo/src/nempy/markets.py:826-827, 1508-1509. *)
Definition check_fs_opt (m : market) (run_type : string) (p : option (list fs_ramp_row)) : option err :=
  match p with
  | Some l => if String.eqb run_type "no_fast_start_units" then None else check_fs_ramp m run_type l
  | None => None
  end.

(** Make a group elastic if it exists.  /repo/src/nempy/markets.py:879-882, 1598-1601. *)
Definition elastic_if_present (k : string) (v : vcost) (m : market) : outcome :=
  if dhas k (m_c2v_unit m) then make_elastic k v m else done m.

(** The ramp limits of ordinary units after SCADA and fast start processing.
    /repo/src/nempy/markets.py:832-847. *)
Definition scada_step (t : ramp_table) (bdu : list string) (s : option scada_table) : list ramp_row :=
  let l := ordinary_ramps (rt_rows t) bdu in
  match s with
  | None => map ri_row l
  | Some s => scada_adjust (rt_has_up t) (rt_has_down t) l s
  end.
(** As above.  /repo/src/nempy/markets.py:832-847. *)
Definition ramp_step (t : ramp_table) (bdu : list string) (s : option scada_table)
  (p : option (list fs_ramp_row)) (run_type : string) (interval : Q) : result (list ramp_row) :=
  fast_start_adjust (scada_step t bdu s) run_type p interval.

(** Net ramp rates of bidirectional units after SCADA processing.
    /repo/src/nempy/markets.py:832-843. *)
Definition bdu_ramp_step (t : ramp_table) (bdu : list string) (s : option scada_table) (interval : Q)
  : list bdu_ramp_row :=
  let l := bdu_ramps (map ri_row (rt_rows t)) bdu interval in
  match s with None => l | Some s => scada_adjust_bdu l s end.

(** [set_unit_ramp_rate_constraints].  /repo/src/nempy/markets.py:823-882. *)
Definition set_ramp (t : ramp_table) (s : option scada_table) (p : option (list fs_ramp_row))
  (run_type : string) (v : option vcost) (m : market) : outcome :=
  guard (check_ramp m t) m (fun m =>
  guard (check_bdu m (map (fun r => rr_unit (ri_row r)) (rt_rows t))) m (fun m =>
  guard (check_fs_opt m run_type p) m (fun m =>
  guard (match s with Some s => check_scada m s | None => None end) m (fun m =>
  let h := c_interval (m_cfg m) in
  match ramp_step t (m_bdu m) s p run_type h with
  | Err e => raise e m
  | Ok l =>
    let b := bdu_ramp_step t (m_bdu m) s h in
    andthen (new_unit_group "ramp_up" (fun n => ramp_up_rhs l n h) (fun n => ramp_up_map l n h) m)
      (fun m =>
    andthen (new_unit_group "ramp_down" (fun n => ramp_down_rhs l n h)
               (fun n => ramp_down_map l n h) m) (fun m =>
    andthen (match b with
             | [] => done m
             | _ =>
               andthen (new_unit_group "bidirectional_ramp_up"
                          (fun n => bdu_ramp_rhs b true n h) (fun n => bdu_ramp_map b n) m)
                 (fun m => new_unit_group "bidirectional_ramp_down"
                          (fun n => bdu_ramp_rhs b false n h) (fun n => bdu_ramp_map b n) m)
             end) (fun m =>
    match v with
    | None => done m
    | Some v =>
      andthen (make_elastic "ramp_up" v m) (fun m =>
      andthen (make_elastic "ramp_down" v m) (fun m =>
      andthen (elastic_if_present "bidirectional_ramp_up" v m) (fun m =>
      elastic_if_present "bidirectional_ramp_down" v m)))
    end)))
  end)))).

(** [_validate_fast_start_profiles].  /repo/src/nempy/markets.py:1049-1062. *)
Definition check_fs (m : market) (l : list fs_row) : option err :=
  first_err
    [ all_rows (fun r => is_unit m (fs_unit r)) l;
      all_rows (fun r => Z.leb 0 (fs_end_mode r)) l;
      all_rows (fun r => non_neg (fs_time_in_end_mode r)) l;
      all_rows (fun r => non_neg (fs_mode_two_length r)) l;
      all_rows (fun r => non_neg (fs_mode_four_length r)) l;
      all_rows (fun r => non_neg (fs_min_loading r)) l;
      no_repeats (fun a b => String.eqb (fs_unit a) (fs_unit b)) l ].

(** [set_fast_start_constraints].  /repo/src/nempy/markets.py:1022-1038. *)
Definition set_fast_start (l : list fs_row) (v : option vcost) (m : market) : outcome :=
  guard (check_fs m l) m (fun m =>
  let p := fs_with_dt (c_ui (m_cfg m)) l in
  match fast_start_rhs p 0 with
  | [] => done m
  | _ =>
    andthen (new_unit_group "fast_start" (fast_start_rhs p) (fast_start_map p) m)
            (maybe_elastic "fast_start" v)
  end).

(** [remove_fast_start_constraints].  /repo/src/nempy/markets.py:1040-1047. *)
Definition remove_fast_start (m : market) : outcome :=
  let m := if dhas "fast_start" (m_rhs m)
           then set_m_c2v_unit (ddel "fast_start" (m_c2v_unit m))
                  (set_m_rhs (ddel "fast_start" (m_rhs m)) m)
           else m in
  let m := if dhas "fast_start_deficit" (m_deficits m)
           then set_m_lhs (ddel "fast_start_deficit" (m_lhs m))
                  (set_m_obj_def (ddel "fast_start_deficit" (m_obj_def m))
                    (set_m_deficits (ddel "fast_start_deficit" (m_deficits m)) m))
           else m in
  done m.

(** [_validate_demand], [_validate_fcas_requirements],
    [_validate_fcas_max_availability].
    /repo/src/nempy/markets.py:1147-1151, 1252-1260, 1351-1359. *)
Definition check_demand (m : market) (l : list demand_row) : option err :=
  first_err
    [ all_rows (fun r => is_region m (de_region r)) l;
      no_repeats (fun a b => String.eqb (de_region a) (de_region b)) l ].
(** As above.  /repo/src/nempy/markets.py:1147-1151, 1252-1260, 1351-1359. *)
Definition check_fcas_req (m : market) (l : list fcas_req_row) : option err :=
  first_err
    [ all_rows (fun r => is_region m (fq_region r)) l;
      all_rows (fun r => mem_str (fq_service r) allowed_services) l;
      all_rows (fun r => mem_str (fq_type r) allowed_types) l;
      no_repeats (fun a b => String.eqb (fq_set a) (fq_set b)
                             && String.eqb (fq_region a) (fq_region b)
                             && String.eqb (fq_service a) (fq_service b)) l ].
(** As above.  /repo/src/nempy/markets.py:1147-1151, 1252-1260, 1351-1359. *)
Definition check_max_avail (m : market) (l : list max_avail_row) : option err :=
  first_err
    [ all_rows (fun r => is_unit m (ma_unit r)) l;
      all_rows (fun r => mem_str (ma_service r) allowed_fcas) l;
      all_rows (fun r => non_neg (ma_max r)) l;
      all_rows (fun r => mem_str (ma_dt r) allowed_dt) l;
      no_repeats (fun a b => String.eqb (ma_unit a) (ma_unit b)
                             && String.eqb (ma_service a) (ma_service b)
                             && String.eqb (ma_dt a) (ma_dt b)) l ].

(** [set_demand_constraints].  /repo/src/nempy/markets.py:1137-1145. *)
Definition set_demand (l : list demand_row) (v : option vcost) (m : market) : outcome :=
  guard (check_demand m l) m (fun m =>
  andthen (new_regional_group "demand" (energy_rhs l) (energy_map l) m)
          (maybe_elastic "demand" v)).

(** [set_fcas_requirements_constraints].  /repo/src/nempy/markets.py:1242-1250. *)
Definition set_fcas_req (l : list fcas_req_row) (v : option vcost) (m : market) : outcome :=
  guard (check_fcas_req m l) m (fun m =>
  andthen (new_regional_group "fcas" (fcas_rhs l) (fcas_map l) m)
          (maybe_elastic "fcas" v)).

(** [set_fcas_max_availability].  /repo/src/nempy/markets.py:1340-1349. *)
Definition set_max_avail (l : list max_avail_row) (v : option vcost) (m : market) : outcome :=
  guard (check_max_avail m l) m (fun m =>
  andthen (new_unit_group "fcas_max_availability" (max_avail_rhs l) (max_avail_map l) m)
          (maybe_elastic "fcas_max_availability" v)).

(** [_validate_scada_ramp_rates_for_reg].  /repo/src/nempy/markets.py:1603-1609. *)
Definition check_reg_ramp (m : market) (l : list reg_ramp_row) : option err :=
  first_err
    [ all_rows (fun r => is_unit m (rg_unit r)) l;
      no_repeats (fun a b => String.eqb (rg_unit a) (rg_unit b)) l ].

(** The (unit, dispatch type) pairs bidding a regulation service.
    /repo/src/nempy/markets.py:1513-1518. *)
Definition reg_units (vs : list bidvar) (service : string) : list bidvar :=
  drop_duplicates (fun a b => String.eqb (bv_unit a) (bv_unit b) && String.eqb (bv_dt a) (bv_dt b))
                  (filter (fun v => String.eqb (bv_service v) service) vs).

(** Regulation bidders joined with their ramp rates.
    /repo/src/nempy/markets.py:1529-1537, 1562-1570. *)
Definition reg_limits (vs : list bidvar) (service : string) (rate : ramp_row -> Q) (l : list ramp_row)
  : list reg_limit :=
  map (fun p => let '(v, r) := p in
         RegLimit (bv_unit v) (bv_dt v) (bv_service v) (rate r) (rr_init r))
      (merge (fun v r => String.eqb (bv_unit v) (rr_unit r)) (reg_units vs service) l).

(** A group that is only made when it has rows.
    /repo/src/nempy/markets.py:1544-1550, 1552-1560, 1577-1583, 1585-1593. *)
Definition new_unit_group_if {A : Type} (l : list A) (k : string) (mk_rhs : nat -> list crow)
  (mk_map : nat -> list ucrow) (m : market) : outcome :=
  match l with
  | [] => done m
  | _ => new_unit_group k mk_rhs mk_map m
  end.

(** [set_joint_ramping_constraints_reg].  /repo/src/nempy/markets.py:1505-1601. *)
Definition set_joint_ramping (l : list reg_ramp_row) (p : option (list fs_ramp_row))
  (run_type : string) (v : option vcost) (m : market) : outcome :=
  guard (check_reg_ramp m l) m (fun m =>
  guard (check_fs_opt m run_type p) m (fun m =>
  match m_bids m with
  | None => raise EKey m
  | Some vs =>
    let h := c_interval (m_cfg m) in
    match fast_start_adjust
            (map (fun r => Ramp (rg_unit r) "" (rg_init r) (rg_up r) (rg_down r)) l)
            run_type p h with
    | Err e => raise e m
    | Ok rates =>
      let is_bdu r := mem_str (rl_unit r) (m_bdu m) in
      let raise_all := reg_limits vs "raise_reg" rr_up rates in
      let lower_all := reg_limits vs "lower_reg" rr_down rates in
      let ro := filter (fun r => negb (is_bdu r)) raise_all in
      let rb := filter is_bdu raise_all in
      let lo := filter (fun r => negb (is_bdu r)) lower_all in
      let lb := filter is_bdu lower_all in
      andthen (new_unit_group_if ro "joint_ramping_raise_reg"
                 (joint_ramping_rhs raise_gen raise_load ro h)
                 (joint_ramping_map raise_gen raise_load ro) m) (fun m =>
      andthen (new_unit_group_if rb "joint_ramping_raise_reg_bdu"
                 (reg_bdu_rhs true rb h) (reg_bdu_map true rb) m) (fun m =>
      andthen (new_unit_group_if lo "joint_ramping_lower_reg"
                 (joint_ramping_rhs lower_gen lower_load lo h)
                 (joint_ramping_map lower_gen lower_load lo) m) (fun m =>
      andthen (new_unit_group_if lb "joint_ramping_lower_reg_bdu"
                 (reg_bdu_rhs false lb h) (reg_bdu_map false lb) m) (fun m =>
      match v with
      | None => done m
      | Some v =>
        andthen (make_elastic "joint_ramping_raise_reg" v m) (fun m =>
        andthen (make_elastic "joint_ramping_lower_reg" v m) (fun m =>
        andthen (elastic_if_present "joint_ramping_raise_reg_bdu" v m) (fun m =>
        elastic_if_present "joint_ramping_lower_reg_bdu" v m)))
      end))))
    end
  end)).

(** [_validate_contingency_trapeziums], [_validate_regulation_trapeziums].
    /repo/src/nempy/markets.py:1732-1745, 1871-1884. *)
Definition check_traps (services : list string) (m : market) (l : list trap_row) : option err :=
  first_err
    [ all_rows (fun r => is_unit m (tz_unit r)) l;
      all_rows (fun r => mem_str (tz_service r) services) l;
      all_rows (fun r => non_neg (tz_max r)) l;
      all_rows (fun r => mem_str (tz_dt r) allowed_dt) l;
      no_repeats (fun a b => String.eqb (tz_unit a) (tz_unit b)
                             && String.eqb (tz_service a) (tz_service b)
                             && String.eqb (tz_dt a) (tz_dt b)) l ].

(** [set_joint_capacity_constraints].  An empty table fails inside the backend
    function, before anything is saved.  /repo/src/nempy/markets.py:1721-1730,
    /repo/src/nempy/spot_market_backend/fcas_constraints.py:212. *)
Definition set_joint_capacity (l : list trap_row) (v : option vcost) (m : market) : outcome :=
  guard (check_traps allowed_contingency m l) m (fun m =>
  match l with
  | [] => raise EValue m
  | _ =>
    andthen (new_unit_group "joint_capacity" (trap_rhs l)
               (fun n => joint_capacity_map l (m_bdu m) n) m)
            (maybe_elastic "joint_capacity" v)
  end).

(** [set_energy_and_regulation_capacity_constraints].
    /repo/src/nempy/markets.py:1857-1869, /repo/src/nempy/spot_market_backend/fcas_constraints.py:420. *)
Definition set_energy_reg (l : list trap_row) (v : option vcost) (m : market) : outcome :=
  guard (check_traps allowed_regulation m l) m (fun m =>
  match l with
  | [] => raise EValue m
  | _ =>
    andthen (new_unit_group "energy_and_regulation_capacity" (trap_rhs l) (energy_reg_map l) m)
            (maybe_elastic "energy_and_regulation_capacity" v)
  end).

(** [_validate_interconnector_definitions].  /repo/src/nempy/markets.py:2003-2017. *)
Definition check_inter (m : market) (l : list inter_row) : option err :=
  first_err
    [ all_rows (fun r => is_region m (in_to r)) l;
      all_rows (fun r => is_region m (in_from r)) l;
      all_rows (fun r => Z.eqb (in_gcf r) 1 || Z.eqb (in_gcf r) (-1)) l;
      all_rows (fun r => non_neg (in_from_lf r)) l;
      all_rows (fun r => non_neg (in_to_lf r)) l;
      no_repeats (fun a b => same_link (in_inter a) (in_link a) (in_inter b) (in_link b)) l ].

(** [set_interconnectors].  /repo/src/nempy/markets.py:1984-2001. *)
Definition set_interconnectors (l : list inter_row) (m : market) : outcome :=
  guard (check_inter m l) m (fun m =>
    let n := m_nv m in
    let m := set_m_directions (Some l) m in
    let m := set_m_inter (Some (inter_variables l n)) m in
    let m := set_m_reg_inter (Some (inter_regional_map l n)) m in
    match next_id (map iv_id (inter_variables l n)) with
    | None => raise EValue m
    | Some n' => done (set_m_nv n' m)
    end).

(** [_validate_loss_functions], [_validate_interpolation_break_points].
    /repo/src/nempy/markets.py:2266-2284. *)
Definition check_losses (lf : list lossfn_row) (bps : list bp_row) : option err :=
  first_err
    [ all_rows (fun r => non_neg (lf_share r)) lf;
      no_repeats (fun a b => same_link (lf_inter a) (lf_link a) (lf_inter b) (lf_link b)) lf;
      no_repeats (fun a b => same_link (bp_inter a) (bp_link a) (bp_inter b) (bp_link b)
                             && Z.eqb (bp_seg a) (bp_seg b)) bps ].

(** [set_interconnector_losses].  Without interconnectors the ModelBuildError of
    line 2205 is built but not raised and the missing table gives an
    AttributeError.  When no break point belongs to a link with a loss function
    the row-wise evaluation of the loss functions (interconnectors.py:146) raises
    ValueError.  /repo/src/nempy/markets.py:2204-2264. *)
Definition set_losses (lf : list lossfn_row) (bps : list bp_row) (m : market) : outcome :=
  guard (check_losses lf bps) m (fun m =>
    let m := set_m_shares (Some lf) m in
    match m_directions m, m_inter m, m_reg_inter m with
    | Some dirs, Some vs, Some im =>
      let ls := loss_shares lf dirs in
      let lv := loss_variables vs ls (m_nv m) in
      match next_id (map lv_id lv) with
      | None => raise EValue m
      | Some nv =>
        let ws := weight_variables bps nv in
        let n0 := match m_nc m with Some n => n | None => 0%nat end in
        let sum_rhs := weights_sum_rhs ws n0 in
        match next_id (map cr_id sum_rhs) with
        | None => raise EValue m
        | Some n1 =>
          match loss_link_lhs ws ls n1, next_id (map dy_id (loss_link_rhs ws lv n1)) with
          | [], _ => raise EValue m
          | _, None => raise EValue m
          | _, Some n2 =>
            let lhs := weights_sum_lhs ws n0 ++ flow_link_lhs ws n2 ++ loss_link_lhs ws ls n1 in
            let dyn := flow_link_rhs ws vs n2 ++ loss_link_rhs ws lv n1 in
            let live := match m_nc m with Some _ => true | None => false end in
            let m := set_m_loss (Some lv) m in
            let m := set_m_reg_loss (Some (loss_regional_map vs im ls (m_nv m))) m in
            let m := set_m_weights (Some ws) m in
            let m := set_m_lhs (dset "interconnector_losses" (if live then lhs else []) (m_lhs m)) m in
            let m := set_m_rhs (dset "interpolation_weights" (if live then sum_rhs else []) (m_rhs m)) m in
            let m := set_m_dyn (Some (if live then dyn else [])) m in
            let m := set_m_nv (S (list_max (map lv_id lv ++ map wv_id ws))) m in
            done (if live
                  then set_m_nc (Some (S (list_max (map cr_id sum_rhs ++ map dy_id dyn)))) m
                  else m)
          end
        end
      end
    | _, _, _ => raise EAttribute m
    end).

(** [_validate_generic_constraint_parameters] and the link tables.
    /repo/src/nempy/markets.py:2365-2371, 2446-2452, 2532-2538, 2609-2614. *)
Definition check_generic (l : list generic_row) : option err :=
  first_err [ no_repeats (fun a b => String.eqb (ge_set a) (ge_set b)) l ].
(** As above.  /repo/src/nempy/markets.py:2365-2371, 2446-2452, 2532-2538, 2609-2614. *)
Definition check_gunit (m : market) (l : list gunit_row) : option err :=
  first_err
    [ all_rows (fun r => is_unit m (gu_unit r)) l;
      all_rows (fun r => mem_str (gu_service r) allowed_services) l;
      no_repeats (fun a b => String.eqb (gu_set a) (gu_set b) && String.eqb (gu_unit a) (gu_unit b)
                             && String.eqb (gu_service a) (gu_service b)) l ].
(** As above.  /repo/src/nempy/markets.py:2365-2371, 2446-2452, 2532-2538, 2609-2614. *)
Definition check_gregion (m : market) (l : list gregion_row) : option err :=
  first_err
    [ all_rows (fun r => is_region m (gr_region r)) l;
      all_rows (fun r => mem_str (gr_service r) allowed_services) l;
      no_repeats (fun a b => String.eqb (gr_set a) (gr_set b) && String.eqb (gr_region a) (gr_region b)
                             && String.eqb (gr_service a) (gr_service b)) l ].
(** As above.  /repo/src/nempy/markets.py:2365-2371, 2446-2452, 2532-2538, 2609-2614. *)
Definition check_ginter (l : list ginter_row) : option err :=
  first_err [ no_repeats (fun a b => String.eqb (gi_set a) (gi_set b)
                                     && String.eqb (gi_inter a) (gi_inter b)) l ].

(** Rows of the generic group.  /repo/src/nempy/markets.py:2358-2359. *)
Definition generic_rhs (l : list generic_row) (next : nat) : list crow :=
  map (fun p => let '(i, g) := p in CRow i (ge_type g) (ge_rhs g) (KSet (ge_set g)))
      (save_index next l).

(** [set_generic_constraints]: [.max() + 1] of an empty column is NaN.
    /repo/src/nempy/markets.py:2356-2363. *)
Definition set_generic (l : list generic_row) (v : option vcost) (m : market) : outcome :=
  guard (check_generic l) m (fun m =>
    let m := match m_nc m with
             | Some n => set_m_nc (next_id (map cr_id (generic_rhs l n)))
                           (set_m_rhs (dset "generic" (generic_rhs l n) (m_rhs m)) m)
             | None => set_m_rhs (dset "generic" [] (m_rhs m)) m
             end in
    maybe_elastic "generic" v m).

(** [link_units_to_generic_constraints], [link_regions_to_generic_constraints],
    [link_interconnectors_to_generic_constraints].
    /repo/src/nempy/markets.py:2442-2444, 2528-2530, 2605-2607. *)
Definition link_units (l : list gunit_row) (m : market) : outcome :=
  guard (check_gunit m l) m (fun m => done (set_m_gen_unit (Some l) m)).
(** As above.  /repo/src/nempy/markets.py:2442-2444, 2528-2530, 2605-2607. *)
Definition link_regions (l : list gregion_row) (m : market) : outcome :=
  guard (check_gregion m l) m (fun m => done (set_m_gen_region (Some l) m)).
(** As above.  /repo/src/nempy/markets.py:2442-2444, 2528-2530, 2605-2607. *)
Definition link_inters (l : list ginter_row) (m : market) : outcome :=
  guard (check_ginter l) m (fun m => done (set_m_gen_inter (Some l) m)).

(** [set_tie_break_constraints].  Without a tied pair the row-wise naming of the
    pairs (/repo/src/nempy/spot_market_backend/unit_constraints.py:574-576) raises ValueError.
    /repo/src/nempy/markets.py:2843-2853. *)
Definition set_tie_break (cost : vcost) (m : market) : outcome :=
  match m_obj_bids m, m_bids m with
  | Some prices, Some vs =>
    match tie_pairs (tie_rows prices vs (c_ui (m_cfg m))) with
    | [] => raise EValue m
    | pairs =>
      let m := match m_nc m with
               | Some n =>
                 set_m_nc (next_id (map cr_id (tie_rhs pairs n)))
                   (set_m_rhs (dset "tie_break" (tie_rhs pairs n) (m_rhs m))
                     (set_m_lhs (dset "tie_break" (tie_lhs pairs n) (m_lhs m)) m))
               | None =>
                 set_m_rhs (dset "tie_break" [] (m_rhs m))
                   (set_m_lhs (dset "tie_break" [] (m_lhs m)) m)
               end in
      make_elastic "tie_break" cost m
    end
  | _, _ => raise EKey m
  end.

(** The market building calls of the API.
    /repo/src/nempy/markets.py:150-2853. *)
Inductive op : Type :=
| OpVolumeBids (t : bid_table)
| OpPriceBids (t : bid_table)
| OpCapacity (l : list limit_row) (v : option vcost)
| OpUigf (l : list uigf_row) (v : option vcost)
| OpRamp (t : ramp_table) (s : option scada_table) (p : option (list fs_ramp_row))
         (run_type : string) (v : option vcost)
| OpFastStart (l : list fs_row) (v : option vcost)
| OpRemoveFastStart
| OpDemand (l : list demand_row) (v : option vcost)
| OpFcasReq (l : list fcas_req_row) (v : option vcost)
| OpMaxAvail (l : list max_avail_row) (v : option vcost)
| OpJointRamping (l : list reg_ramp_row) (p : option (list fs_ramp_row))
                 (run_type : string) (v : option vcost)
| OpJointCapacity (l : list trap_row) (v : option vcost)
| OpEnergyReg (l : list trap_row) (v : option vcost)
| OpInterconnectors (l : list inter_row)
| OpLosses (lf : list lossfn_row) (bps : list bp_row)
| OpGeneric (l : list generic_row) (v : option vcost)
| OpLinkUnits (l : list gunit_row)
| OpLinkRegions (l : list gregion_row)
| OpLinkInters (l : list ginter_row)
| OpElastic (k : string) (v : vcost)
| OpTieBreak (cost : vcost).

(** One API call.  The methods of /repo/src/nempy/markets.py:150-2853. *)
Definition step (o : op) (m : market) : outcome :=
  match o with
  | OpVolumeBids t => set_volume_bids t m
  | OpPriceBids t => set_price_bids t m
  | OpCapacity l v => set_capacity l v m
  | OpUigf l v => set_uigf l v m
  | OpRamp t s p r v => set_ramp t s p r v m
  | OpFastStart l v => set_fast_start l v m
  | OpRemoveFastStart => remove_fast_start m
  | OpDemand l v => set_demand l v m
  | OpFcasReq l v => set_fcas_req l v m
  | OpMaxAvail l v => set_max_avail l v m
  | OpJointRamping l p r v => set_joint_ramping l p r v m
  | OpJointCapacity l v => set_joint_capacity l v m
  | OpEnergyReg l v => set_energy_reg l v m
  | OpInterconnectors l => set_interconnectors l m
  | OpLosses lf bps => set_losses lf bps m
  | OpGeneric l v => set_generic l v m
  | OpLinkUnits l => link_units l m
  | OpLinkRegions l => link_regions l m
  | OpLinkInters l => link_inters l m
  | OpElastic k v => make_elastic k v m
  | OpTieBreak c => set_tie_break c m
  end.

(** A history: the calls are made one after the other, the caller carries on
    after an exception.
    /repo/src/nempy/markets.py:150-2853. *)
Definition run (ops : list op) (m : market) : market :=
  fold_left (fun m o => fst (step o m)) ops m.
