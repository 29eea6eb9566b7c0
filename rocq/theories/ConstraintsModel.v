(** Model of nempy/historical_inputs/constraints.py and of the constraint tables of
    nempy/historical_inputs/xml_cache.py.  Definitions only. *)

From Coq Require Import QArith String List Bool.
Import ListNotations.
From Verif Require Import PandasModel.
Open Scope string_scope.
Open Scope list_scope.

(** ** The parts of the case file that are read *)

(** A term of the left hand side of a constraint: the region or unit, the trade type
    and the factor; the terms of interconnectors have no trade type.  A single term
    and a list of terms are both lists here.
    /repo/src/nempy/historical_inputs/xml_cache.py:865-880, 929-944, 987-1000. *)
Record factor_row := Factor { fa_of : string; fa_trade : string; fa_coef : Q }.
(** As above.  /repo/src/nempy/historical_inputs/xml_cache.py:865-880, 929-944, 987-1000. *)
Record inter_factor := InterFactor { if_inter : string; if_coef : Q }.

(** GenericConstraint: ConstraintID, Type, ViolationPrice and LHSFactorCollection;
    [None] is an empty collection.
    /repo/src/nempy/historical_inputs/xml_cache.py:810-816, 863-867. *)
Record lhs_factors := LhsFactors { lf_regions : list factor_row; lf_traders : list factor_row; lf_inters : list inter_factor }.
(** As above.  /repo/src/nempy/historical_inputs/xml_cache.py:810-816, 863-867. *)
Record case_constraint := CaseConstraint { cc_id : string; cc_type : string; cc_price : Q; cc_lhs : option lhs_factors }.

(** ConstraintSolution: ConstraintID, Intervention and RHS.
    /repo/src/nempy/historical_inputs/xml_cache.py:762-768. *)
Record case_solution := CaseSolution { cs_id : string; cs_intervention : string; cs_rhs : Q }.
(** As above.  /repo/src/nempy/historical_inputs/xml_cache.py:762-768. *)
Record case_file := CaseFile { cf_solutions : list case_solution; cf_constraints : list case_constraint }.

(** [get_constraint_rhs].
    /repo/src/nempy/historical_inputs/xml_cache.py:762-768. *)
Definition constraint_rhs (x : case_file) : list (string * Q) :=
  map (fun s => (cs_id s, cs_rhs s)) (filter (fun s => String.eqb (cs_intervention s) "0") (cf_solutions x)).

(** [get_constraint_type].
    /repo/src/nempy/historical_inputs/xml_cache.py:810-816. *)
Record type_row := TypeRow { ty_set : string; ty_type : string; ty_cost : Q }.
(** As above.  /repo/src/nempy/historical_inputs/xml_cache.py:810-816. *)
Definition constraint_type (x : case_file) : list type_row :=
  map (fun c => TypeRow (cc_id c) (cc_type c) (cc_price c)) (cf_constraints x).

(** [get_constraint_region_lhs], [get_constraint_unit_lhs] and
    [get_constraint_interconnector_lhs].
    /repo/src/nempy/historical_inputs/xml_cache.py:863-880, 927-944, 985-1000. *)
Record lhs_row := LhsRow { lh_set : string; lh_of : string; lh_service : string; lh_coef : Q }.
(** As above.  /repo/src/nempy/historical_inputs/xml_cache.py:863-880, 927-944, 985-1000. *)
Definition lhs_rows (part : lhs_factors -> list factor_row) (x : case_file) : list lhs_row :=
  flat_map (fun c => match cc_lhs c with
                     | None => []
                     | Some l => map (fun f => LhsRow (cc_id c) (fa_of f) (fa_trade f) (fa_coef f)) (part l)
                     end) (cf_constraints x).
(** As above.  /repo/src/nempy/historical_inputs/xml_cache.py:863-880, 927-944, 985-1000. *)
Definition constraint_region_lhs : case_file -> list lhs_row := lhs_rows lf_regions.
(** As above.  /repo/src/nempy/historical_inputs/xml_cache.py:863-880, 927-944, 985-1000. *)
Definition constraint_unit_lhs : case_file -> list lhs_row := lhs_rows lf_traders.
(** As above.  /repo/src/nempy/historical_inputs/xml_cache.py:863-880, 927-944, 985-1000. *)
Definition constraint_inter_lhs (x : case_file) : list (string * string * Q) :=
  flat_map (fun c => match cc_lhs c with
                     | None => []
                     | Some l => map (fun f => (cc_id c, if_inter f, if_coef f)) (lf_inters l)
                     end) (cf_constraints x).

(** ** ConstraintData *)

(** [type_map].  /repo/src/nempy/historical_inputs/constraints.py:71. *)
Definition type_map : dict string := [("LE", "<="); ("EQ", "="); ("GE", ">=")].

(** [bid_type_map].  /repo/src/nempy/historical_inputs/constraints.py:74-76. *)
Definition bid_type_map : dict string :=
  [("ENOF", "energy"); ("LDOF", "energy"); ("DROF", "energy"); ("L5RE", "lower_reg"); ("R5RE", "raise_reg");
   ("R5MI", "raise_5min"); ("L5MI", "lower_5min"); ("R60S", "raise_60s"); ("L60S", "lower_60s"); ("R6SE", "raise_6s");
   ("L6SE", "lower_6s"); ("R1SE", "raise_1s"); ("L1SE", "lower_1s"); ("BDOF", "energy")].

(** A row of the right hand sides.  /repo/src/nempy/historical_inputs/constraints.py:68-72. *)
Record rhs_row := RhsRow { rh_set : string; rh_rhs : Q; rh_type : string }.
(** A row of the FCAS requirements.  /repo/src/nempy/historical_inputs/constraints.py:85-87. *)
Record fcas_row := FcasRow { fq_set : string; fq_service : string; fq_region : string; fq_type : string; fq_volume : Q }.
(** The tables that are kept.  /repo/src/nempy/historical_inputs/constraints.py:65-87. *)
Record constraint_data := ConstraintData {
  cd_rhs : list rhs_row; cd_costs : list (string * Q); cd_units : list lhs_row; cd_regions : list lhs_row;
  cd_inters : list (string * string * Q); cd_fcas : list fcas_row }.

(** [Series.apply(lambda x: map[x])] of a column, which raises KeyError.
    /repo/src/nempy/historical_inputs/constraints.py:72, 79, 81. *)
Fixpoint map_column {A : Type} (get : A -> string) (put : string -> A -> A) (m : dict string) (l : list A) : result (list A) :=
  match l with
  | [] => Ok []
  | a :: r => match dget (get a) m with
              | None => Err EKey
              | Some s => match map_column get put m r with Ok r' => Ok (put s a :: r') | Err e => Err e end
              end
  end.

(** [ConstraintData.__init__], from the tables of the loader.  A case file without
    constraints or without regional terms gives empty tables, whose merges are empty.
    /repo/src/nempy/historical_inputs/constraints.py:65-87. *)
Definition constraint_tables (rhs : list (string * Q)) (types : list type_row) (units regions : list lhs_row)
  (inters : list (string * string * Q)) : result constraint_data :=
  let merged := map (fun p => RhsRow (fst (fst p)) (snd (fst p)) (ty_type (snd p)))
                    (merge (fun a b => String.eqb (fst a) (ty_set b)) rhs types) in
  match map_column rh_type (fun s r => RhsRow (rh_set r) (rh_rhs r) s) type_map merged with
  | Err e => Err e
  | Ok rhs =>
      let put s r := LhsRow (lh_set r) (lh_of r) s (lh_coef r) in
      match map_column lh_service put bid_type_map units,
            map_column lh_service put bid_type_map regions with
      | Ok units, Ok regions =>
          Ok (ConstraintData rhs (map (fun t => (ty_set t, ty_cost t)) types) units regions inters
                (map (fun p => FcasRow (lh_set (fst p)) (lh_service (fst p)) (lh_of (fst p)) (rh_type (snd p)) (rh_rhs (snd p)))
                     (merge (fun a b => String.eqb (lh_set a) (rh_set b)) regions rhs)))
      | Err e, _ => Err e
      | _, Err e => Err e
      end
  end.
(** The same from a case file.  /repo/src/nempy/historical_inputs/constraints.py:65-87. *)
Definition init_constraints (x : case_file) : result constraint_data :=
  constraint_tables (constraint_rhs x) (constraint_type x) (constraint_unit_lhs x) (constraint_region_lhs x) (constraint_inter_lhs x).

(** [get_rhs_and_type_excluding_regional_fcas_constraints].
    /repo/src/nempy/historical_inputs/constraints.py:129. *)
Definition rhs_excluding_fcas (d : constraint_data) : list rhs_row :=
  filter (fun r => negb (mem_str (rh_set r) (map fq_set (cd_fcas d)))) (cd_rhs d).
