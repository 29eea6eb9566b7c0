(** Model of how the constraints of a case file reach the market: [ConstraintData] and
    its getters.  Definitions only. *)

From Coq Require Import QArith String List Bool.
Import ListNotations.
From Verif Require Import PandasModel TablesModel ConstraintsModel XmlModel.
Open Scope string_scope.
Open Scope list_scope.

(** [ConstraintData(loader)]: the five tables are those of the cache.  They are all
    read before any of them is used; the code renames the types first.
    /repo/src/nempy/historical_inputs/constraints.py:65-87, /repo/src/nempy/historical_inputs/loaders.py:113-136. *)
Definition load_constraints (rd : reader) (v : xml) : xres (result constraint_data) :=
  do rhs <- read_rhs rd v;
  do types <- read_types rd v;
  do units <- read_unit_lhs rd v;
  do regions <- read_region_lhs rd v;
  do inters <- read_inter_lhs rd v;
  Got (constraint_tables rhs types units regions inters).

(** [get_rhs_and_type_excluding_regional_fcas_constraints], as the rows of a table of
    the market.  /repo/src/nempy/historical_inputs/constraints.py:129. *)
Definition generic_of (d : constraint_data) : list generic_row :=
  map (fun r => Generic (rh_set r) (rh_type r) (rh_rhs r)) (rhs_excluding_fcas d).
(** [get_rhs_and_type].  /repo/src/nempy/historical_inputs/constraints.py:131-172. *)
Definition all_generic_of (d : constraint_data) : list generic_row :=
  map (fun r => Generic (rh_set r) (rh_type r) (rh_rhs r)) (cd_rhs d).
(** [get_unit_lhs].  /repo/src/nempy/historical_inputs/constraints.py:174-215. *)
Definition units_of (d : constraint_data) : list gunit_row :=
  map (fun r => GUnit (lh_set r) (lh_of r) (lh_service r) (lh_coef r)) (cd_units d).
(** [get_interconnector_lhs].  /repo/src/nempy/historical_inputs/constraints.py:217-256. *)
Definition inters_of (d : constraint_data) : list ginter_row :=
  map (fun r => GInter (fst (fst r)) (snd (fst r)) (snd r)) (cd_inters d).
(** [get_region_lhs].  /repo/src/nempy/historical_inputs/constraints.py:258-299. *)
Definition regions_rows (d : constraint_data) : list gregion_row :=
  map (fun r => GRegion (lh_set r) (lh_of r) (lh_service r) (lh_coef r)) (cd_regions d).
(** [get_fcas_requirements].  /repo/src/nempy/historical_inputs/constraints.py:301-346. *)
Definition requirements_of (d : constraint_data) : list fcas_req_row :=
  map (fun r => FcasReq (ConstraintsModel.fq_set r) (ConstraintsModel.fq_region r) (ConstraintsModel.fq_service r)
                  (ConstraintsModel.fq_volume r) (ConstraintsModel.fq_type r)) (cd_fcas d).
