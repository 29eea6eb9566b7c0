(** Model of nempy/time_sequential.py.  Definitions only. *)

From Coq Require Import QArith String List Bool.
Import ListNotations.
From Verif Require Import PandasModel TablesModel MarketModel ReportsModel.
Open Scope string_scope.
Open Scope list_scope.

(** A row of ramp rates; rates may be NaN ([None]).
    /repo/src/nempy/time_sequential.py:44-52. *)
Record rate_row := Rate { ra_unit : string; ra_up : option Q; ra_down : option Q }.

(** A row of the ramp rate parameters.  /repo/src/nempy/time_sequential.py:57-67. *)
Record param_row := Param { pr_unit : string; pr_init : Q; pr_up : Q; pr_down : Q }.

(** [pd.merge(..., how='right')]: for every right row the matching left rows, or a
    row of NaN.
    /repo/src/nempy/time_sequential.py:72. *)
Definition merge_right {A B : Type} (e : A -> B -> bool) (l : list A) (r : list B) : list (option A * B) :=
  flat_map (fun b => match filter (fun a => e a b) l with
                     | [] => [(None, b)]
                     | as_ => map (fun a => (Some a, b)) as_
                     end) r.

(** [fillna(0.0)].
    /repo/src/nempy/time_sequential.py:73. *)
Definition fill (o : option Q) : Q := match o with Some q => q | None => 0 end.

(** [construct_ramp_rate_parameters].  A dispatch report is a list of unit, dispatch
    type and service with its dispatch; the ramp rate table here has no columns
    beside the three documented ones.  /repo/src/nempy/time_sequential.py:69-74. *)
Definition ramp_parameters (rep : list (ukey * Q)) (rates : list rate_row) : list param_row :=
  let energy := map (fun r : ukey * Q => (fst (fst (fst r)), snd r))
                    (filter (fun r : ukey * Q => String.eqb (snd (fst r)) "energy") rep) in
  map (fun p => Param (ra_unit (snd p)) (fill (option_map snd (fst p))) (fill (ra_up (snd p))) (fill (ra_down (snd p))))
      (merge_right (fun (a : string * Q) b => String.eqb (fst a) (ra_unit b)) energy rates).

(** [create_seed_ramp_rate_parameters]: the two tables merged on the unit.
    /repo/src/nempy/time_sequential.py:137. *)
Definition seed_parameters (hist : list (string * Q)) (rates : list rate_row) : list (string * Q * rate_row) :=
  map (fun p => (fst (fst p), snd (fst p), snd p))
      (merge (fun (a : string * Q) b => String.eqb (fst a) (ra_unit b)) hist rates).

(** The ramp details for the next market: [construct_ramp_rate_parameters] keeps the
    other columns of the ramp rate table, here the dispatch type ([None]: there is no
    such column), and the market takes generators where the column is missing.
    /repo/src/nempy/time_sequential.py:69-74, /repo/src/nempy/markets.py:829-830. *)
Definition next_table (rep : list (ukey * Q)) (rates : list (rate_row * option string)) : ramp_table :=
  RampTable false false
    (flat_map (fun r => map (fun p => RampIn (Ramp (pr_unit p) (match snd r with Some d => d | None => "generator" end)
                                                   (pr_init p) (pr_up p) (pr_down p)) None None)
                            (ramp_parameters rep [fst r])) rates).

(** The names of the columns of [pd.merge(l, r, on=k)]: a column that both tables have
    is kept twice, with a suffix.
    /repo/src/nempy/time_sequential.py:72, 137. *)
Definition merged_names (k : string) (l r : list string) : list string :=
  map (fun n => if negb (String.eqb n k) && mem_str n r then n ++ "_x" else n)%string l
  ++ map (fun n => if mem_str n l then n ++ "_y" else n)%string (filter (fun n => negb (String.eqb n k)) r).

(** The names of the columns of [construct_ramp_rate_parameters] and of
    [create_seed_ramp_rate_parameters], the table of initial outputs being the one
    of [get_initial_unit_output].
    /repo/src/nempy/time_sequential.py:70-72, 137, /repo/src/nempy/historical_inputs/units.py:353-355. *)
Definition parameter_names (rates : list string) : list string := merged_names "unit" ["unit"; "initial_output"] rates.

(** The column names of AEMO that the bid ramp rates have, and their names in nempy.
    /repo/src/nempy/historical_inputs/aemo_to_nempy_name_mapping.py:1-50. *)
Definition ramp_name (n : string) : option string :=
  dget n [("DUID", "unit"); ("BIDTYPE", "service"); ("DIRECTION", "dispatch_type"); ("RAMPDOWNRATE", "ramp_down_rate");
          ("RAMPUPRATE", "ramp_up_rate"); ("INITIALMW", "initial_output")].
(** The names of the columns of [get_bid_ramp_rates]: the bids merged with the
    initial conditions, renamed, without the service.
    /repo/src/nempy/historical_inputs/units.py:244-251. *)
Definition bid_ramp_names : list string :=
  filter (fun n => negb (String.eqb n "service"))
    (flat_map (fun n => match ramp_name n with Some x => [x] | None => [] end)
       (merged_names "DUID" ["DUID"; "BIDTYPE"; "DIRECTION"; "RAMPDOWNRATE"; "RAMPUPRATE"] ["DUID"; "INITIALMW"])).
