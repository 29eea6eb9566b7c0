(** Model of spot_market_backend/ramp_rate_processing.py.  Definitions only. *)

From Coq Require Import QArith Qabs Qminmax String List Bool ZArith.
Import ListNotations.
From Verif Require Import PandasModel TablesModel.
Open Scope string_scope.
Open Scope list_scope.

(** [calc_composite_ramp_up_rate]: [h] is the interval length in hours,
    ramp_up_rate from the generator row, ramp_down_rate and initial output from
    the load row.
    /repo/src/nempy/spot_market_backend/ramp_rate_processing.py:18-30. *)
Definition composite_up (h init ramp_up ramp_down : Q) : Q :=
  if Qle_bool 0 init then ramp_up
  else if Qeq_bool ramp_down 0 then 0
  else if Qle_bool h (Qabs (init / ramp_down)) then ramp_down
  else ((h - Qabs (init / ramp_down)) * ramp_up - init) / h.

(** [calc_composite_ramp_down_rate].
    /repo/src/nempy/spot_market_backend/ramp_rate_processing.py:39-51. *)
Definition composite_down (h init ramp_up ramp_down : Q) : Q :=
  if Qle_bool init 0 then ramp_up
  else if Qeq_bool ramp_down 0 then 0
  else if Qle_bool h (Qabs (init / ramp_down)) then ramp_down
  else ((h - Qabs (init / ramp_down)) * ramp_up + init) / h.

(** Net ramp rates of a bidirectional unit.
    /repo/src/nempy/spot_market_backend/ramp_rate_processing.py:56-60. *)
Record bdu_ramp_row := BduRamp {
  bd_unit : string; bd_init : Q; bd_up : Q; bd_down : Q }.

(** [_calculate_composite_ramp_rates]: ordinary units are kept, the generator and
    load rows of bidirectional units are joined on the unit; the initial output
    kept for the result is the one of the load row.
    /repo/src/nempy/spot_market_backend/ramp_rate_processing.py:7-62. *)
Definition ordinary_ramps (l : list ramp_in) (bdu : list string) : list ramp_in :=
  filter (fun r => negb (mem_str (rr_unit (ri_row r)) bdu)) l.

(** Generator and load rows of bidirectional units.  Lines 9-12.
    /repo/src/nempy/spot_market_backend/ramp_rate_processing.py:9-11. *)
Definition bdu_gen (l : list ramp_row) (bdu : list string) : list ramp_row :=
  filter (fun r => String.eqb (rr_dt r) "generator") (filter (fun r => mem_str (rr_unit r) bdu) l).
(** The load rows.  /repo/src/nempy/spot_market_backend/ramp_rate_processing.py:9, 12. *)
Definition bdu_load (l : list ramp_row) (bdu : list string) : list ramp_row :=
  filter (fun r => String.eqb (rr_dt r) "load") (filter (fun r => mem_str (rr_unit r) bdu) l).

(** Rows unit, composite ramp up rate, initial output.  Lines 14-16, 32-33.
    /repo/src/nempy/spot_market_backend/ramp_rate_processing.py:14-16, 32-33. *)
Definition bdu_up (l : list ramp_row) (bdu : list string) (interval : Q) : list (string * Q * Q) :=
  map (fun p => let '(g, ld) := p in
         (rr_unit g, composite_up (interval / 60) (rr_init ld) (rr_up g) (rr_down ld), rr_init ld))
      (merge (fun g ld => String.eqb (rr_unit g) (rr_unit ld)) (bdu_gen l bdu) (bdu_load l bdu)).

(** Rows unit, composite ramp down rate.  Lines 35-37, 53-54.
    /repo/src/nempy/spot_market_backend/ramp_rate_processing.py:35-37, 53-54. *)
Definition bdu_down (l : list ramp_row) (bdu : list string) (interval : Q) : list (string * Q) :=
  map (fun p => let '(ld, g) := p in
         (rr_unit ld, composite_down (interval / 60) (rr_init g) (rr_up ld) (rr_down g)))
      (merge (fun ld g => String.eqb (rr_unit ld) (rr_unit g)) (bdu_load l bdu) (bdu_gen l bdu)).

(** Lines 56-60.
    /repo/src/nempy/spot_market_backend/ramp_rate_processing.py:56-60. *)
Definition bdu_ramps (l : list ramp_row) (bdu : list string) (interval : Q) : list bdu_ramp_row :=
  map (fun p => let '((u, d), (_, up, init)) := p in BduRamp u init up d)
      (merge (fun (a : string * Q) (b : string * Q * Q) => String.eqb (fst a) (fst (fst b)))
             (bdu_down l bdu interval) (bdu_up l bdu interval)).

(** [np.fmin]: the smaller value, ignoring a null second argument.
    /repo/src/nempy/spot_market_backend/ramp_rate_processing.py:80-85. *)
Definition fmin (a : Q) (b : option Q) : Q :=
  match b with Some c => Qmin a c | None => a end.

(** Value of a SCADA column of the right table after a left merge.
    /repo/src/nempy/spot_market_backend/ramp_rate_processing.py:78-85. *)
Definition scada_value (has : bool) (v : scada_row -> option Q) (o : option scada_row) : option Q :=
  if has then match o with Some s => v s | None => None end else None.

(** Column 'scada_ramp_up_rate' (or down) of the merged table: when both tables
    have it the merge renames both and the column does not exist any more (no
    limit); when only the ramp table has it, its own value is used.
    /repo/src/nempy/spot_market_backend/ramp_rate_processing.py:78-85. *)
Definition merged_scada (own_has : bool) (own : option Q) (has : bool)
  (v : scada_row -> option Q) (o : option scada_row) : option Q :=
  if own_has then (if has then None else own) else scada_value has v o.

(** [_adjust_for_scada_ramp_rates] for ordinary units.
    /repo/src/nempy/spot_market_backend/ramp_rate_processing.py:77-85. *)
Definition scada_adjust (has_up has_down : bool) (l : list ramp_in) (s : scada_table)
  : list ramp_row :=
  map (fun p => let '(r, o) := p in
         Ramp (rr_unit (ri_row r)) (rr_dt (ri_row r)) (rr_init (ri_row r))
              (fmin (rr_up (ri_row r)) (merged_scada has_up (ri_own_up r) (st_has_up s) sc_up o))
              (fmin (rr_down (ri_row r))
                    (merged_scada has_down (ri_own_down r) (st_has_down s) sc_down o)))
      (merge_left (fun r sc => String.eqb (rr_unit (ri_row r)) (sc_unit sc)) l (st_rows s)).

(** The same function for the net ramp rates of bidirectional units, which have
    no SCADA columns of their own.
    /repo/src/nempy/spot_market_backend/ramp_rate_processing.py:77-85. *)
Definition scada_adjust_bdu (l : list bdu_ramp_row) (s : scada_table) : list bdu_ramp_row :=
  map (fun p => let '(r, o) := p in
         BduRamp (bd_unit r) (bd_init r)
              (fmin (bd_up r) (scada_value (st_has_up s) sc_up o))
              (fmin (bd_down r) (scada_value (st_has_down s) sc_down o)))
      (merge_left (fun r sc => String.eqb (bd_unit r) (sc_unit sc)) l (st_rows s)).

(** Units that the fast start first / second run takes out.
    /repo/src/nempy/spot_market_backend/ramp_rate_processing.py:88-99. *)
Definition mode_012 (m : Z) : bool := Z.eqb m 0 || Z.eqb m 1 || Z.eqb m 2.
(** As above.  /repo/src/nempy/spot_market_backend/ramp_rate_processing.py:88-99. *)
Definition units_starting_012 (p : list fs_ramp_row) : list string :=
  map fr_unit (filter (fun f => mode_012 (fr_current_mode f)) p).
(** As above.  /repo/src/nempy/spot_market_backend/ramp_rate_processing.py:88-99. *)
Definition units_ending_012 (p : list fs_ramp_row) : list string :=
  map fr_unit (filter (fun f => mode_012 (fr_end_mode f)) p).

(** As above.  /repo/src/nempy/spot_market_backend/ramp_rate_processing.py:88-99. *)
Definition remove_starting_012 (l : list ramp_row) (p : list fs_ramp_row) : list ramp_row :=
  filter (fun r => negb (mem_str (rr_unit r) (units_starting_012 p))) l.
(** As above.  /repo/src/nempy/spot_market_backend/ramp_rate_processing.py:88-99. *)
Definition remove_ending_012 (l : list ramp_row) (p : list fs_ramp_row) : list ramp_row :=
  filter (fun r => negb (mem_str (rr_unit r) (units_ending_012 p))) l.

(** [_adjust_ramp_rates_of_units_ending_in_mode_three_and_four]: units that left
    mode two in the interval may only ramp from min loading.  Adjusted rows first.
    /repo/src/nempy/spot_market_backend/ramp_rate_processing.py:102-124. *)
Definition left_mode_two (p : list fs_ramp_row) : list (fs_ramp_row * Q) :=
  flat_map (fun f => match fr_since_mode_two f with Some t => [(f, t)] | None => [] end) p.

(** As above.  /repo/src/nempy/spot_market_backend/ramp_rate_processing.py:102-124. *)
Definition adjust_34 (l : list ramp_row) (p : list fs_ramp_row) (interval : Q) : list ramp_row :=
  match p with
  | [] => l
  | _ =>
    let adjusted :=
      map (fun q => let '(r, (f, t)) := q in
             Ramp (rr_unit r) (rr_dt r) (rr_init r)
                  ((t * (rr_up r / 60) + fr_min_loading f - rr_init r) * (60 / interval))
                  (rr_down r))
          (merge (fun r (q : fs_ramp_row * Q) => String.eqb (rr_unit r) (fr_unit (fst q)))
                 l (left_mode_two p)) in
    adjusted ++ filter (fun r => negb (mem_str (rr_unit r) (map rr_unit adjusted))) l
  end.

(** [_adjust_ramp_rates_for_fast_start_profiles].  A missing profile table makes
    the subscript fail (TypeError); an unknown run type is a ValueError.
    /repo/src/nempy/spot_market_backend/ramp_rate_processing.py:65-74. *)
Definition fast_start_adjust (l : list ramp_row) (run_type : string)
  (p : option (list fs_ramp_row)) (interval : Q) : result (list ramp_row) :=
  if String.eqb run_type "fast_start_first_run" then
    match p with None => Err EType | Some p => Ok (remove_starting_012 l p) end
  else if String.eqb run_type "fast_start_second_run" then
    match p with
    | None => Err EType
    | Some p => Ok (adjust_34 (remove_ending_012 l p) p interval)
    end
  else if String.eqb run_type "no_fast_start_units" then Ok l
  else Err EValue.

(** [_bidirectional_ramp_constraints]: one row per unit, the map covers the load
    and the generator side (load rows first).
    /repo/src/nempy/spot_market_backend/ramp_rate_processing.py:127-160. *)
Definition bdu_ids (l : list bdu_ramp_row) (next : nat) : list (nat * bdu_ramp_row) :=
  save_index next (drop_duplicates (fun a b => String.eqb (bd_unit a) (bd_unit b)) l).

(** As above.  /repo/src/nempy/spot_market_backend/ramp_rate_processing.py:127-160. *)
Definition bdu_ramp_rhs (l : list bdu_ramp_row) (up : bool) (next : nat) (interval : Q) : list crow :=
  map (fun p => let '(i, r) := p in
         CRow i (if up then "<=" else ">=")
              (if up then bd_init r + bd_up r * (interval / 60)
               else bd_init r - bd_down r * (interval / 60))
              (KUnit (bd_unit r) "energy" "bidirectional"))
      (bdu_ids l next).

(** As above.  /repo/src/nempy/spot_market_backend/ramp_rate_processing.py:127-160. *)
Definition bdu_ramp_map (l : list bdu_ramp_row) (next : nat) : list ucrow :=
  let m := merge (fun r (p : nat * bdu_ramp_row) => String.eqb (bd_unit r) (bd_unit (snd p)))
                 l (bdu_ids l next) in
  map (fun p => UC (fst (snd p)) (bd_unit (fst p)) "energy" "load" 1) m
  ++ map (fun p => UC (fst (snd p)) (bd_unit (fst p)) "energy" "generator" 1) m.
