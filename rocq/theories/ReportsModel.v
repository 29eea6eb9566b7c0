(** Model of the reporting methods of SpotMarket (markets.py).  Definitions only.

    A dispatch stores the value of every variable; the reports are functions of
    the market's tables and these values.  The values are given here as a function
    [x] from variable ids to numbers. *)

From Coq Require Import QArith Qabs String List Bool Arith ZArith.
Import ListNotations.
From Verif Require Import PandasModel TablesModel InterModel MarketModel SolverModel.
Open Scope string_scope.
Open Scope list_scope.

(** [get_elastic_constraints_violation_degree].  The value column holds the
    values of the last dispatch.  /repo/src/nempy/markets.py:2751-2755. *)
Definition violation_degree (k : string) (m : market) (x : nat -> Q) : Q :=
  match dget (deficit_key k) (m_deficits m) with
  | Some l => qsum (map (fun d => x (df_id d)) l)
  | None => 0
  end.

(** [_decision_variables[...]] lookups of a missing table: KeyError.
    /repo/src/nempy/markets.py:3246, 3417. *)
Definition need {A B : Type} (o : option A) (f : A -> result B) : result B :=
  match o with Some a => f a | None => Err EKey end.
(** An exception ends the report.  /repo/src/nempy/markets.py:3246, 3417. *)
Definition bind {A B : Type} (r : result A) (f : A -> result B) : result B :=
  match r with Ok a => f a | Err e => Err e end.

(** [df[col] = df.apply(f, axis=1)]: on a table without rows pandas returns the
    empty table instead of a column and the assignment raises ValueError.
    /repo/src/nempy/markets.py:3567-3568, 3666-3667. *)
Definition apply_rows {A B : Type} (f : A -> B) (l : list A) : result (list B) :=
  match l with [] => Err EValue | _ => Ok (map f l) end.

(** [get_unit_dispatch]: one row per unit, dispatch type and service.
    /repo/src/nempy/markets.py:3246-3248. *)
Definition ukey : Type := string * string * string.
(** As above.  /repo/src/nempy/markets.py:3246-3248. *)
Definition ukey_eqb (a b : ukey) : bool :=
  let '(u, d, s) := a in let '(u', d', s') := b in String.eqb u u' && String.eqb d d' && String.eqb s s'.
(** As above.  /repo/src/nempy/markets.py:3246-3248. *)
Definition bid_key (v : bidvar) : ukey := (bv_unit v, bv_dt v, bv_service v).
(** As above.  /repo/src/nempy/markets.py:3246-3248. *)
Definition unit_dispatch (m : market) (x : nat -> Q) : result (list (ukey * Q)) :=
  need (m_bids m) (fun vs => Ok (groupby_sum ukey_eqb bid_key (fun v => x (bv_id v)) vs)).

(** [_get_net_unit_dispatch_by_region].  /repo/src/nempy/markets.py:3553-3571. *)
Definition net_dispatch (m : market) (x : nat -> Q) : result (list (string * Q)) :=
  bind (unit_dispatch m x) (fun rep =>
  let energy := filter (fun p => String.eqb (snd (fst p)) "energy") rep in
  let rows := merge (fun (p : ukey * Q) u => String.eqb (fst (fst (fst p))) (ui_unit u)
                                            && String.eqb (snd (fst (fst p))) (ui_dt u))
                energy (c_ui (m_cfg m)) in
  bind (apply_rows (fun p => (ui_region (snd p),
                     if String.eqb (snd (fst (fst (fst p)))) "load" then -(1) * snd (fst p) else snd (fst p)))
               rows) (fun l =>
  Ok (groupby_sum String.eqb fst snd l))).

(** [get_interconnector_flows]: the flow of every link and, once losses are set,
    its loss ([None] is NaN).  The flag says whether there is a loss column.
    /repo/src/nempy/markets.py:3417-3425. *)
Record flow_row := FlowRow { fl_inter : string; fl_link : string; fl_flow : Q; fl_loss : option Q }.
(** As above.  /repo/src/nempy/markets.py:3417-3425. *)
Definition interconnector_flows (m : market) (x : nat -> Q) : result (bool * list flow_row) :=
  need (m_inter m) (fun vs =>
  match m_loss m with
  | None => Ok (false, map (fun v => FlowRow (iv_inter v) (iv_link v) (x (iv_id v)) None) vs)
  | Some ls =>
    Ok (true, map (fun p => FlowRow (iv_inter (fst p)) (iv_link (fst p)) (x (iv_id (fst p)))
                              (option_map (fun w => x (lv_id w)) (snd p)))
                  (merge_left (fun v w => String.eqb (iv_inter v) (lv_inter w) && String.eqb (iv_link v) (lv_link w))
                              vs ls))
  end).

(** [_get_interconnector_inflow_coefficients], [_get_interconnector_inflow_by_region].
    /repo/src/nempy/markets.py:3576-3612. *)
Record end_row := EndRow { en_inter : string; en_link : string; en_region : string; en_coef : Q }.
(** As above.  /repo/src/nempy/markets.py:3576-3612. *)
Definition inflow_coefficients (dirs : list inter_row) : list end_row :=
  map (fun d => EndRow (in_inter d) (in_link d) (in_to d) 1) dirs
  ++ map (fun d => EndRow (in_inter d) (in_link d) (in_from d) (-(1))) dirs.
(** As above.  /repo/src/nempy/markets.py:3576-3612. *)
Definition at_end (e : end_row) (f : flow_row) : bool :=
  String.eqb (en_inter e) (fl_inter f) && String.eqb (en_link e) (fl_link f).
(** As above.  /repo/src/nempy/markets.py:3576-3612. *)
Definition region_inflow (dirs : list inter_row) (fs : list flow_row) : list (string * Q) :=
  groupby_sum String.eqb fst snd
    (map (fun p => (en_region (fst p), fl_flow (snd p) * en_coef (fst p)))
         (merge at_end (inflow_coefficients dirs) fs)).

(** [_get_transmission_losses].  The loss factor and the region columns are
    stacked and joined again on link and direction.  The flag of a row says
    whether it is the to_region.  /repo/src/nempy/markets.py:3647-3669. *)
Record side_row := SideRow { sd_inter : string; sd_link : string; sd_to : bool; sd_lf : Q }.
(** As above.  /repo/src/nempy/markets.py:3647-3669. *)
Definition stacked_factors (dirs : list inter_row) : list side_row :=
  map (fun d => SideRow (in_inter d) (in_link d) false (in_from_lf d)) dirs
  ++ map (fun d => SideRow (in_inter d) (in_link d) true (in_to_lf d)) dirs.
(** As above.  /repo/src/nempy/markets.py:3647-3669. *)
Record sregion_row := SRegionRow { sg_inter : string; sg_link : string; sg_to : bool; sg_region : string }.
(** As above.  /repo/src/nempy/markets.py:3647-3669. *)
Definition stacked_regions (dirs : list inter_row) : list sregion_row :=
  map (fun d => SRegionRow (in_inter d) (in_link d) true (in_to d)) dirs
  ++ map (fun d => SRegionRow (in_inter d) (in_link d) false (in_from d)) dirs.
(** As above.  /repo/src/nempy/markets.py:3647-3669. *)
Definition side_loss (to : bool) (flow lf : Q) : Q :=
  if (to && Qle_bool 0 flow) || (negb to && Qle_bool flow 0)
  then flow * (1 - lf)
  else Qabs flow - Qabs flow / lf.
(** As above.  /repo/src/nempy/markets.py:3647-3669. *)
Definition transmission_losses (dirs : list inter_row) (fs : list flow_row) : result (list (string * Q)) :=
  let lfs := merge (fun a b => String.eqb (sd_inter a) (sg_inter b) && String.eqb (sd_link a) (sg_link b)
                               && Bool.eqb (sd_to a) (sg_to b))
               (stacked_factors dirs) (stacked_regions dirs) in
  let rows := merge (fun f (p : side_row * sregion_row) =>
                       String.eqb (fl_inter f) (sd_inter (fst p)) && String.eqb (fl_link f) (sd_link (fst p))) fs lfs in
  bind (apply_rows (fun p => (sg_region (snd (snd p)),
                              side_loss (sd_to (fst (snd p))) (fl_flow (fst p)) (sd_lf (fst (snd p))))) rows) (fun l =>
  Ok (groupby_sum String.eqb fst snd l)).

(** [_get_loss_shares], [_get_from_region_loss_shares], [_get_to_region_loss_shares],
    [_get_interconnector_losses_by_region].  A null loss counts zero in the sum.
    /repo/src/nempy/markets.py:3617-3645. *)
Definition reported_shares (lf : list lossfn_row) (dirs : list inter_row) : list end_row :=
  let joined := merge (fun f d => same_link (lf_inter f) (lf_link f) (in_inter d) (in_link d)) lf dirs in
  map (fun p => EndRow (lf_inter (fst p)) (lf_link (fst p)) (in_from (snd p)) (lf_share (fst p))) joined
  ++ map (fun p => EndRow (lf_inter (fst p)) (lf_link (fst p)) (in_to (snd p)) (1 - lf_share (fst p))) joined.
(** As above.  /repo/src/nempy/markets.py:3617-3645. *)
Definition region_losses (lf : list lossfn_row) (dirs : list inter_row) (fs : list flow_row) : list (string * Q) :=
  groupby_sum String.eqb fst snd
    (map (fun p => (en_region (snd p),
                    match fl_loss (fst p) with Some q => q * en_coef (snd p) | None => 0 end))
         (merge (fun f e => at_end e f) fs (reported_shares lf dirs))).

(** [get_region_dispatch_summary].  A column that the summary does not have is
    [None].  /repo/src/nempy/markets.py:3539-3549. *)
Record summary_row := SummaryRow {
  sm_region : string; sm_dispatch : Q; sm_inflow : option Q; sm_transmission : option Q; sm_losses : option Q }.
(** As above.  /repo/src/nempy/markets.py:3539-3549. *)
Definition on_region {A B : Type} (a : string * A) (b : string * B) : bool := String.eqb (fst a) (fst b).
(** As above.  /repo/src/nempy/markets.py:3539-3549. *)
Definition merge_outer_0 (l r : list (string * Q)) : list (string * Q * Q) :=
  map (fun p => (fst (fst p), snd (fst p), match snd p with Some b => snd b | None => 0 end)) (merge_left on_region l r)
  ++ map (fun b => (fst b, 0, snd b)) (filter (fun b => negb (existsb (fun a => on_region a b) l)) r).
(** As above.  /repo/src/nempy/markets.py:3539-3549. *)
Definition region_summary (m : market) (x : nat -> Q) : result (list summary_row) :=
  bind (net_dispatch m x) (fun net =>
  bind (match m_directions m with
        | None => Ok (map (fun p => SummaryRow (fst p) (snd p) None None None) net)
        | Some dirs =>
          bind (interconnector_flows m x) (fun fs =>
          bind (transmission_losses dirs (snd fs)) (fun tl =>
          Ok (map (fun p => SummaryRow (fst (fst (fst p))) (snd (fst (fst p))) (Some (snd (fst p))) (Some (snd (snd p))) None)
               (merge (fun (a : string * Q * Q) (b : string * Q) => String.eqb (fst (fst a)) (fst b))
                  (merge_outer_0 net (region_inflow dirs (snd fs))) tl))))
        end) (fun rows =>
  match m_shares m with
  | None => Ok rows
  | Some lf =>
    match m_directions m with
    | None => Err EAttribute
    | Some dirs =>
      bind (interconnector_flows m x) (fun fs =>
      if fst fs
      then Ok (map (fun p => SummaryRow (sm_region (fst p)) (sm_dispatch (fst p)) (sm_inflow (fst p))
                               (sm_transmission (fst p)) (Some (snd (snd p))))
                (merge (fun r (b : string * Q) => String.eqb (sm_region r) (fst b)) rows (region_losses lf dirs (snd fs))))
      else Err EKey)
    end
  end)).
