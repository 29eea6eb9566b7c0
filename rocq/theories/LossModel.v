(** Model of nempy/historical_inputs/interconnectors.py: the interconnector definitions
    and the loss model built from historical tables.  Definitions only. *)

From Coq Require Import QArith ZArith String List Bool.
Import ListNotations.
From Verif Require Import PandasModel TablesModel ReportsModel.
Open Scope string_scope.
Open Scope list_scope.

(** ** The tables read *)

(** INTERCONNECTORCONSTRAINT.  Missing values are not modelled.
    /repo/src/nempy/historical_inputs/interconnectors.py:63, 153-154, 254, 309. *)
Record ic_row := Ic {
  ic_id : string; ic_type : string; ic_import : Q; ic_export : Q;
  ic_const : Q; ic_flow : Q; ic_share : Q }.
(** INTERCONNECTOR.  /repo/src/nempy/historical_inputs/interconnectors.py:71, 307. *)
Record dir_row := Dir { dr_id : string; dr_from : string; dr_to : string }.
(** MNSP_INTERCONNECTOR.  /repo/src/nempy/historical_inputs/interconnectors.py:273, 352-353. *)
Record mnsp_row := Mnsp {
  mn_id : string; mn_link : string; mn_from_tlf : Q; mn_to_tlf : Q;
  mn_from : string; mn_to : string; mn_factor : Q; mn_max : Q }.
(** The link availabilities of the bids; [None] is NaN.
    /repo/src/nempy/historical_inputs/interconnectors.py:272, 278. *)
Record link_bid := LinkBid { lb_id : string; lb_to : string; lb_avail : option Q }.
(** LOSSFACTORMODEL.  /repo/src/nempy/historical_inputs/interconnectors.py:147, 158-159. *)
Record lfm_row := Lfm { fm_id : string; fm_region : string; fm_coef : Q }.
(** LOSSMODEL.  The segments are whole numbers, so the cast of line 167 keeps them.
    /repo/src/nempy/historical_inputs/interconnectors.py:148, 164-167. *)
Record seg_row := Seg { sr_id : string; sr_seg : Z; sr_point : Q }.
(** DISPATCHREGIONSUM.  /repo/src/nempy/historical_inputs/demand.py:89-90. *)
Record sum_row := Sum { su_region : string; su_demand : Q; su_supply : Q; su_forecast : Q }.

(** All of them.  /repo/src/nempy/historical_inputs/interconnectors.py:60-73, 146-148, 272-273. *)
Record raw := Raw {
  rw_ic : list ic_row; rw_dir : list dir_row; rw_mnsp : list mnsp_row; rw_bids : list link_bid;
  rw_lfm : list lfm_row; rw_seg : list seg_row; rw_sum : list sum_row }.

(** ** The constructor *)

(** The from region loss share of Basslink is set to one.
    /repo/src/nempy/historical_inputs/interconnectors.py:67-69. *)
Definition basslink_share (r : ic_row) : ic_row :=
  Ic (ic_id r) (ic_type r) (ic_import r) (ic_export r) (ic_const r) (ic_flow r)
     (if String.eqb (ic_id r) "T-V-MNSP1" then 1 else ic_share r).
(** As above.  /repo/src/nempy/historical_inputs/interconnectors.py:67-69. *)
Definition constraint_table (w : raw) : list ic_row := map basslink_share (rw_ic w).

(** [_format_interconnector_definitions].
    /repo/src/nempy/historical_inputs/interconnectors.py:307-313. *)
Definition format_definitions (dirs : list dir_row) (ics : list ic_row) : list (dir_row * (Q * Q)) :=
  map (fun p : dir_row * ic_row => (fst p, (-1 * ic_import (snd p), ic_export (snd p))))
    (merge (fun d i => String.eqb (dr_id d) (ic_id i)) dirs ics).

(** ** The definitions *)

(** [astype(np.int64)] cuts the fraction off.
    /repo/src/nempy/historical_inputs/interconnectors.py:267. *)
Definition to_int (q : Q) : Z := Z.quot (Qnum q) (Zpos (Qden q)).

(** The regulated interconnectors have one link named like the interconnector.
    /repo/src/nempy/historical_inputs/interconnectors.py:253-261. *)
Definition regulated_definitions (w : raw) : list inter_row :=
  let ids := map ic_id (filter (fun i => String.eqb (ic_type i) "REGULATED") (constraint_table w)) in
  map (fun p : dir_row * (Q * Q) =>
         Inter (dr_id (fst p)) (dr_id (fst p)) (dr_to (fst p)) (dr_from (fst p)) (snd (snd p)) (fst (snd p))
               (to_int 1) 1 1)
    (filter (fun p => mem_str (dr_id (fst p)) ids) (format_definitions (rw_dir w) (constraint_table w))).

(** [_format_mnsp_transmission_loss_factors] and the merge with the bids.
    /repo/src/nempy/historical_inputs/interconnectors.py:271-281, 350-361. *)
Definition market_definitions (w : raw) : list inter_row :=
  let mnsps := filter (fun i => String.eqb (ic_type i) "MNSP") (constraint_table w) in
  let links := map fst (merge (fun (m : mnsp_row) (i : ic_row) => String.eqb (mn_id m) (ic_id i)) (rw_mnsp w) mnsps) in
  map (fun p : mnsp_row * link_bid =>
         let (m, b) := p in
         Inter (mn_id m) (mn_link m) (mn_to m) (mn_from m)
               (match lb_avail b with Some a => a | None => mn_max m end) 0
               (to_int (mn_factor m)) (mn_from_tlf m) (mn_to_tlf m))
    (merge (fun m b => String.eqb (mn_id m) (lb_id b) && String.eqb (mn_to m) (lb_to b)) links (rw_bids w)).

(** [get_interconnector_definitions].
    /repo/src/nempy/historical_inputs/interconnectors.py:263-269. *)
Definition definitions (w : raw) : list inter_row := regulated_definitions w ++ market_definitions w.

(** ** The loss model *)

(** [_format_regional_demand]: the demand the loss factors depend on.
    /repo/src/nempy/historical_inputs/demand.py:89-92. *)
Definition regional_demand (l : list sum_row) : list (string * Q) :=
  map (fun r => (su_region r, su_supply r + su_forecast r)) l.

(** [_create_function].  /repo/src/nempy/historical_inputs/interconnectors.py:494-498. *)
Definition create_function (constant flow_coefficient flow : Q) : Q :=
  (constant - 1) * flow + (flow_coefficient / 2) * (flow * flow).

(** A row of the loss functions of [create_loss_functions].
    /repo/src/nempy/historical_inputs/interconnectors.py:491. *)
Record ifn := Ifn { if_id : string; if_fun : Q -> Q; if_share : Q }.

(** [create_loss_functions].
    /repo/src/nempy/historical_inputs/interconnectors.py:483-491. *)
Definition create_loss_functions (ics : list ic_row) (lfm : list lfm_row) (demand : list (string * Q)) :
  result (list ifn) :=
  let offsets := groupby_sum String.eqb (fun p : lfm_row * (string * Q) => fm_id (fst p))
                   (fun p => snd (snd p) * fm_coef (fst p))
                   (merge (fun f d => String.eqb (fm_region f) (fst d)) lfm demand) in
  apply_rows (fun p : ic_row * option (string * Q) =>
                let offset := match snd p with Some o => snd o | None => 0 end in
                Ifn (ic_id (fst p)) (create_function (ic_const (fst p) + offset) (ic_flow (fst p))) (ic_share (fst p)))
    (merge_left (fun i o => String.eqb (ic_id i) (fst o)) ics offsets).

(** [loss_function_adjuster].
    /repo/src/nempy/historical_inputs/interconnectors.py:189-192. *)
Definition adjust (f : Q -> Q) (factor : Z) (flow : Q) : Q := f (flow * inject_Z factor).

(** The break points of the links.
    /repo/src/nempy/historical_inputs/interconnectors.py:176-184. *)
Definition link_points (ds : list inter_row) (segs : list seg_row) : list bp_row :=
  map (fun p : inter_row * seg_row =>
         Bp (in_inter (fst p)) (in_link (fst p)) (sr_seg (snd p) * in_gcf (fst p))
            (sr_point (snd p) * inject_Z (in_gcf (fst p))))
    (merge (fun d s => String.eqb (in_inter d) (sr_id s)) ds segs).

(** The loss functions of the links.
    /repo/src/nempy/historical_inputs/interconnectors.py:186-198. *)
Definition link_functions (ds : list inter_row) (fs : list ifn) : result (list lossfn_row) :=
  apply_rows (fun p : inter_row * ifn =>
                LossFn (in_inter (fst p)) (in_link (fst p)) (if_share (snd p)) (adjust (if_fun (snd p)) (in_gcf (fst p))))
    (merge (fun d f => String.eqb (in_inter d) (if_id f)) ds fs).

(** [get_interconnector_loss_model].
    /repo/src/nempy/historical_inputs/interconnectors.py:146-200. *)
Definition loss_model (w : raw) : result (list lossfn_row * list bp_row) :=
  bind (create_loss_functions (constraint_table w) (rw_lfm w) (regional_demand (rw_sum w))) (fun fs =>
  bind (link_functions (definitions w) fs) (fun lfs =>
  Ok (lfs, link_points (definitions w) (rw_seg w)))).
