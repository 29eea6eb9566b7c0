(** Model of spot_market_backend/interconnectors.py.  Definitions only. *)

From Coq Require Import QArith Qabs Qminmax String List Bool ZArith.
Import ListNotations.
From Verif Require Import PandasModel TablesModel.
Open Scope string_scope.
Open Scope list_scope.

(** [create]: the flow variables.
    /repo/src/nempy/spot_market_backend/interconnectors.py:56, 68-72. *)
Definition inter_variables (l : list inter_row) (next : nat) : list intervar :=
  map (fun p => let '(i, r) := p in
         InterVar (in_inter r) (in_link r) i (in_min r) (in_max r) (in_gcf r))
      (save_index next l).

(** [create]: two rows per link, to_region with +loss factor and from_region with
    -loss factor.  The code melts the region and the loss factor columns and joins
    them again on variable id and direction, which pairs each direction with its
    own factor.  /repo/src/nempy/spot_market_backend/interconnectors.py:58-65, 74-81. *)
Definition inter_regional_map (l : list inter_row) (next : nat) : list irow :=
  map (fun p => let '(i, r) := p in
         IRow (in_inter r) (in_link r) (RV i (in_to r) "energy" (1 * in_to_lf r)))
      (save_index next l)
  ++ map (fun p => let '(i, r) := p in
         IRow (in_inter r) (in_link r) (RV i (in_from r) "energy" (-(1) * in_from_lf r)))
      (save_index next l).

(** Test that two rows are about the same link.
    /repo/src/nempy/markets.py:2219-2221. *)
Definition same_link (i1 l1 i2 l2 : string) : bool := String.eqb i1 i2 && String.eqb l1 l2.

(** Loss functions with the sending region of their link.
    /repo/src/nempy/markets.py:2219-2221. *)
Definition loss_shares (lf : list lossfn_row) (dirs : list inter_row) : list (lossfn_row * string) :=
  map (fun p => (fst p, in_from (snd p)))
      (merge (fun f d => same_link (lf_inter f) (lf_link f) (in_inter d) (in_link d)) lf dirs).

(** [create_loss_variables]: ids are given to all flow variables, then the ones
    without a loss function are dropped.
    /repo/src/nempy/spot_market_backend/interconnectors.py:372-385. *)
Definition loss_rows (vs : list intervar) (ls : list (lossfn_row * string)) (next : nat)
  : list ((nat * intervar) * (lossfn_row * string)) :=
  merge (fun (p : nat * intervar) (q : lossfn_row * string) =>
           same_link (iv_inter (snd p)) (iv_link (snd p)) (lf_inter (fst q)) (lf_link (fst q)))
        (save_index next vs) ls.

(** As above.  /repo/src/nempy/spot_market_backend/interconnectors.py:372-385. *)
Definition loss_bound (v : intervar) : Q := Qmax (Qabs (iv_lb v)) (Qabs (iv_ub v)).

(** /repo/src/nempy/spot_market_backend/interconnectors.py:375-377, 397-398. *)
Definition loss_variables (vs : list intervar) (ls : list (lossfn_row * string)) (next : nat)
  : list lossvar :=
  map (fun p => let '((i, v), _) := p in
         LossVar (iv_inter v) (iv_link v) i (-(1) * loss_bound v) (loss_bound v))
      (loss_rows vs ls next).

(** The losses are shared between the regions of the link's flow map.
    /repo/src/nempy/spot_market_backend/interconnectors.py:387-399. *)
Definition loss_regional_map (vs : list intervar) (im : list irow)
  (ls : list (lossfn_row * string)) (next : nat) : list rvrow :=
  map (fun p => let '(((i, _), (f, from)), r) := p in
         RV i (rv_region (ir_rv r)) (rv_service (ir_rv r))
            (if String.eqb from (rv_region (ir_rv r)) then -(1) * lf_share f
             else -(1) * (1 - lf_share f)))
      (merge (fun (p : (nat * intervar) * (lossfn_row * string)) r =>
                same_link (iv_inter (snd (fst p))) (iv_link (snd (fst p))) (ir_inter r) (ir_link r))
             (loss_rows vs ls next) im).

(** [create_weights]: one variable per break point.
    /repo/src/nempy/spot_market_backend/interconnectors.py:321-326. *)
Definition weight_variables (bps : list bp_row) (next : nat) : list weightvar :=
  map (fun p => let '(i, b) := p in
         WeightVar (bp_inter b) (bp_link b) (bp_seg b) (bp_point b) i 0 1)
      (save_index next bps).

(** The links that have weights, with a constraint id each.
    /repo/src/nempy/spot_market_backend/interconnectors.py:136-137, 195-196, 251-252. *)
Definition link_ids (ws : list weightvar) (next : nat) : list (nat * weightvar) :=
  save_index next
    (drop_duplicates (fun a b => same_link (wv_inter a) (wv_link a) (wv_inter b) (wv_link b)) ws).

(** Weights joined with the constraint of their link.  Lines 140-141, 199-200, 255-256.
    /repo/src/nempy/spot_market_backend/interconnectors.py:140-141, 199-200, 255-256. *)
Definition weights_by_con (ws : list weightvar) (next : nat) : list (weightvar * (nat * weightvar)) :=
  merge (fun w (p : nat * weightvar) =>
           same_link (wv_inter w) (wv_link w) (wv_inter (snd p)) (wv_link (snd p)))
        ws (link_ids ws next).

(** [create_weights_must_sum_to_one].
    /repo/src/nempy/spot_market_backend/interconnectors.py:254-264. *)
Definition weights_sum_lhs (ws : list weightvar) (next : nat) : list lrow :=
  map (fun p => LRow (fst (snd p)) (wv_id (fst p)) 1) (weights_by_con ws next).
(** As above.  /repo/src/nempy/spot_market_backend/interconnectors.py:254-264. *)
Definition weights_sum_rhs (ws : list weightvar) (next : nat) : list crow :=
  map (fun p => CRow (fst p) "=" 1 (KLink (wv_inter (snd p)) (wv_link (snd p)))) (link_ids ws next).

(** [link_inter_loss_to_interpolation_weights].
    /repo/src/nempy/spot_market_backend/interconnectors.py:135-156. *)
Definition loss_link_lhs (ws : list weightvar) (ls : list (lossfn_row * string)) (next : nat) : list lrow :=
  map (fun p => let '((w, (i, _)), (f, _)) := p in LRow i (wv_id w) (lf_fun f (wv_point w)))
      (merge (fun (p : weightvar * (nat * weightvar)) (q : lossfn_row * string) =>
                same_link (wv_inter (fst p)) (wv_link (fst p)) (lf_inter (fst q)) (lf_link (fst q)))
             (weights_by_con ws next) ls).
(** As above.  /repo/src/nempy/spot_market_backend/interconnectors.py:135-156. *)
Definition loss_link_rhs (ws : list weightvar) (lv : list lossvar) (next : nat) : list dynrow :=
  map (fun p => let '((i, w), v) := p in Dyn (wv_inter w) (wv_link w) i "=" (lv_id v))
      (merge (fun (p : nat * weightvar) v =>
                same_link (wv_inter (snd p)) (wv_link (snd p)) (lv_inter v) (lv_link v))
             (link_ids ws next) lv).

(** [link_weights_to_inter_flow].
    /repo/src/nempy/spot_market_backend/interconnectors.py:194-211. *)
Definition flow_link_lhs (ws : list weightvar) (next : nat) : list lrow :=
  map (fun p => LRow (fst (snd p)) (wv_id (fst p)) (wv_point (fst p))) (weights_by_con ws next).
(** As above.  /repo/src/nempy/spot_market_backend/interconnectors.py:194-211. *)
Definition flow_link_rhs (ws : list weightvar) (iv : list intervar) (next : nat) : list dynrow :=
  map (fun p => let '((i, w), v) := p in Dyn (wv_inter w) (wv_link w) i "=" (iv_id v))
      (merge (fun (p : nat * weightvar) v =>
                same_link (wv_inter (snd p)) (wv_link (snd p)) (iv_inter v) (iv_link v))
             (link_ids ws next) iv).
