(** Prices of bids and what they should do. *)

From Coq Require Import QArith String List Bool Arith.
Import ListNotations.
From Verif Require Import PandasModel TablesModel MarketModel SolverModel SpecLp SpecHistory SpecDispatch.
Open Scope string_scope.
Open Scope list_scope.

(** Volume bids [tv] were set, then price bids [tp], both were accepted, and no
    later call replaced either of them. *)
Definition priced (c : config) (tv tp : bid_table) (m : market) : Prop :=
  exists m0 pre mid post, new_market c = Ok m0
    /\ sane (pre ++ OpVolumeBids tv :: mid ++ OpPriceBids tp :: post) m0
    /\ snd (step (OpVolumeBids tv) (run pre m0)) = None
    /\ snd (step (OpPriceBids tp) (run (pre ++ OpVolumeBids tv :: mid) m0)) = None
    /\ leaves "bids" mid /\ leaves "bids" post /\ leaves "prices" post
    /\ m = run (pre ++ OpVolumeBids tv :: mid ++ OpPriceBids tp :: post) m0.

(** The table offers [q] for band [b] of a unit's service. *)
Definition offered (t : bid_table) (u s d b : string) (q : Q) : Prop :=
  exists r, In r (bt_rows t) /\ br_unit r = u /\ br_service r = s /\ br_dt r = d /\ In b (bt_bands t) /\ q = br_val r b.

(** The cost of one MW at price [q]: a load pays for energy; energy is valued at
    the regional reference node. *)
Definition mw_cost (lf : Q) (s d : string) (q : Q) : Q :=
  if String.eqb s "energy" then (if String.eqb d "load" then - (q / lf) else q / lf) else q.

(** Variable [i] has exactly one cost in the objective. *)
Definition only_cost (p : problem) (i : nat) (q : Q) : Prop :=
  filter (fun t => Nat.eqb (fst t) i) (p_obj p) = [(i, q)].

(** The bid variables of a band. *)
Definition band_vars (m : market) (u s d b : string) : list bidvar :=
  filter (fun v => String.eqb u (bv_unit v) && String.eqb s (bv_service v) && String.eqb d (bv_dt v)
                   && String.eqb b (bv_band v)) (rows_or_nil (m_bids m)).

(** The rows that place variable [i] in a region. *)
Definition places (m : market) (i : nat) : list rvrow :=
  filter (fun v => Nat.eqb (rv_id v) i) (regional_vars m).

(** What the bids cost, band by band. *)
Definition bids_cost (c : config) (m : market) (tp : bid_table) (x : nat -> Q) : Q :=
  qsum (map (fun r => qsum (map (fun b => qsum (map (fun u =>
      mw_cost (ui_lf u) (br_service r) (br_dt r) (br_val r b) * band_dispatch m x (br_unit r) (br_service r) (br_dt r) b)
    (filter (fun u => String.eqb (br_unit r) (ui_unit u) && String.eqb (br_dt r) (ui_dt u)) (c_ui c))))
    (bt_bands tp))) (bt_rows tp)).

(** What the violations cost. *)
Definition violations_cost (m : market) (x : nat -> Q) : Q :=
  qsum (map (fun k => co_cost k * x (co_var k)) (dconcat (m_obj_def m))).

(** No call has tied equally priced bids together. *)
Definition untied (m : market) : Prop := dget "tie_break" (m_lhs m) = None.
(** No constraint looks at single units. *)
Definition no_unit_limits (m : market) : Prop := m_c2v_unit m = [] /\ m_gen_unit m = None /\ untied m.
