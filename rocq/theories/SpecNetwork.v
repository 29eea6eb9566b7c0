(** Regions and interconnectors: which tables are in force and what they mean for
    a region. *)

From Coq Require Import QArith String List Bool ZArith.
Import ListNotations.
From Verif Require Import PandasModel TablesModel MarketModel SolverModel SpecLp SpecHistory SpecDispatch.
Open Scope string_scope.
Open Scope list_scope.

(** The history ends with the interconnectors [dirs] and the loss model [lf], [bps]
    in force: nothing set; interconnectors without losses; or both, the losses set
    after the interconnectors. *)
Definition network_set (m0 : market) (ops : list op) (dirs : list inter_row) (lf : list lossfn_row)
  (bps : list bp_row) : Prop :=
  (dirs = [] /\ lf = [] /\ bps = [] /\ leaves "interconnectors" ops /\ leaves "losses" ops)
  \/ (lf = [] /\ bps = [] /\ stands m0 ops (OpInterconnectors dirs) /\ leaves "losses" ops)
  \/ (exists pre post, ops = pre ++ OpLosses lf bps :: post
       /\ stands m0 pre (OpInterconnectors dirs)
       /\ snd (step (OpLosses lf bps) (run pre m0)) = None
       /\ leaves "interconnectors" post /\ leaves "losses" post /\ leaves "interpolation_weights" post).

Definition network (c : config) (dirs : list inter_row) (lf : list lossfn_row) (bps : list bp_row)
  (m : market) : Prop :=
  exists m0 ops, new_market c = Ok m0 /\ sane ops m0 /\ network_set m0 ops dirs lf bps /\ m = run ops m0.

(** What the flow on link [d] brings into region [r]. *)
Definition flow_effect (d : inter_row) (r : string) (flow : Q) : Q :=
  (if String.eqb (in_to d) r then in_to_lf d * flow else 0)
  - (if String.eqb (in_from d) r then in_from_lf d * flow else 0).

(** The part of the losses of link [d] that region [r] has to supply. *)
Definition loss_charge (d : inter_row) (f : lossfn_row) (r : string) : Q :=
  if String.eqb (in_from d) r then lf_share f
  else if String.eqb (in_to d) r then 1 - lf_share f
  else 0.

Definition about_link (d : inter_row) (f : lossfn_row) : bool :=
  String.eqb (in_inter d) (lf_inter f) && String.eqb (in_link d) (lf_link f).

(** Supply of energy to region [r]: its units, flows over the interconnectors,
    losses. *)
Definition inflow (m : market) (x : assignment) (dirs : list inter_row) (r : string) : Q :=
  qsum (map (fun d => flow_effect d r (link_flow m x (in_inter d) (in_link d))) dirs).
Definition losses (m : market) (x : assignment) (dirs : list inter_row) (lf : list lossfn_row) (r : string) : Q :=
  qsum (map (fun d =>
    qsum (map (fun f => loss_charge d f r * link_loss m x (in_inter d) (in_link d)) (filter (about_link d) lf))) dirs).
Definition energy_balance (m : market) (x : assignment) (dirs : list inter_row) (lf : list lossfn_row)
  (r : string) : Q :=
  region_supply m x r "energy" + inflow m x dirs r - losses m x dirs lf r.

(** Some unit of the region offers the service. *)
Definition region_offers (m : market) (r s : string) : Prop :=
  exists u, In u (c_ui (m_cfg m)) /\ ui_region u = r /\ offers m (ui_unit u) s (ui_dt u).
(** Some decision variable supplies energy to the region. *)
Definition supplied (m : market) (dirs : list inter_row) (r : string) : Prop :=
  region_offers m r "energy" \/ exists d, In d dirs /\ (in_to d = r \/ in_from d = r).

(** The constraint of the problem that balances region [r]. *)
Definition balance_con (m : market) (r : string) (c : pcon) : Prop :=
  exists rows row, dget "demand" (m_mrhs m) = Some rows /\ In row rows /\ cr_key row = KRegion r
    /\ pc_id c = cr_id row.

(** [y] is [x] with the flow of a link changed by [delta], nothing else. *)
Definition flow_changed (m : market) (i l : string) (delta : Q) (x y : assignment) : Prop :=
  (forall v, In v (rows_or_nil (m_inter m)) -> iv_inter v = i -> iv_link v = l -> y (iv_id v) == x (iv_id v) + delta)
  /\ (forall n, (forall v, In v (rows_or_nil (m_inter m)) -> iv_inter v = i -> iv_link v = l -> iv_id v <> n) ->
        y n == x n).
(** The same for the loss of a link. *)
Definition loss_changed (m : market) (i l : string) (delta : Q) (x y : assignment) : Prop :=
  (forall v, In v (rows_or_nil (m_loss m)) -> lv_inter v = i -> lv_link v = l -> y (lv_id v) == x (lv_id v) + delta)
  /\ (forall n, (forall v, In v (rows_or_nil (m_loss m)) -> lv_inter v = i -> lv_link v = l -> lv_id v <> n) ->
        y n == x n).

(** ** Generic constraint links *)

(** Output of a unit for a service: both sides together, the load side of a
    bidirectional unit counts negative for energy. *)
Definition has_side (c : config) (u d : string) : bool :=
  existsb (fun r => String.eqb (ui_unit r) u && String.eqb (ui_dt r) d) (c_ui c).
Definition unit_output (m : market) (x : assignment) (u s : string) : Q :=
  let side d := if has_side (m_cfg m) u d then dispatch m x u s d else 0 in
  if String.eqb s "energy" && has_side (m_cfg m) u "generator" && has_side (m_cfg m) u "load"
  then side "generator" - side "load"
  else side "generator" + side "load".

(** Dispatch of a service in a region, loads counted like generators. *)
Definition region_dispatch (m : market) (x : assignment) (r s : string) : Q :=
  qsum (map (fun u => dispatch m x (ui_unit u) s (ui_dt u))
    (filter (fun u => String.eqb r (ui_region u)) (c_ui (m_cfg m)))).

(** Flow of an interconnector: the flows of its links, each with its factor. *)
Definition interconnector_flow (m : market) (x : assignment) (i : string) : Q :=
  qsum (map (fun v => inject_Z (iv_gcf v) * x (iv_id v))
    (filter (fun v => String.eqb i (iv_inter v)) (rows_or_nil (m_inter m)))).

(** Left-hand side of constraint set [s] with the given link tables. *)
Definition linked (m : market) (x : assignment) (gu : list gunit_row) (gr : list gregion_row)
  (gi : list ginter_row) (s : string) : Q :=
  qsum (map (fun g => gu_coef g * unit_output m x (gu_unit g) (gu_service g))
         (filter (fun g => String.eqb s (gu_set g)) gu))
  + qsum (map (fun g => gr_coef g * region_dispatch m x (gr_region g) (gr_service g))
         (filter (fun g => String.eqb s (gr_set g)) gr))
  + qsum (map (fun g => gi_coef g * interconnector_flow m x (gi_inter g))
         (filter (fun g => String.eqb s (gi_set g)) gi)).

(** The call stands, or the table is empty and no call ever set it. *)
Definition set_or_never (m0 : market) (ops : list op) (o : op) (empty : Prop) : Prop :=
  stands m0 ops o \/ (empty /\ forall k, In k (touches o) -> leaves k ops).

(** The link tables in force. *)
Definition links (c : config) (gu : list gunit_row) (gr : list gregion_row) (gi : list ginter_row)
  (m : market) : Prop :=
  exists m0 ops, new_market c = Ok m0 /\ sane ops m0 /\ m = run ops m0
    /\ set_or_never m0 ops (OpLinkUnits gu) (gu = [])
    /\ set_or_never m0 ops (OpLinkRegions gr) (gr = [])
    /\ set_or_never m0 ops (OpLinkInters gi) (gi = []).

(** Some decision variable is linked to the set. *)
Definition some_linked (m : market) (gu : list gunit_row) (gr : list gregion_row) (gi : list ginter_row)
  (s : string) : Prop :=
  (exists g d, In g gu /\ gu_set g = s /\ registered (m_cfg m) (gu_unit g) d /\ offers m (gu_unit g) (gu_service g) d)
  \/ (exists g, In g gr /\ gr_set g = s /\ region_offers m (gr_region g) (gr_service g))
  \/ (exists g v, In g gi /\ gi_set g = s /\ In v (rows_or_nil (m_inter m)) /\ iv_inter v = gi_inter g).

(** ** FCAS requirement sets *)

(** Supply enabled towards requirement set [s]: over the rows of the set, what
    the units of the row's region give of the row's service. *)
Definition set_supply (m : market) (x : assignment) (l : list fcas_req_row) (s : string) : Q :=
  qsum (map (fun r => region_supply m x (fq_region r) (fq_service r))
    (filter (fun r => String.eqb s (fq_set r)) l)).

(** ** Interpolation of losses *)

Definition at_link (d : inter_row) (b : bp_row) : bool :=
  String.eqb (in_inter d) (bp_inter b) && String.eqb (in_link d) (bp_link b).

(** [a] and [b] are break points of link [d] with no other between them. *)
Definition adjacent (d : inter_row) (bps : list bp_row) (a b : bp_row) : Prop :=
  In a bps /\ In b bps /\ at_link d a = true /\ at_link d b = true /\ (bp_seg a < bp_seg b)%Z
  /\ forall c, In c bps -> at_link d c = true -> ~ (bp_seg a < bp_seg c < bp_seg b)%Z.
(** The break points of the link rise along its segments. *)
Definition rising (d : inter_row) (bps : list bp_row) : Prop :=
  forall a b, In a bps -> In b bps -> at_link d a = true -> at_link d b = true -> (bp_seg a < bp_seg b)%Z ->
    bp_point a < bp_point b.

(** [y] is the value at [q] of the straight line through (a, fa) and (b, fb), and
    [q] lies between [a] and [b]. *)
Definition interpolates (a fa b fb q y : Q) : Prop :=
  a <= q /\ q <= b /\ y * (b - a) == fa * (b - q) + fb * (q - a).
