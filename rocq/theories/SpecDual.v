(** Shadow prices: what it means that a solver has returned them, independent of
    how the problem is built and of how prices are reported. *)

From Coq Require Import QArith String List Bool Arith.
Import ListNotations.
From Verif Require Import PandasModel TablesModel MarketModel SolverModel PricingModel SpecLp SpecHistory SpecDispatch SpecNetwork SpecElastic SpecPricing.
Open Scope string_scope.
Open Scope list_scope.

(** Left-hand side minus right-hand side. *)
Definition gap (c : pcon) (y : assignment) : Q := linear (pc_terms c) y - rhs_value (pc_rhs c) y.
(** The bounds hold. *)
Definition boxed (p : problem) (y : assignment) : Prop := forall v, In v (p_vars p) -> in_bounds y v.
(** The cost if constraints were traded at the prices [pi] instead of being met. *)
Definition lagrangian (p : problem) (pi : nat -> Q) (y : assignment) : Q :=
  objective p y - qsum (map (fun c => pi (pc_id c) * gap c y) (p_cons p)).
(** A price has the sign of its constraint: a larger right-hand side of a "<=" cannot
    cost more, a larger one of a ">=" cannot cost less. *)
Definition signed_price (ty : string) (q : Q) : Prop := (ty = "<=" -> q <= 0) /\ (ty = ">=" -> 0 <= q).
(** [x] is feasible, [pi] are shadow prices of a linear problem at [x]: the signs are
    right, constraints that are not tight have no price, and [x] is the cheapest point
    within the bounds once constraints are traded at these prices. *)
Definition shadow_prices (p : problem) (x : assignment) (pi : nat -> Q) : Prop :=
  feasible p x
  /\ (forall c, In c (p_cons p) -> signed_price (pc_type c) (pi (pc_id c)))
  /\ (forall c, In c (p_cons p) -> pi (pc_id c) * gap c x == 0)
  /\ (forall y, boxed p y -> lagrangian p pi x <= lagrangian p pi y).

(** The problems whose shadow prices dispatch reports: the linear problem, or its
    relaxation in an over-constrained re-run. *)
Definition priced_problem (m : market) (p q : problem) : Prop :=
  exists sort x0, sorts sort /\ (q = pricing_problem sort m x0 p
    \/ exists ec ef fc prices, rerun_problem ec ef fc prices m x0 (pricing_problem sort m x0 p) = Some q).

(** Agreement on the violation variables of a group. *)
Definition same_violations (m : market) (k : string) (x y : assignment) : Prop :=
  forall i, In i (violation_vars m k) -> y i == x i.
(** The constraint of an FCAS requirement set. *)
Definition set_con (m : market) (s : string) (c : pcon) : Prop :=
  exists rows row, dget "fcas" (m_mrhs m) = Some rows /\ In row rows /\ cr_key row = KSet s /\ pc_id c = cr_id row.
(** The requirement table asks for a service of a region in a set. *)
Definition required (l : list fcas_req_row) (s r sv : string) : Prop :=
  exists b, In b l /\ fq_set b = s /\ fq_region b = r /\ fq_service b = sv.
(** A constraint has a variable on one of its sides. *)
Definition mentions (c : pcon) (i : nat) : Prop := (exists q, In (i, q) (pc_terms c)) \/ pc_rhs c = RVar i.
(** The constraint holds at [y], or meeting it is worth nothing. *)
Definition met_or_free (pi : nat -> Q) (y : assignment) (c : pcon) : Prop := con_holds y c \/ pi (pc_id c) == 0.
(** A change from [x] to [y] that costs nothing: all variables in the objective stay. *)
Definition costless (p : problem) (x y : assignment) : Prop := forall i q, In (i, q) (p_obj p) -> y i == x i.
(** What one MW of a bid is paid at a price: loads pay for energy. *)
Definition earns (s d : string) (price : Q) : Q := if String.eqb d "load" && String.eqb s "energy" then - price else price.
(** Neither the unit nor its region counts towards a constraint set through links. *)
Definition unlinked (gu : list gunit_row) (gr : list gregion_row) (u r s : string) : Prop :=
  (forall g, In g gu -> gu_unit g = u -> gu_service g <> s) /\ (forall g, In g gr -> gr_region g = r -> gr_service g <> s).
(** What counts towards an FCAS requirement set. *)
Definition set_total (m : market) (x : assignment) (l : list fcas_req_row) (gu : list gunit_row) (gr : list gregion_row)
  (gi : list ginter_row) (s : string) : Q := set_supply m x l s + linked m x gu gr gi s.
(** From [x] to [y] the flow of link [d] changes by [df] and its losses by [dl]; bids,
    violations and other links stay. *)
Definition link_shift (m : market) (dirs : list inter_row) (d : inter_row) (x y : assignment) (df dl : Q) : Prop :=
  (forall v, In v (rows_or_nil (m_bids m)) -> y (bv_id v) == x (bv_id v))
  /\ (forall w, In w (dconcat (m_deficits m)) -> y (df_id w) == x (df_id w))
  /\ link_flow m y (in_inter d) (in_link d) == link_flow m x (in_inter d) (in_link d) + df
  /\ link_loss m y (in_inter d) (in_link d) == link_loss m x (in_inter d) (in_link d) + dl
  /\ (forall e, In e dirs -> e <> d -> link_flow m y (in_inter e) (in_link e) == link_flow m x (in_inter e) (in_link e)
        /\ link_loss m y (in_inter e) (in_link e) == link_loss m x (in_inter e) (in_link e)).
(** The value of the losses of a link at the prices of its two ends, per MW. *)
Definition loss_value (lf : list lossfn_row) (d : inter_row) (from to : Q) : Q :=
  qsum (map (fun f => lf_share f * from + (1 - lf_share f) * to) (filter (about_link d) lf)).
