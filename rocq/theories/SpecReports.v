(** What the dispatch reports should say. *)

From Coq Require Import QArith Qabs String List Bool ZArith.
Import ListNotations.
From Verif Require Import PandasModel TablesModel MarketModel SolverModel ReportsModel SpecLp SpecHistory SpecDispatch SpecNetwork.
Open Scope string_scope.
Open Scope list_scope.

(** A column that is not there counts zero. *)
Definition or_zero (o : option Q) : Q := match o with Some q => q | None => 0 end.

(** What a row of the regional summary adds up to. *)
Definition row_total (row : summary_row) : Q :=
  sm_dispatch row + or_zero (sm_inflow row) - or_zero (sm_transmission row) - or_zero (sm_losses row).

(** Region [r] is an end of link [d]. *)
Definition ends (d : inter_row) (r : string) : Prop := in_to d = r \/ in_from d = r.

(** The link distorts the row of [r]: its loss factor there is not one, and [r]
    sends, or receives against the direction of the link. *)
Definition plain_end (d : inter_row) (r : string) (flow : Q) : Prop :=
  (in_from d = r -> in_from_lf d == 1 \/ flow == 0) /\ (in_to d = r -> in_to_lf d == 1 \/ 0 <= flow).

(** What the row of [r] is out by because of link [d]. *)
Definition distortion (d : inter_row) (r : string) (flow : Q) : Q :=
  (if String.eqb (in_to d) r
   then if Qle_bool 0 flow then 0 else (1 - in_to_lf d) * (1 - in_to_lf d) / in_to_lf d * Qabs flow
   else 0)
  + (if String.eqb (in_from d) r
     then if Qle_bool flow 0 then 2 * (1 - in_from_lf d) * Qabs flow
          else (1 - in_from_lf d) * (1 - in_from_lf d) / in_from_lf d * Qabs flow
     else 0).

(** Region [r] is the end of a link that has a loss function. *)
Definition loses (dirs : list inter_row) (lf : list lossfn_row) (r : string) : Prop :=
  exists d f, In d dirs /\ In f lf /\ about_link d f = true /\ ends d r.

(** Sum of the dispatch of the band variables of a group of units and services. *)
Definition group_total (m : market) (x : assignment) (g : string -> string -> string -> bool) : Q :=
  qsum (map (fun v => x (bv_id v)) (filter (fun v => g (bv_unit v) (bv_dt v) (bv_service v)) (rows_or_nil (m_bids m)))).

(** Loss factors that the row of [r] divides by are not zero. *)
Definition live_factors (dirs : list inter_row) (r : string) : Prop :=
  forall d, In d dirs -> (in_from d = r -> ~ in_from_lf d == 0) /\ (in_to d = r -> ~ in_to_lf d == 0).

(** [pr] gives the price of every requirement set: the shadow price of the set's
    constraint. *)
Definition set_prices (m : market) (pi : nat -> Q) (pr : string -> Q) : Prop :=
  forall rows row s, dget "fcas" (m_mrhs m) = Some rows -> In row rows -> cr_key row = KSet s -> pi (cr_id row) == pr s.

(** [y] is [x] with the unit's dispatch of the service, and nothing else, raised
    by [delta] in total. *)
Definition raised (m : market) (x y : assignment) (u s d : string) (delta : Q) : Prop :=
  dispatch m y u s d == dispatch m x u s d + delta
  /\ forall n, (forall v, In v (rows_or_nil (m_bids m)) -> bv_unit v = u -> bv_service v = s -> bv_dt v = d -> bv_id v <> n) ->
       y n == x n.

(** The service enters each constraint of the group at most once, and not with a
    coefficient that is taken for zero without being zero. *)
Definition clear_terms (m : market) (k u s : string) : Prop :=
  forall cs, dget k (m_c2v_unit m) = Some cs ->
    (forall c, In c cs -> uc_unit c = u -> uc_service c = s -> uc_coef c == 0 \/ (1#100000) <= Qabs (uc_coef c))
    /\ (forall i d, (length (filter (fun c => Nat.eqb (uc_con c) i && (String.eqb u (uc_unit c) && String.eqb s (uc_service c)
            && String.eqb d (uc_dt c))) cs) <= 1)%nat).
