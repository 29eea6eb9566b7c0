(** Specification of the historical interconnector definitions and losses. *)

From Coq Require Import QArith Qabs ZArith String List Bool.
Import ListNotations.
From Verif Require Import PandasModel TablesModel LossModel.
Open Scope string_scope.
Open Scope list_scope.

(** The demand of a region that the loss factors depend on: what was supplied plus the
    forecast change. *)
Definition demand_of (w : raw) (region : string) : Q :=
  qsum (map (fun s => su_supply s + su_forecast s)
            (filter (fun s => String.eqb (su_region s) region) (rw_sum w))).

(** The loss factor equation of an interconnector at a given flow: a constant, the
    contributions of the demands and one of the flow. *)
Definition demand_part (w : raw) (id : string) : Q :=
  qsum (map (fun f => fm_coef f * demand_of w (fm_region f))
            (filter (fun f => String.eqb (fm_id f) id) (rw_lfm w))).
Definition loss_factor (w : raw) (i : ic_row) (flow : Q) : Q :=
  ic_const i + demand_part w (ic_id i) + ic_flow i * flow.

(** The loss is the marginal loss (the loss factor less one) added up from a flow of
    zero, and is the polynomial below. *)
Definition loss_at (w : raw) (i : ic_row) (flow : Q) : Q :=
  (ic_const i + demand_part w (ic_id i) - 1) * flow + ic_flow i / 2 * (flow * flow).

(** [m] is the derivative of [g] at [q]: the error of the tangent vanishes
    quadratically. *)
Definition slope (g : Q -> Q) (q m : Q) : Prop :=
  exists B, 0 <= B /\ forall h, Qabs (g (q + h) - g q - m * h) <= B * (h * h).

(** The share of the losses charged to the from region. *)
Definition share_of (i : ic_row) : Q := if String.eqb (ic_id i) "T-V-MNSP1" then 1 else ic_share i.

(** The function [f] belongs to the link [d] of the interconnector [i]. *)
Definition function_of (d : inter_row) (i : ic_row) (f : lossfn_row) : Prop :=
  lf_inter f = in_inter d /\ lf_link f = in_link d /\ ic_id i = in_inter d.

(** The flow on the interconnector that a flow on the link means. *)
Definition inter_flow (d : inter_row) (flow : Q) : Q := inject_Z (in_gcf d) * flow.

(** The link runs along the interconnector or against it. *)
Definition along_or_against (d : inter_row) : Prop := in_gcf d = 1%Z \/ in_gcf d = (-1)%Z.

(** The segments of each interconnector are numbered in the order of their break
    points. *)
Definition numbered (w : raw) (id : string) : Prop :=
  forall a b, In a (rw_seg w) -> In b (rw_seg w) -> sr_id a = id -> sr_id b = id ->
    (sr_seg a < sr_seg b)%Z -> sr_point a < sr_point b.

(** What an interconnector definition made from the tables looks like. *)
Definition regulated (w : raw) (d : inter_row) : Prop :=
  exists i r j, In i (rw_ic w) /\ In r (rw_dir w) /\ In j (rw_ic w) /\ ic_id i = in_inter d /\ ic_id j = in_inter d
    /\ dr_id r = in_inter d /\ ic_type j = "REGULATED"
    /\ in_link d = in_inter d /\ in_from d = dr_from r /\ in_to d = dr_to r
    /\ in_min d == - ic_import i /\ in_max d == ic_export i /\ in_gcf d = 1%Z /\ in_from_lf d == 1 /\ in_to_lf d == 1.
Definition market_link (w : raw) (d : inter_row) : Prop :=
  exists i n b, In i (rw_ic w) /\ In n (rw_mnsp w) /\ In b (rw_bids w) /\ ic_id i = in_inter d /\ ic_type i = "MNSP"
    /\ mn_id n = in_inter d /\ lb_id b = in_inter d /\ lb_to b = in_to d
    /\ in_link d = mn_link n /\ in_from d = mn_from n /\ in_to d = mn_to n
    /\ in_min d == 0 /\ (forall a, lb_avail b = Some a -> in_max d == a) /\ (lb_avail b = None -> in_max d == mn_max n)
    /\ (Qeq (mn_factor n) (inject_Z (in_gcf d)) \/ forall z, ~ mn_factor n == inject_Z z)
    /\ in_from_lf d = mn_from_tlf n /\ in_to_lf d = mn_to_tlf n.

(** Only one definition has the name of [d]. *)
Definition named_once (w : raw) (d : inter_row) : Prop :=
  forall d', In d' (definitions w) -> in_inter d' = in_inter d -> in_link d' = in_link d -> d' = d.

(** [a] and [b] are neighbouring segments of the interconnector. *)
Definition neighbours (w : raw) (id : string) (a b : seg_row) : Prop :=
  In a (rw_seg w) /\ In b (rw_seg w) /\ sr_id a = id /\ sr_id b = id /\ (sr_seg a < sr_seg b)%Z
  /\ forall s, In s (rw_seg w) -> sr_id s = id -> ~ (sr_seg a < sr_seg s < sr_seg b)%Z.
