(** Quantities the properties talk about: dispatch of a unit, net energy, regional
    supply.  [x] is the value the solver gives to each variable. *)

From Coq Require Import QArith String List Bool.
Import ListNotations.
From Verif Require Import PandasModel TablesModel MarketModel.
Open Scope string_scope.
Open Scope list_scope.

(** Dispatch of a unit for a service and dispatch type: the sum over its bands. *)
Definition dispatch (m : market) (x : nat -> Q) (u s d : string) : Q :=
  qsum (map (fun v => x (bv_id v))
    (filter (fun v => String.eqb u (bv_unit v) && String.eqb s (bv_service v) && String.eqb d (bv_dt v))
            (rows_or_nil (m_bids m)))).

(** Dispatch of one band. *)
Definition band_dispatch (m : market) (x : nat -> Q) (u s d b : string) : Q :=
  qsum (map (fun v => x (bv_id v))
    (filter (fun v => String.eqb u (bv_unit v) && String.eqb s (bv_service v) && String.eqb d (bv_dt v)
                      && String.eqb b (bv_band v))
            (rows_or_nil (m_bids m)))).

(** The unit has at least one band with a decision variable. *)
Definition offers (m : market) (u s d : string) : Prop :=
  exists v, In v (rows_or_nil (m_bids m)) /\ bv_unit v = u /\ bv_service v = s /\ bv_dt v = d.

(** The unit is listed in unit_info with that dispatch type. *)
Definition registered (c : config) (u d : string) : Prop :=
  exists r, In r (c_ui c) /\ ui_unit r = u /\ ui_dt r = d.

(** A bidirectional unit is listed as generator and as load. *)
Definition two_sided (c : config) (u : string) : Prop :=
  registered c u "generator" /\ registered c u "load".

Definition net_energy (m : market) (x : nat -> Q) (u : string) : Q :=
  dispatch m x u "energy" "generator" - dispatch m x u "energy" "load".

(** What the units of a region supply of a service: energy loads count negative. *)
Definition region_supply (m : market) (x : nat -> Q) (r s : string) : Q :=
  qsum (map (fun u => (if String.eqb (ui_dt u) "load" && String.eqb s "energy" then -(1) else 1)
                      * dispatch m x (ui_unit u) s (ui_dt u))
    (filter (fun u => String.eqb r (ui_region u)) (c_ui (m_cfg m)))).

(** Flow and loss of a link. *)
Definition link_flow (m : market) (x : nat -> Q) (i l : string) : Q :=
  qsum (map (fun v => x (iv_id v))
    (filter (fun v => String.eqb i (iv_inter v) && String.eqb l (iv_link v)) (rows_or_nil (m_inter m)))).
Definition link_loss (m : market) (x : nat -> Q) (i l : string) : Q :=
  qsum (map (fun v => x (lv_id v))
    (filter (fun v => String.eqb i (lv_inter v) && String.eqb l (lv_link v)) (rows_or_nil (m_loss m)))).
