(** Historical unit data, described without the code. *)

From Coq Require Import QArith String List Bool.
Import ListNotations.
From Verif Require Import TablesModel OffersModel UnitDataModel SpecOffers.
Open Scope string_scope.
Open Scope list_scope.

(** ** Names *)

(** The market's name of a type of bid. *)
Definition service_of (t s : string) : Prop :=
  (t = "ENERGY" /\ s = "energy") \/ (t = "RAISEREG" /\ s = "raise_reg") \/ (t = "LOWERREG" /\ s = "lower_reg")
  \/ (t = "RAISE1SEC" /\ s = "raise_1s") \/ (t = "RAISE6SEC" /\ s = "raise_6s") \/ (t = "RAISE60SEC" /\ s = "raise_60s")
  \/ (t = "RAISE5MIN" /\ s = "raise_5min") \/ (t = "LOWER1SEC" /\ s = "lower_1s") \/ (t = "LOWER6SEC" /\ s = "lower_6s")
  \/ (t = "LOWER60SEC" /\ s = "lower_60s") \/ (t = "LOWER5MIN" /\ s = "lower_5min").

Definition direction (d : string) : Prop := d = "GENERATOR" \/ d = "LOAD".

(** Band [n], counted from one, of a row is [q]. *)
Definition band_names : list string := ["1"; "2"; "3"; "4"; "5"; "6"; "7"; "8"; "9"; "10"].
Definition band (bands : list Q) (b : string) (q : Q) : Prop :=
  exists n, nth_error band_names n = Some b /\ nth_error bands n = Some q.

(** ** Inputs that belong together *)

(** The volume bid and the price bid are of the same unit, type and, where the
    volume bid has one, direction. *)
Definition belongs (v : volume_row) (p : price_offer) : Prop :=
  vo_duid v = po_duid p /\ vo_type v = po_type p /\ (vo_dir v = None \/ vo_dir v = Some (po_dir p)).

(** One price bid for each unit, type and direction, with known names and ten bands. *)
Definition prices_ok (i : inputs) : Prop :=
  NoDup (map price_key (in_prices i))
  /\ (forall p, In p (in_prices i) -> direction (po_dir p))
  /\ (forall p, In p (in_prices i) -> In (po_type p) ("ENERGY" :: fcas_types))
  /\ (forall p, In p (in_prices i) -> length (po_bands p) = 10%nat).

(** One volume bid for each price bid and the other way round. *)
Definition paired (i : inputs) : Prop :=
  NoDup (in_volumes i)
  /\ (forall v, In v (in_volumes i) -> length (vo_bands v) = 10%nat)
  /\ (forall v, In v (in_volumes i) -> exists p, In p (in_prices i) /\ belongs v p)
  /\ (forall v p q, In v (in_volumes i) -> In p (in_prices i) -> In q (in_prices i) -> belongs v p -> belongs v q -> p = q)
  /\ (forall p, In p (in_prices i) -> exists v, In v (in_volumes i) /\ belongs v p)
  /\ (forall v w p, In v (in_volumes i) -> In w (in_volumes i) -> In p (in_prices i) -> belongs v p -> belongs w p -> v = w).

(** One row for each unit in the other tables. *)
Definition tables_ok (i : inputs) : Prop :=
  NoDup (map dt_duid (in_details i)) /\ NoDup (map OffersModel.ic_duid (in_initials i))
  /\ NoDup (map ag_duid (in_agc i)) /\ NoDup (map ug_unit (in_uigf i)).

Definition inputs_ok (i : inputs) : Prop := prices_ok i /\ paired i /\ tables_ok i.

(** ** Units *)

(** The unit has details and an initial condition. *)
Definition described (i : inputs) (u : string) : Prop :=
  In u (map dt_duid (in_details i)) /\ In u (map OffersModel.ic_duid (in_initials i)).

(** The loss factor of one side of a unit: a two-way unit generates at its secondary
    factor, if there is one. *)
Definition lf_of (t : initial) (d : detail) (dir : string) (q : Q) : Prop :=
  (exists s, two_way t /\ dir = "GENERATOR" /\ dt_second d = Some s /\ q == s * dt_dlf d)
  \/ ((~ two_way t \/ dir <> "GENERATOR" \/ dt_second d = None) /\ q == dt_tlf d * dt_dlf d).

(** [r] is the row of one side of a unit. *)
Definition info_row (i : inputs) (u dir : string) (r : unit_info_row) : Prop :=
  ui_unit r = u /\ ui_dt r = side dir
  /\ exists t d, In t (in_initials i) /\ OffersModel.ic_duid t = u /\ In d (in_details i) /\ dt_duid d = u
       /\ ui_region r = dt_region d /\ lf_of t d dir (ui_lf r).

Definition info_key (r : unit_info_row) : string * string := (ui_unit r, ui_dt r).
Definition bid_key (r : TablesModel.bid_row) : string * string * string := (br_unit r, br_service r, br_dt r).
Definition trap_key (r : trap_row) : string * string * string := (tz_unit r, tz_service r, tz_dt r).

(** The row of a market's table has the bands of the row of the case file, each
    times [k]. *)
Definition row_for (u t dir : string) (bands : list Q) (k : Q) (r : TablesModel.bid_row) : Prop :=
  br_unit r = u /\ service_of t (br_service r) /\ br_dt r = side dir
  /\ forall b q, band bands b q -> br_val r b == q * k.

(** The trapezium row is of the offer. *)
Definition trap_for (o : offer) (r : trap_row) : Prop :=
  tz_unit r = of_duid o /\ service_of (of_type o) (tz_service r) /\ tz_dt r = side (of_dir o)
  /\ tz_max r = of_max o /\ tz_emin r = of_emin o /\ tz_lbp r = of_low o /\ tz_hbp r = of_high o /\ tz_emax r = of_emax o.

(** Offers were processed and trapeziums added after that. *)
Definition ready (cs : list ud_call) : Prop :=
  exists a b c, cs = a ++ Processed :: b ++ AddTraps :: c.
