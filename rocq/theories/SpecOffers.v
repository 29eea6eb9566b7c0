(** Scaling and enabling of FCAS offers, described without the code. *)

From Coq Require Import QArith Qminmax Qabs String List Bool ZArith.
Import ListNotations.
From Verif Require Import TablesModel OffersModel.
Open Scope string_scope.
Open Scope list_scope.

(** ** C42 *)

Definition same_offer (a b : offer) : Prop :=
  of_duid a = of_duid b /\ of_dir a = of_dir b /\ of_type a = of_type b /\ of_bands a = of_bands b.

(** [b] is [a] with a trapezium that is nowhere larger and has the same slopes: the
    run of a slope stays in proportion to the maximum. *)
Definition tightens (a b : offer) : Prop :=
  same_offer a b
  /\ of_max b <= of_max a /\ of_emin a <= of_emin b /\ of_emax b <= of_emax a
  /\ (of_low b - of_emin b) * of_max a == (of_low a - of_emin a) * of_max b
  /\ (of_emax b - of_high b) * of_max a == (of_emax a - of_high a) * of_max b.

Definition regulation (s : string) : Prop := s = "RAISEREG" \/ s = "LOWERREG".

(** The limits of a row of AGC limits for a service. *)
Definition agc_min (a : agc_row) (s : string) : option Q :=
  if String.eqb s "RAISEREG" then ag_raise_min a else if String.eqb s "LOWERREG" then ag_lower_min a else None.
Definition agc_max (a : agc_row) (s : string) : option Q :=
  if String.eqb s "RAISEREG" then ag_raise_max a else if String.eqb s "LOWERREG" then ag_lower_max a else None.

(** Enablement limits of [o'] that keep to positive limits and move no further. *)
Definition keeps_limits (lo hi : option Q) (o o' : offer) : Prop :=
  (forall l, lo = Some l -> 0 < l -> l <= of_emin o')
  /\ (forall h, hi = Some h -> 0 < h -> of_emax o' <= h)
  /\ (of_emin o' = of_emin o \/ lo = Some (of_emin o')) /\ (of_emax o' = of_emax o \/ hi = Some (of_emax o')).

(** The ramp rate of a unit for a regulation service. *)
Definition reg_rate (i : initial) (s : string) : option Q :=
  if String.eqb s "RAISEREG" then ic_up i else if String.eqb s "LOWERREG" then ic_down i else None.
Definition rates_ok (ics : list initial) : Prop :=
  forall i q, In i ics -> ic_up i = Some q \/ ic_down i = Some q -> 0 <= q.

(** ** C43 *)

(** [r] is [q] to five decimal places. *)
Definition nearest5 (q r : Q) : Prop := (exists z, r == inject_Z z / 100000) /\ Qabs (q - r) <= 1 # 200000.

Definition fcas_types : list string :=
  ["RAISEREG"; "LOWERREG"; "RAISE1SEC"; "RAISE6SEC"; "RAISE60SEC"; "RAISE5MIN";
   "LOWER1SEC"; "LOWER6SEC"; "LOWER60SEC"; "LOWER5MIN"].

(** The tables have one row for each key and the known names. *)
Definition offers_ok (offers : list offer) : Prop :=
  (forall o, In o offers -> of_type o = "ENERGY" \/ In (of_type o) fcas_types)
  /\ (forall o, In o offers -> of_dir o = "GENERATOR" \/ of_dir o = "LOAD")
  /\ (forall a b, In a offers -> In b offers -> of_duid a = of_duid b -> of_dir a = of_dir b -> of_type a = of_type b -> a = b).
Definition initials_ok (ics : list initial) : Prop :=
  forall i j, In i ics -> In j ics -> ic_duid i = ic_duid j -> i = j.
Definition caps_ok (caps : list cap_row) : Prop :=
  (forall c d, In c caps -> cp_dir c = Some d -> d = "generator" \/ d = "load")
  /\ (forall a b, In a caps -> In b caps -> cp_unit a = cp_unit b -> cp_dir a = cp_dir b -> cp_dir a <> None -> a = b).

(** The capacity of one side of a unit. *)
Definition side (d : string) : string := if String.eqb d "LOAD" then "load" else "generator".
Definition capacity (caps : list cap_row) (u d : string) (q : Q) : Prop :=
  exists c, In c caps /\ cp_unit c = u /\ cp_dir c = Some (side d) /\ cp_cap c = q.

(** Positive availability, some positive band, and a capacity, if there is one,
    that reaches the lower enablement limit. *)
Definition offered (caps : list cap_row) (o : offer) : Prop :=
  0 < of_max o /\ (exists v, In v (of_bands o) /\ 0 < v)
  /\ (forall q, capacity caps (of_duid o) (of_dir o) q -> of_emin o <= q).

(** Initial output, to five decimal places, within limits. *)
Definition inside (lo hi : Q) (mw : option Q) : Prop :=
  exists q, mw = Some q /\ lo <= round5 q /\ round5 q <= hi.
Definition not_negative (mw : option Q) : option Q :=
  match mw with Some q => Some (Qmax 0 q) | None => None end.

Definition two_way (i : initial) : Prop := ic_type i = "BIDIRECTIONAL".

(** The offer of the same service on the other side of a two-way unit. *)
Definition mirror (offers : list offer) (caps : list cap_row) (o o' : offer) : Prop :=
  In o' offers /\ of_duid o' = of_duid o /\ of_type o' = of_type o /\ of_dir o' <> of_dir o /\ offered caps o'.

(** The lower and upper limit used for an offer: of both sides together for the
    regulation services of two-way units. *)
Definition lower_limit (offers : list offer) (caps : list cap_row) (o : offer) (q : Q) : Prop :=
  (of_dir o = "GENERATOR" /\ exists o', mirror offers caps o o' /\ q = of_emin o')
  \/ ((of_dir o = "LOAD" \/ forall o', ~ mirror offers caps o o') /\ q = of_emin o).
Definition upper_limit (offers : list offer) (caps : list cap_row) (o : offer) (q : Q) : Prop :=
  (of_dir o = "LOAD" /\ exists o', mirror offers caps o o' /\ q = of_emax o')
  \/ ((of_dir o = "GENERATOR" \/ forall o', ~ mirror offers caps o o') /\ q = of_emax o).

Definition load_fits (caps : list cap_row) (o : offer) : Prop :=
  forall q, capacity caps (of_duid o) "LOAD" q -> - q <= of_emax o.

(** The conditions for enabling an FCAS offer. *)
Definition enabled (offers : list offer) (ics : list initial) (caps : list cap_row) (o : offer) : Prop :=
  offered caps o
  /\ exists i, In i ics /\ ic_duid i = of_duid o
     /\ (regulation (of_type o) -> forall q, ic_agc i = Some q -> ~ q == 0)
     /\ ((~ two_way i /\ 0 <= of_emax o /\ inside (of_emin o) (of_emax o) (not_negative (ic_mw i)))
         \/ (two_way i /\ ~ regulation (of_type o) /\ of_dir o = "GENERATOR" /\ 0 <= of_emax o /\ load_fits caps o
             /\ inside (of_emin o) (of_emax o) (ic_mw i))
         \/ (two_way i /\ ~ regulation (of_type o) /\ of_dir o = "LOAD" /\ of_emin o <= 0
             /\ inside (of_emin o) (of_emax o) (ic_mw i))
         \/ (two_way i /\ regulation (of_type o) /\ of_dir o = "GENERATOR" /\ 0 <= of_emax o
             /\ exists lo hi, lower_limit offers caps o lo /\ upper_limit offers caps o hi /\ inside lo hi (ic_mw i))
         \/ (two_way i /\ regulation (of_type o) /\ of_dir o = "LOAD" /\ of_emin o <= 0 /\ load_fits caps o
             /\ exists lo hi, lower_limit offers caps o lo /\ upper_limit offers caps o hi /\ inside lo hi (ic_mw i))).

Definition same_key (p : price_offer) (o : offer) : Prop :=
  po_duid p = of_duid o /\ po_dir p = of_dir o /\ po_type p = of_type o.

(** One row of AGC limits and of forecast for each unit. *)
Definition agc_ok (agc : list agc_row) : Prop := forall a b, In a agc -> In b agc -> ag_duid a = ag_duid b -> a = b.
Definition uigf_ok (uigf : list uigf_row) : Prop := forall a b, In a uigf -> In b uigf -> ug_unit a = ug_unit b -> a = b.

(** ** Keys *)
Definition offer_key (o : offer) : string * string * string := (of_duid o, of_dir o, of_type o).
Definition price_key (p : price_offer) : string * string * string := (po_duid p, po_dir p, po_type p).
