(** The same calls with less strict limits or more volume on offer. *)

From Coq Require Import QArith String List Bool Permutation.
Import ListNotations.
From Verif Require Import PandasModel TablesModel MarketModel SpecLp SpecHistory SpecShuffle.
Open Scope string_scope.
Open Scope list_scope.

(** A right-hand side that asks for no more than another one of the same type. *)
Definition eased_rhs (ty : string) (q q' : Q) : Prop :=
  q == q' \/ (ty = "<=" /\ q <= q') \/ (ty = ">=" /\ q' <= q).

(** Bands with more volume.  The code drops bands below a ten thousandth of a MW: the
    same bands have to be dropped. *)
Definition more_volume (t t' : bid_table) : Prop :=
  bt_bands t = bt_bands t'
  /\ Forall2 (fun r r' => br_unit r = br_unit r' /\ br_service r = br_service r' /\ br_dt r = br_dt r'
       /\ forall b, In b (bt_bands t) -> br_val r b <= br_val r' b /\ (1 # 10000 <= br_val r b <-> 1 # 10000 <= br_val r' b))
     (bt_rows t) (bt_rows t').

(** A link with wider flow limits. *)
Definition wider (d d' : inter_row) : Prop :=
  in_inter d = in_inter d' /\ in_link d = in_link d' /\ in_to d = in_to d' /\ in_from d = in_from d' /\ in_gcf d = in_gcf d'
  /\ in_from_lf d = in_from_lf d' /\ in_to_lf d = in_to_lf d' /\ in_min d' <= in_min d /\ in_max d <= in_max d'.

(** A row of faster ramp rates for a unit with one row. *)
Definition faster (rows : list ramp_row) (r r' : ramp_row) : Prop :=
  rr_unit r = rr_unit r' /\ rr_dt r = rr_dt r' /\ rr_init r = rr_init r' /\ rr_up r <= rr_up r' /\ rr_down r <= rr_down r'
  /\ forall q, In q rows -> rr_unit q = rr_unit r' -> q = r'.

(** Limits that are higher, or left out. *)
Definition eased_limits (o o' : op) : Prop :=
  match o, o' with
  | OpVolumeBids t, OpVolumeBids t' => more_volume t t'
  | OpCapacity l _, OpCapacity l' _ =>
    forall r', In r' l' -> exists r, In r l /\ li_unit r = li_unit r' /\ li_dt r = li_dt r' /\ li_cap r <= li_cap r'
  | OpUigf l _, OpUigf l' _ =>
    forall r', In r' l' -> exists r, In r l /\ ug_unit r = ug_unit r' /\ ug_cap r <= ug_cap r'
  | OpMaxAvail l _, OpMaxAvail l' _ =>
    forall r', In r' l' -> exists r, In r l /\ ma_unit r = ma_unit r' /\ ma_service r = ma_service r' /\ ma_dt r = ma_dt r' /\ ma_max r <= ma_max r'
  | OpFcasReq l _, OpFcasReq l' _ =>
    Forall2 (fun r r' => fq_set r = fq_set r' /\ fq_region r = fq_region r' /\ fq_service r = fq_service r' /\ fq_type r = fq_type r'
       /\ eased_rhs (fq_type r) (fq_volume r) (fq_volume r')) l l'
  | OpGeneric l _, OpGeneric l' _ =>
    forall g', In g' l' -> exists g, In g l /\ ge_set g = ge_set g' /\ ge_type g = ge_type g' /\ eased_rhs (ge_type g) (ge_rhs g) (ge_rhs g')
  | OpInterconnectors l, OpInterconnectors l' => Forall2 wider l l'
  | OpRamp t s _ _ _, OpRamp t' s' _ _ _ =>
    s = s' /\ forall r', In r' (map ri_row (rt_rows t')) ->
      exists r, In r (map ri_row (rt_rows t)) /\ (r = r' \/ faster (map ri_row (rt_rows t')) r r')
  | OpJointRamping l _ _ _, OpJointRamping l' _ _ _ =>
    forall r', In r' l' -> exists r, In r l /\ rg_unit r = rg_unit r' /\ rg_init r = rg_init r' /\ rg_up r <= rg_up r' /\ rg_down r <= rg_down r'
  | _, _ => False
  end.

(** Each call is the same, up to the order of its rows, or eased; the calls may come in
    another order. *)
Definition eased_call (o o' : op) : Prop := same_call o o' \/ eased_limits o o'.
Definition eased_calls (ops ops' : list op) : Prop :=
  exists between, Permutation ops between /\ Forall2 eased_call between ops'.
