(** Tables of FCAS requirements, read set by set. *)

From Coq Require Import QArith String List Bool Permutation.
Import ListNotations.
From Verif Require Import PandasModel TablesModel MarketModel DispatchModel.
Open Scope string_scope.
Open Scope list_scope.

(** What a row says apart from its volume. *)
Definition row_shape (r : fcas_req_row) : string * string * string * string := (fq_set r, fq_region r, fq_service r, fq_type r).
(** Two tables that differ in their volumes only. *)
Definition other_volumes (l1 l2 : list fcas_req_row) : Prop := Permutation (map row_shape l1) (map row_shape l2).
(** All rows of a set have the same volume and type. *)
Definition one_volume_each (l : list fcas_req_row) : Prop :=
  forall a b, In a l -> In b l -> fq_set a = fq_set b -> fq_volume a == fq_volume b /\ fq_type a = fq_type b.
(** The table asks for [q] in the set [s]. *)
Definition asks (l : list fcas_req_row) (s : string) (q : Q) : Prop := exists r, In r l /\ fq_set r = s /\ fq_volume r == q.
(** The two tables ask for the same in all other sets. *)
Definition only_set (s : string) (l1 l2 : list fcas_req_row) : Prop :=
  forall a b, In a l1 -> In b l2 -> fq_set a = fq_set b -> fq_set a <> s -> fq_volume a == fq_volume b.
(** The price recorded for a requirement set. *)
Definition recorded_set_price (m : market) (r : recorded) (s : string) (price : Q) : Prop :=
  exists rows row ps, dget "fcas" (m_mrhs m) = Some rows /\ In row rows /\ cr_key row = KSet s
    /\ dget "fcas" (d_prices r) = Some ps /\ In (cr_id row, price) ps.
