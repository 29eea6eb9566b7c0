(** What the queries should return and what the filled tables should hold. *)

From Coq Require Import ZArith String List Bool Sorting.Permutation Sorting.Sorted.
Import ListNotations.
From Verif Require Import PandasModel CacheModel SpecCache DbModel.
Open Scope string_scope.
Open Scope list_scope.

(** A time whose year has at most four digits. *)
Definition stamped (t : datetime) : Prop := valid_time t /\ (d_year (t_date t) <= 9999)%Z.

(** The record in force at a time: of those with its id that came into effect by then,
    none has a later date, and none with the same date a higher version. *)
Definition in_effect {A : Type} (dt : string) (table : list (dated A)) (r : dated A) : Prop :=
  In r table /\ text_le (e_date r) dt = true
  /\ forall r', In r' table -> e_id r' = e_id r -> text_le (e_date r') dt = true ->
       text_le (e_date r') (e_date r) = true /\ (e_date r' = e_date r -> version_le (e_version r') (e_version r) = true).

(** The same with times and numbers in place of texts. *)
Record entry (A : Type) := Entry { n_id : ident; n_time : datetime; n_version : Z; n_data : A }.
Arguments Entry {A} n_id n_time n_version n_data.
Arguments n_id {A} e.
Arguments n_time {A} e.
Arguments n_version {A} e.
Arguments n_data {A} e.
Definition stored {A : Type} (e : entry A) : dated A := Dated (n_id e) (stamp (n_time e)) (Num (n_version e)) (n_data e).
Definition entry_in_effect {A : Type} (now : datetime) (entries : list (entry A)) (e : entry A) : Prop :=
  In e entries /\ (moment (n_time e) <= moment now)%Z
  /\ forall e', In e' entries -> n_id e' = n_id e -> (moment (n_time e') <= moment now)%Z ->
       (moment (n_time e') < moment (n_time e) \/ (moment (n_time e') = moment (n_time e) /\ n_version e' <= n_version e))%Z.

(** A sort by start date, stable or not. *)
Definition sorts {A : Type} (sort : list (spell A) -> list (spell A)) : Prop :=
  forall l, Permutation l (sort l) /\ StronglySorted (fun a b => text_le (s_start a) (s_start b) = true) (sort l).
(** The record of a unit with the latest start. *)
Definition last_started {A : Type} (dt : string) (table : list (spell A)) (r : spell A) : Prop :=
  In r table /\ text_le (s_start r) dt = true
  /\ forall r', In r' table -> s_unit r' = s_unit r -> text_le (s_start r') dt = true -> text_le (s_start r') (s_start r) = true.

(** Months in a row, counted from year 0. *)
Definition month_index (ym : Z * Z) : Z := (12 * fst ym + (snd ym - 1))%Z.
Definition is_month (ym : Z * Z) : Prop := (1 <= snd ym <= 12)%Z.
(** The months from one to another, in order. *)
Definition from_to (first last : Z) (l : list (Z * Z)) : Prop :=
  Forall is_month l /\ map month_index l = map (fun i => (first + Z.of_nat i)%Z) (seq 0 (Z.to_nat (last - first + 1))).

(** The tables of dispatch results, of which every month is needed, and the tables of
    records in effect, of which the last month is enough. *)
Definition result_tables : list string :=
  ["DISPATCHCONSTRAINT"; "DISPATCHINTERCONNECTORRES"; "DISPATCHLOAD"; "DISPATCHPRICE"; "DISPATCHREGIONSUM"].
Definition record_tables : list string :=
  ["DUDETAIL"; "DUDETAILSUMMARY"; "GENCONDATA"; "INTERCONNECTOR"; "INTERCONNECTORCONSTRAINT"; "LOSSFACTORMODEL"; "LOSSMODEL"; "MNSP_INTERCONNECTOR";
   "SPDCONNECTIONPOINTCONSTRAINT"; "SPDINTERCONNECTORCONSTRAINT"; "SPDREGIONCONSTRAINT"].

(** A file with all columns of the table. *)
Definition complete {A : Type} (columns : list string) (f : csv A) : Prop := forall c, In c columns -> In c (f_columns f).
(** It also has one that is not in the table. *)
Definition wider {A : Type} (columns : list string) (f : csv A) : Prop := complete columns f /\ exists c, In c (f_columns f) /\ ~ In c columns.

(** A row of a monthly file that does not belong to an intervention run. *)
Definition own_run {A : Type} (f : csv A) (k : ident) (a : A) : Prop :=
  exists i, In (k, i, a) (f_rows f) /\ (In "INTERVENTION" (f_columns f) -> i = 0%Z).
(** A row of a file. *)
Definition file_row {A : Type} (f : csv A) (k : ident) (a : A) : Prop := exists i, In (k, i, a) (f_rows f).
