(** Model of nempy/historical_inputs/mms_db.py: the queries of the database and how it
    is filled.  Definitions only. *)

From Coq Require Import ZArith Ascii String List Bool.
Import ListNotations.
From Verif Require Import PandasModel CacheModel.
Open Scope string_scope.
Open Scope list_scope.

(** ** Values *)

(** The order of texts in SQLite (BINARY collation), which is also that of python.
    Used in /repo/src/nempy/historical_inputs/mms_db.py:1099, 1102, 1291, 1301. *)
Fixpoint text_le (a b : string) : bool :=
  match a, b with
  | "", _ => true
  | String _ _, "" => false
  | String c x, String d y =>
      if Ascii.eqb c d then text_le x y else (nat_of_ascii c <? nat_of_ascii d)%nat
  end.

(** Dates are stored as texts in the format %Y/%m/%d %H:%M:%S.
    /repo/src/nempy/historical_inputs/mms_db.py:1010-1018. *)
Definition stamp (t : datetime) : string :=
  cat [zfill 4 (str (d_year (t_date t))); "/"; zfill 2 (str (d_month (t_date t))); "/"; zfill 2 (str (d_day (t_date t))); " ";
       zfill 2 (str (t_hour t)); ":"; zfill 2 (str (t_min t)); ":"; zfill 2 (str (t_sec t))].

(** A version is a number in the tables that pandas creates and a text in those of
    [create_table_in_sqlite_db].  Numbers are smaller than texts.  NULL is not
    modelled.
    /repo/src/nempy/historical_inputs/mms_db.py:450, 526-530, 621. *)
Inductive version := Num (n : Z) | Text (s : string).
(** As above.  /repo/src/nempy/historical_inputs/mms_db.py:450, 526-530, 621. *)
Definition version_le (a b : version) : bool :=
  match a, b with
  | Num x, Num y => (x <=? y)%Z
  | Num _, Text _ => true
  | Text _, Num _ => false
  | Text x, Text y => text_le x y
  end.
(** As above.  /repo/src/nempy/historical_inputs/mms_db.py:450, 526-530, 621. *)
Definition version_eqb (a b : version) : bool :=
  match a, b with
  | Num x, Num y => (x =? y)%Z
  | Text x, Text y => (x =? y)%string
  | _, _ => false
  end.

(** The columns of the primary key that are neither date nor version.
    /repo/src/nempy/historical_inputs/mms_db.py:1279, 1396. *)
Definition ident := list string.
(** As above.  /repo/src/nempy/historical_inputs/mms_db.py:1279, 1396. *)
Fixpoint ident_eqb (a b : ident) : bool :=
  match a, b with
  | [], [] => true
  | x :: a', y :: b' => (x =? y)%string && ident_eqb a' b'
  | _, _ => false
  end.

(** ** Tables with effective dates and versions *)

(** A row: its id, date, version and remaining columns.
    /repo/src/nempy/historical_inputs/mms_db.py:179-200. *)
Record dated (A : Type) := Dated { e_id : ident; e_date : string; e_version : version; e_data : A }.
Arguments Dated {A} e_id e_date e_version e_data.
Arguments e_id {A} d.
Arguments e_date {A} d.
Arguments e_version {A} d.
Arguments e_data {A} d.

(** MAX over the rows of a group.  A column beside it is that of the row with the
    maximum (SQLite, bare columns in an aggregate query).
    /repo/src/nempy/historical_inputs/mms_db.py:1295, 1301. *)
Fixpoint max_row {B : Type} (le : B -> B -> bool) (l : list B) : option B :=
  match l with
  | [] => None
  | x :: r => match max_row le r with Some y => Some (if le x y then y else x) | None => Some x end
  end.
(** GROUP BY: the maximum of each group.
    /repo/src/nempy/historical_inputs/mms_db.py:1297, 1303. *)
Definition group_max {B K : Type} (keq : K -> K -> bool) (key : B -> K) (le : B -> B -> bool) (l : list B) : list B :=
  flat_map (fun k => match max_row le (filter (fun b => keq (key b) k) l) with Some b => [b] | None => [] end) (keys_of keq (map key l)).

(** The four temporary tables.
    /repo/src/nempy/historical_inputs/mms_db.py:1287-1311, 1404-1428. *)
Definition temp {A : Type} (dt : string) (table : list (dated A)) : list (dated A) := filter (fun r => text_le (e_date r) dt) table.
(** As above.  /repo/src/nempy/historical_inputs/mms_db.py:1287-1311, 1404-1428. *)
Definition date_eqb (a b : ident * string) : bool := ident_eqb (fst a) (fst b) && (snd a =? snd b)%string.
(** As above.  /repo/src/nempy/historical_inputs/mms_db.py:1287-1311, 1404-1428. *)
Definition temp2 {A : Type} (t : list (dated A)) : list (dated unit) :=
  group_max date_eqb (fun r => (e_id r, e_date r)) (fun a b => version_le (e_version a) (e_version b))
    (map (fun r => Dated (e_id r) (e_date r) (e_version r) tt) t).
(** As above.  /repo/src/nempy/historical_inputs/mms_db.py:1287-1311, 1404-1428. *)
Definition temp3 (t2 : list (dated unit)) : list (dated unit) :=
  group_max ident_eqb e_id (fun a b => text_le (e_date a) (e_date b)) t2.
(** As above.  /repo/src/nempy/historical_inputs/mms_db.py:1287-1311, 1404-1428. *)
Definition temp4 {A : Type} (table : list (dated A)) (t3 : list (dated unit)) : list (dated A) :=
  map fst (merge (fun r k => ident_eqb (e_id r) (e_id k) && version_eqb (e_version r) (e_version k) && (e_date r =? e_date k)%string) table t3).

(** [InputsByEffectiveDateVersionNo.get_data].
    /repo/src/nempy/historical_inputs/mms_db.py:1396-1433. *)
Definition effective {A : Type} (dt : string) (table : list (dated A)) : list (dated A) :=
  temp4 table (temp3 (temp2 (temp dt table))).

(** [InputsByEffectiveDateVersionNoAndDispatchInterconnector.get_data] for rows whose id
    is the interconnector; [used] has the interconnector and the settlement date of the
    rows of DISPATCHINTERCONNECTORRES.
    /repo/src/nempy/historical_inputs/mms_db.py:1279-1321. *)
Definition effective_used {A : Type} (dt : string) (used : list (ident * string)) (table : list (dated A)) : list (dated A) :=
  map fst (merge (fun r u => ident_eqb (e_id r) (fst u)) (effective dt table) (filter (fun u => (snd u =? dt)%string) used)).

(** ** Tables with start and end dates *)

(** A row of DUDETAILSUMMARY.  /repo/src/nempy/historical_inputs/mms_db.py:147-151. *)
Record spell (A : Type) := Spell { s_unit : string; s_start : string; s_end : string; s_data : A }.
Arguments Spell {A} s_unit s_start s_end s_data.
Arguments s_unit {A} s.
Arguments s_start {A} s.
Arguments s_end {A} s.
Arguments s_data {A} s.

(** [drop_duplicates(keep='last')].
    /repo/src/nempy/historical_inputs/mms_db.py:1103. *)
Definition keep_last {A : Type} (same : A -> A -> bool) (l : list A) : list A := rev (drop_duplicates same (rev l)).

(** [InputsStartAndEnd.get_data].  The sort of pandas is not stable, so any [sort] is
    taken.  /repo/src/nempy/historical_inputs/mms_db.py:1099-1104. *)
Definition started {A : Type} (sort : list (spell A) -> list (spell A)) (dt : string) (table : list (spell A)) : list (spell A) :=
  keep_last (fun a b => (s_unit a =? s_unit b)%string) (sort (filter (fun r => text_le (s_start r) dt) table)).

(** ** Tables by time *)

(** [InputsBySettlementDate.get_data] and [InputsByIntervalDateTime.get_data]; a row has
    its date and the remaining columns.
    /repo/src/nempy/historical_inputs/mms_db.py:865-867, 928-930. *)
Definition by_time {A : Type} (dt : string) (table : list (string * A)) : list (string * A) := filter (fun r => (fst r =? dt)%string) table.

(** The date of [date_time - timedelta(hours=4, seconds=1)].
    /repo/src/nempy/historical_inputs/mms_db.py:1012. *)
Definition shifted_date (t : datetime) : date :=
  (if 3600 * t_hour t + 60 * t_min t + t_sec t <? 4 * 3600 + 1 then prev_day (t_date t) else t_date t)%Z.
(** [InputsByDay.get_data]; [date_time[:10]] is the date.
    /repo/src/nempy/historical_inputs/mms_db.py:1009-1021. *)
Definition by_day {A : Type} (t : datetime) (table : list (string * A)) : list (string * A) :=
  by_time (stamp (DateTime (shifted_date t) 0 0 0)) table.

(** ** Tables of generic constraints *)

(** A row of DISPATCHCONSTRAINT.  /repo/src/nempy/historical_inputs/mms_db.py:155-159. *)
Record invoked := Invoked { i_time : string; i_con : string; i_date : string; i_version : version }.

(** [InputsByMatchDispatchConstraints.get_data] for rows whose id is the
    constraint, the other columns of the key being data.  SQLite compares a number and a text that stands for it as numbers,
    here the versions of both tables have the same type.
    /repo/src/nempy/historical_inputs/mms_db.py:1187-1196. *)
Definition matches {A : Type} (r : dated A) (d : invoked) : bool :=
  ident_eqb (e_id r) [i_con d] && (e_date r =? i_date d)%string && version_eqb (e_version r) (i_version d).
(** As above.  /repo/src/nempy/historical_inputs/mms_db.py:1187-1196. *)
Definition matched {A : Type} (dt : string) (dispatch : list invoked) (table : list (dated A)) : list (dated A) :=
  map fst (merge matches table (filter (fun d => (i_time d =? dt)%string) dispatch)).

(** ** Filling the database *)

(** [for month in range(start_month, 13)] with the break, at most [n] months: the months
    and whether the loop was left.
    /repo/src/nempy/historical_inputs/mms_db.py:277-289. *)
Fixpoint month_loop (n : nat) (year month end_year end_month : Z) : list (Z * Z) * bool :=
  match n with
  | O => ([], false)
  | S k =>
      if (12 <? month)%Z then ([], false)
      else if ((year =? end_year) && (month =? end_month + 1))%Z then ([], true)
      else let (r, f) := month_loop k year (month + 1) end_year end_month in ((year, month) :: r, f)
  end.
(** [for year in range(start_year, end_year + 1)], at most [n] years.
    /repo/src/nempy/historical_inputs/mms_db.py:275-294. *)
Fixpoint year_loop (n : nat) (year month end_year end_month : Z) : list (Z * Z) :=
  match n with
  | O => []
  | S k =>
      if (end_year <? year)%Z then []
      else let (r, f) := month_loop 13 year month end_year end_month in
           if f then r else r ++ year_loop k (year + 1) 1 end_year end_month
  end.
(** The months of [populate].
    /repo/src/nempy/historical_inputs/mms_db.py:268-294. *)
Definition populate_months (start_year start_month end_year end_month : Z) : list (Z * Z) :=
  let (y, m) := (if start_month =? 1 then (start_year - 1, 12) else (start_year, start_month - 1))%Z in
  year_loop (Z.to_nat (end_year - y + 1)) y m end_year end_month.

(** The calls of [populate]: table, year and month.
    /repo/src/nempy/historical_inputs/mms_db.py:264-308. *)
Definition monthly : list string := ["DISPATCHINTERCONNECTORRES"; "DISPATCHREGIONSUM"; "DISPATCHLOAD"; "DISPATCHCONSTRAINT"; "DISPATCHPRICE"].
(** As above.  /repo/src/nempy/historical_inputs/mms_db.py:264-308. *)
Definition latest : list string :=
  ["INTERCONNECTOR"; "LOSSFACTORMODEL"; "LOSSMODEL"; "DUDETAILSUMMARY"; "INTERCONNECTORCONSTRAINT"; "GENCONDATA"; "SPDCONNECTIONPOINTCONSTRAINT";
   "SPDREGIONCONSTRAINT"; "SPDINTERCONNECTORCONSTRAINT"; "INTERCONNECTOR"; "MNSP_INTERCONNECTOR"; "DUDETAIL"].
(** As above.  /repo/src/nempy/historical_inputs/mms_db.py:264-308. *)
Definition populate (start_year start_month end_year end_month : Z) : list (string * (Z * Z)) :=
  flat_map (fun ym => map (fun t => (t, ym)) monthly) (populate_months start_year start_month end_year end_month)
  ++ map (fun t => (t, (end_year, end_month))) latest.

(** A monthly file: its columns and its rows.  A row has its primary key, the column
    INTERVENTION if there is one, and the columns of the table.
    /repo/src/nempy/historical_inputs/mms_db.py:311-383. *)
Record csv (A : Type) := Csv { f_columns : list string; f_rows : list (ident * Z * A) }.
Arguments Csv {A} f_columns f_rows.
Arguments f_columns {A} c.
Arguments f_rows {A} c.

(** A table with primary keys.  The file is missing, or a key is there already.
    /repo/src/nempy/historical_inputs/mms_db.py:370-374, 526-530. *)
Inductive db_error := MissingFile | IntegrityError.
(** [_MultiDataSource.add_data].  The insertion is one transaction.
    /repo/src/nempy/historical_inputs/mms_db.py:631-705. *)
Fixpoint repeated_key (l : list ident) : bool :=
  match l with [] => false | k :: r => existsb (ident_eqb k) r || repeated_key r end.
(** As above.  /repo/src/nempy/historical_inputs/mms_db.py:631-705. *)
Definition month_rows {A : Type} (f : csv A) : list (ident * A) :=
  map (fun r => (fst (fst r), snd r))
    (drop_duplicates (fun a b => ident_eqb (fst (fst a)) (fst (fst b)))
      (if mem_str "INTERVENTION" (f_columns f) then filter (fun r => (snd (fst r) =? 0)%Z) (f_rows f) else f_rows f)).
(** As above.  /repo/src/nempy/historical_inputs/mms_db.py:631-705. *)
Definition add_data {A : Type} (file : option (csv A)) (table : list (ident * A)) : list (ident * A) * option db_error :=
  match file with
  | None => (table, Some MissingFile)
  | Some f =>
      let t := table ++ month_rows f in
      if repeated_key (map fst t) then (table, Some IntegrityError) else (t, None)
  end.
(** A sequence of calls that ends with the first exception.
    /repo/src/nempy/historical_inputs/mms_db.py:276-289. *)
Fixpoint add_months {A : Type} (files : Z * Z -> option (csv A)) (months : list (Z * Z)) (table : list (ident * A)) : list (ident * A) * option db_error :=
  match months with
  | [] => (table, None)
  | m :: r => match add_data (files m) table with (t, None) => add_months files r t | e => e end
  end.

(** The months of [_AllHistDataSource.set_data], the latest first.
    /repo/src/nempy/historical_inputs/mms_db.py:780-783. *)
Definition history (year month : Z) : list (Z * Z) :=
  flat_map (fun i => let y := (year - Z.of_nat i)%Z in
                     flat_map (fun m => if ((y =? year) && (month <? m))%Z then [] else [(y, m)]) [12; 11; 10; 9; 8; 7; 6; 5; 4; 3; 2; 1]%Z)
    (seq 0 (Z.to_nat (year - 2009))).
(** [set(self.table_columns) < set(data.columns)].
    /repo/src/nempy/historical_inputs/mms_db.py:787. *)
Definition strict_subset (a b : list string) : bool := forallb (fun x => mem_str x b) a && existsb (fun x => negb (mem_str x a)) b.
(** One month.  /repo/src/nempy/historical_inputs/mms_db.py:784-804. *)
Definition hist_rows {A : Type} (f : csv A) : list (ident * A) := map (fun r => (fst (fst r), snd r)) (f_rows f).
(** As above.  /repo/src/nempy/historical_inputs/mms_db.py:784-804. *)
Definition hist_step {A : Type} (columns : list string) (s : list ident * list (ident * A)) (file : option (csv A)) : list ident * list (ident * A) :=
  match file with
  | None => s
  | Some f =>
      if negb (strict_subset columns (f_columns f)) then s
      else match fst s with
           | [] => (map fst (hist_rows f), hist_rows f)
           | _ => let new := filter (fun r => negb (existsb (ident_eqb (fst r)) (fst s))) (hist_rows f) in
                  (fst s ++ map fst new, snd s ++ new)
           end
  end.
(** [_AllHistDataSource.set_data].
    /repo/src/nempy/historical_inputs/mms_db.py:715-804. *)
Definition set_history {A : Type} (columns : list string) (files : Z * Z -> option (csv A)) (year month : Z) (table : list (ident * A)) : list (ident * A) :=
  snd (fold_left (hist_step columns) (map files (history year month)) ([], table)).
