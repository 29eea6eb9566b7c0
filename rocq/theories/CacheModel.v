(** Model of nempy/historical_inputs/xml_cache.py: the cache of case files.
    Definitions only. *)

From Coq Require Import ZArith Ascii String List Bool DecimalString.
Import ListNotations.
From Verif Require Import PandasModel.
Open Scope string_scope.
Open Scope list_scope.

(** ** Dates of the python module datetime *)

(** The fields of a datetime.  The microseconds are not modelled.
    Used in /repo/src/nempy/historical_inputs/xml_cache.py:175-206. *)
Record date := Date { d_year : Z; d_month : Z; d_day : Z }.
(** As above.  /repo/src/nempy/historical_inputs/xml_cache.py:175-206. *)
Record datetime := DateTime { t_date : date; t_hour : Z; t_min : Z; t_sec : Z }.

(** The Gregorian calendar of the python module (Lib/datetime.py, _is_leap and
    _days_in_month).  Used in /repo/src/nempy/historical_inputs/xml_cache.py:52, 62, 182. *)
Definition leap (y : Z) : bool := ((y mod 4 =? 0) && (negb (y mod 100 =? 0) || (y mod 400 =? 0)))%Z.
(** As above.  /repo/src/nempy/historical_inputs/xml_cache.py:52, 62, 182. *)
Definition days_in_month (y m : Z) : Z :=
  (if m =? 2 then if leap y then 29 else 28
   else if (m =? 4) || (m =? 6) || (m =? 9) || (m =? 11) then 30 else 31)%Z.

(** [d - timedelta(days=1)] and [d + timedelta(days=1)].  Python subtracts through
    the number of days since year 1; [C38_days] proves that the dates are the same.
    The dates before year 1 and after year 9999 are not excluded.
    Used in /repo/src/nempy/historical_inputs/xml_cache.py:52, 62, 182. *)
Definition prev_day (d : date) : date :=
  (if 1 <? d_day d then Date (d_year d) (d_month d) (d_day d - 1)
   else if 1 <? d_month d then Date (d_year d) (d_month d - 1) (days_in_month (d_year d) (d_month d - 1))
   else Date (d_year d - 1) 12 31)%Z.
(** As above.  /repo/src/nempy/historical_inputs/xml_cache.py:52, 62, 182. *)
Definition next_day (d : date) : date :=
  (if d_day d <? days_in_month (d_year d) (d_month d) then Date (d_year d) (d_month d) (d_day d + 1)
   else if d_month d <? 12 then Date (d_year d) (d_month d + 1) 1
   else Date (d_year d + 1) 1 1)%Z.

(** Days since year 1 and seconds since then, as python computes them for the
    difference of two datetimes (Lib/datetime.py, _ymd2ord).
    Used in /repo/src/nempy/historical_inputs/xml_cache.py:203. *)
Definition days_before_year (y : Z) : Z := (let p := y - 1 in p * 365 + p / 4 - p / 100 + p / 400)%Z.
(** As above.  /repo/src/nempy/historical_inputs/xml_cache.py:203. *)
Definition days_before_month (y m : Z) : Z :=
  (nth (Z.to_nat m) [0; 0; 31; 59; 90; 120; 151; 181; 212; 243; 273; 304; 334] 0 + (if (2 <? m) && leap y then 1 else 0))%Z.
(** As above.  /repo/src/nempy/historical_inputs/xml_cache.py:203. *)
Definition ordinal (d : date) : Z := (days_before_year (d_year d) + days_before_month (d_year d) (d_month d) + d_day d)%Z.
(** As above.  /repo/src/nempy/historical_inputs/xml_cache.py:203. *)
Definition moment (t : datetime) : Z := (86400 * ordinal (t_date t) + 3600 * t_hour t + 60 * t_min t + t_sec t)%Z.

(** ** Interval numbers *)

(** [_get_market_year_month_day].
    /repo/src/nempy/historical_inputs/xml_cache.py:175-188. *)
Definition market_date (t : datetime) : date :=
  (if 60 * t_hour t + t_min t <? 60 * 4 + 5 then prev_day (t_date t) else t_date t)%Z.

(** [_get_interval_number].  The quotient of the two timedeltas is a float, which is
    exact for whole intervals.
    /repo/src/nempy/historical_inputs/xml_cache.py:200-206. *)
Definition interval_number (t : datetime) : Z :=
  (Z.quot (moment t - moment (DateTime (market_date t) 4 5 0)) 300 + 1)%Z.

(** ** File names *)

(** [str(n)] of a number that is not negative, [zfill] and the concatenation of
    strings.  Used in /repo/src/nempy/historical_inputs/xml_cache.py:147-152, 190-198. *)
Definition str (n : Z) : string := NilEmpty.string_of_uint (N.to_uint (Z.to_N n)).
(** As above.  /repo/src/nempy/historical_inputs/xml_cache.py:147-152, 190-198. *)
Fixpoint zeros (n : nat) : string := match n with O => "" | S k => String "0"%char (zeros k) end.
(** As above.  /repo/src/nempy/historical_inputs/xml_cache.py:147-152, 190-198. *)
Definition zfill (w : nat) (s : string) : string := String.append (zeros (w - String.length s)) s.
(** As above.  /repo/src/nempy/historical_inputs/xml_cache.py:147-152, 190-198. *)
Definition cat : list string -> string := fold_right String.append "".

(** The name of the file of the ordinary run and of the over constrained re-run.
    /repo/src/nempy/historical_inputs/xml_cache.py:147-152, 190-198. *)
Definition name_with (ending : string) (t : datetime) : string :=
  let d := market_date t in
  cat ["NEMSPDOutputs_"; str (d_year d); zfill 2 (str (d_month d)); zfill 2 (str (d_day d)); zfill 3 (str (interval_number t)); "00"; ending].
(** As above.  /repo/src/nempy/historical_inputs/xml_cache.py:147-152, 190-198. *)
Definition name : datetime -> string := name_with ".loaded".
(** As above.  /repo/src/nempy/historical_inputs/xml_cache.py:147-152, 190-198. *)
Definition name_ocd : datetime -> string := name_with "_OCD.loaded".

(** The files of the cache folder: name and contents.
    /repo/src/nempy/historical_inputs/xml_cache.py:135-159. *)
Definition files (C : Type) := dict C.

(** [get_file_name]; [elif path_name_OCD:] always holds.
    /repo/src/nempy/historical_inputs/xml_cache.py:135-159. *)
Definition file_name {C : Type} (fs : files C) (t : datetime) : string :=
  if dhas (name t) fs then name t else name_ocd t.

(** [interval_inputs_in_cache].
    /repo/src/nempy/historical_inputs/xml_cache.py:97-114. *)
Definition in_cache {C : Type} (fs : files C) (t : datetime) : bool := dhas (file_name fs t) fs.

(** ['OCD' in name].  /repo/src/nempy/historical_inputs/loaders.py:216. *)
Fixpoint prefix_of (p s : string) : bool :=
  match p, s with
  | "", _ => true
  | String a p', String b s' => Ascii.eqb a b && prefix_of p' s'
  | _, "" => false
  end.
(** As above.  /repo/src/nempy/historical_inputs/loaders.py:216. *)
Fixpoint contains (p s : string) : bool :=
  prefix_of p s || match s with "" => false | String _ s' => contains p s' end.
(** As above.  /repo/src/nempy/historical_inputs/loaders.py:216. *)
Definition is_rerun {C : Type} (fs : files C) (t : datetime) : bool := contains "OCD" (file_name fs t).

(** ** The manager *)

(** The interval and the contents that are loaded.
    /repo/src/nempy/historical_inputs/xml_cache.py:30-34. *)
Record manager (C : Type) := Manager { mg_interval : option datetime; mg_xml : option C }.
Arguments Manager {C} mg_interval mg_xml.
Arguments mg_interval {C} m.
Arguments mg_xml {C} m.

(** MissingDataError, or an exception of the download or of the reading of the file.
    /repo/src/nempy/historical_inputs/xml_cache.py:86-95, 161-173. *)
Inductive load_error := MissingData | Download | Unreadable.

(** What the outside world does in one call: the files in the folder at its start,
    those after an attempt to download, whether the download raises an exception, and
    which contents cannot be parsed.
    /repo/src/nempy/historical_inputs/xml_cache.py:161-173. *)
Record world (C : Type) := World { w_before : files C; w_after : files C; w_raises : bool; w_bad : C -> bool }.
Arguments World {C} w_before w_after w_raises w_bad.
Arguments w_before {C} w.
Arguments w_after {C} w.
Arguments w_raises {C} w.
Arguments w_bad {C} w _.

(** [load_interval].
    /repo/src/nempy/historical_inputs/xml_cache.py:64-95. *)
Definition read_file {C : Type} (fs : files C) (bad : C -> bool) (t : datetime) (m : manager C) : manager C * option load_error :=
  match dget (file_name fs t) fs with
  | None => (m, Some MissingData)
  | Some c => if bad c then (m, Some Unreadable) else (Manager (mg_interval m) (Some c), None)
  end.
(** As above.  /repo/src/nempy/historical_inputs/xml_cache.py:64-95. *)
Definition load_interval {C : Type} (t : datetime) (w : world C) (m : manager C) : manager C * option load_error :=
  let m1 := Manager (Some t) (mg_xml m) in
  if in_cache (w_before w) t then read_file (w_before w) (w_bad w) t m1
  else if w_raises w then (m1, Some Download)
  else if in_cache (w_after w) t then read_file (w_after w) (w_bad w) t m1
  else (m1, Some MissingData).

(** [find_intervals_with_violations], one interval after the other; [found] says which
    kinds of violations a file has.  MissingDataError is passed over, other exceptions
    end the search.
    /repo/src/nempy/historical_inputs/xml_cache.py:1072-1095. *)
Fixpoint search {C : Type} (violations : C -> list string) (limit : nat) (steps : list (datetime * world C))
    (hits : list (datetime * list string)) (m : manager C) : manager C * list (datetime * list string) * option load_error :=
  match steps with
  | [] => (m, hits, None)
  | (t, w) :: r =>
      if (limit <=? length hits)%nat then (m, hits, None)
      else match load_interval t w m with
           | (m', None) =>
               let v := match mg_xml m' with Some c => violations c | None => [] end in
               search violations limit r (match v with [] => hits | _ => hits ++ [(t, v)] end) m'
           | (m', Some MissingData) => search violations limit r hits m'
           | (m', Some e) => (m', hits, Some e)
           end
  end.

(** ** Filling the cache *)

(** The dates of [populate_by_day]; at most [n] days.
    /repo/src/nempy/historical_inputs/xml_cache.py:52-62. *)
Fixpoint days_from (n : nat) (d last : date) : list date :=
  match n with
  | O => []
  | S k => if (ordinal d <=? ordinal last)%Z then d :: days_from k (next_day d) last else []
  end.
(** As above.  /repo/src/nempy/historical_inputs/xml_cache.py:52-62. *)
Definition populate_days (first last : date) : list date :=
  days_from (Z.to_nat (ordinal last - ordinal first + 2)) (prev_day first) last.

(** [populate]: the first day of the first month to the first day of the month after
    the last one.  /repo/src/nempy/historical_inputs/xml_cache.py:36-46. *)
Definition populate_months (y m y' m' : Z) : list date :=
  populate_days (Date y m 1) (if m' =? 12 then Date (y' + 1) 1 1 else Date y' (m' + 1) 1)%Z.

(** The market day whose archive an attempt to load midnight of a date downloads.
    /repo/src/nempy/historical_inputs/xml_cache.py:59-61, 161-164. *)
Definition archive_of (d : date) : date := market_date (DateTime d 0 0 0).
