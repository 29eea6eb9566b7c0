(** Model of nempy/spot_market_backend/dataframe_validator.py on untyped tables.
    Definitions only. *)

From Coq Require Import QArith ZArith String List Bool.
Import ListNotations.
From Verif Require Import PandasModel.
Open Scope string_scope.
Open Scope list_scope.

(** ** Tables *)

(** A cell.  None is taken as NaN; [COther] is any other python object.
    The values that the checks below tell apart:
    /repo/src/nempy/spot_market_backend/dataframe_validator.py:66-93. *)
Inductive cell :=
| CStr (s : string) | CInt (z : Z) | CNum (q : Q) | CPosInf | CNegInf | CNaN | CFun (f : Q -> Q) | COther (n : nat).

(** The type of a column.
    /repo/src/nempy/spot_market_backend/dataframe_validator.py:73. *)
Inductive dtype := DFloat | DInt | DObject | DOther.
(** As above.  /repo/src/nempy/spot_market_backend/dataframe_validator.py:73. *)
Definition dtype_eqb (a b : dtype) : bool :=
  match a, b with
  | DFloat, DFloat | DInt, DInt | DObject, DObject | DOther, DOther => true
  | _, _ => false
  end.

(** A table: its number of rows and its columns.  pandas.DataFrame, as read at
    /repo/src/nempy/spot_market_backend/dataframe_validator.py:19-36. *)
Record column := Col { cl_name : string; cl_dtype : dtype; cl_cells : list cell }.
(** As above.  /repo/src/nempy/spot_market_backend/dataframe_validator.py:19-36. *)
Record frame := Frame { fm_rows : nat; fm_cols : list column }.
(** As above.  /repo/src/nempy/spot_market_backend/dataframe_validator.py:19-36. *)
Definition names (f : frame) : list string := map cl_name (fm_cols f).
(** As above.  /repo/src/nempy/spot_market_backend/dataframe_validator.py:19-36. *)
Definition col (n : string) (f : frame) : option column :=
  find (fun c => String.eqb (cl_name c) n) (fm_cols f).

(** Equality of cells as pandas sees it in [isin] and [drop_duplicates]: numbers by
    value, NaN equal to NaN.  Functions are never compared by the schemas of nempy.
    /repo/src/nempy/spot_market_backend/dataframe_validator.py:36, 78. *)
Definition cell_eqb (a b : cell) : bool :=
  match a, b with
  | CStr x, CStr y => String.eqb x y
  | CInt x, CInt y => Z.eqb x y
  | CNum x, CNum y => Qeq_bool x y
  | CInt x, CNum y => Qeq_bool (inject_Z x) y
  | CNum x, CInt y => Qeq_bool x (inject_Z y)
  | CPosInf, CPosInf | CNegInf, CNegInf | CNaN, CNaN => true
  | COther x, COther y => Nat.eqb x y
  | _, _ => false
  end.

(** ** Schemas *)

(** /repo/src/nempy/spot_market_backend/dataframe_validator.py:50-58.  The limits
    minimum and maximum are stored but never checked. *)
Inductive data_type := TStr | TCallable | TFloat | TInt.
(** As above.  /repo/src/nempy/spot_market_backend/dataframe_validator.py:50-58. *)
Record series := Series {
  se_name : string; se_type : data_type; se_allowed : option (list cell); se_real : bool; se_not_negative : bool }.

(** /repo/src/nempy/spot_market_backend/dataframe_validator.py:6-16.  The name and
    row_monatonic_increasing are never used by [validate]. *)
Record schema := Schema { sc_keys : option (list string); sc_columns : dict series; sc_required : list string }.
(** As above.  /repo/src/nempy/spot_market_backend/dataframe_validator.py:6-16. *)
Definition new_schema (keys : option (list string)) : schema := Schema keys [] [].
(** As above.  /repo/src/nempy/spot_market_backend/dataframe_validator.py:6-16. *)
Definition add_column (c : series) (optional : bool) (s : schema) : schema :=
  Schema (sc_keys s) (dset (se_name c) c (sc_columns s))
         (if optional then sc_required s else sc_required s ++ [se_name c]).

(** ** The checks of a column *)

(** [_check_data_type].  /repo/src/nempy/spot_market_backend/dataframe_validator.py:66-74. *)
Definition is_str (c : cell) : bool := match c with CStr _ => true | _ => false end.
(** As above.  /repo/src/nempy/spot_market_backend/dataframe_validator.py:66-74. *)
Definition is_callable (c : cell) : bool := match c with CFun _ => true | _ => false end.
(** As above.  /repo/src/nempy/spot_market_backend/dataframe_validator.py:66-74. *)
Definition type_ok (t : data_type) (c : column) : bool :=
  match t with
  | TStr => forallb is_str (cl_cells c)
  | TCallable => forallb is_callable (cl_cells c)
  | TFloat => dtype_eqb (cl_dtype c) DFloat
  | TInt => dtype_eqb (cl_dtype c) DInt
  end.

(** [_check_allowed_values].
    /repo/src/nempy/spot_market_backend/dataframe_validator.py:76-79. *)
Definition allowed_ok (a : option (list cell)) (c : column) : bool :=
  match a with
  | None => true
  | Some vs => forallb (fun x => existsb (cell_eqb x) vs) (cl_cells c)
  end.

(** [_check_is_real_number].
    /repo/src/nempy/spot_market_backend/dataframe_validator.py:81-88. *)
Definition is_real (c : cell) : bool := match c with CPosInf | CNegInf | CNaN => false | _ => true end.
(** As above.  /repo/src/nempy/spot_market_backend/dataframe_validator.py:81-88. *)
Definition real_ok (b : bool) (c : column) : bool := if b then forallb is_real (cl_cells c) else true.

(** [_check_is_not_negtaive]: the minimum ignores NaN.  Of a column without numbers
    the minimum is no number either and the comparison raises TypeError; here such a
    cell counts as not negative, nempy asks only columns of numbers for it.
    /repo/src/nempy/spot_market_backend/dataframe_validator.py:90-93. *)
Definition is_negative (c : cell) : bool :=
  match c with CNegInf => true | CInt z => Z.ltb z 0 | CNum q => Qlt_bool q 0 | _ => false end.
(** As above.  /repo/src/nempy/spot_market_backend/dataframe_validator.py:90-93. *)
Definition sign_ok (b : bool) (c : column) : bool :=
  if b then forallb (fun x => negb (is_negative x)) (cl_cells c) else true.

(** [SeriesSchema.validate].
    /repo/src/nempy/spot_market_backend/dataframe_validator.py:60-64. *)
Definition check_series (s : series) (c : column) : option err :=
  if type_ok (se_type s) c
  then if allowed_ok (se_allowed s) c && real_ok (se_real s) c && sign_ok (se_not_negative s) c
       then None else Some EColumnValues
  else Some EDataType.

(** ** The checks of a table *)

(** The first error.  /repo/src/nempy/spot_market_backend/dataframe_validator.py:18-37. *)
Definition or_else (a : option err) (b : option err) : option err := match a with Some e => Some e | None => b end.

(** The cells of a row in some columns.
    /repo/src/nempy/spot_market_backend/dataframe_validator.py:36. *)
Definition key_of (cols : list column) (i : nat) : list cell := map (fun c => nth i (cl_cells c) CNaN) cols.
(** As above.  /repo/src/nempy/spot_market_backend/dataframe_validator.py:36. *)
Fixpoint cells_eqb (a b : list cell) : bool :=
  match a, b with
  | [], [] => true
  | x :: a', y :: b' => cell_eqb x y && cells_eqb a' b'
  | _, _ => false
  end.

(** [_check_for_repeated_rows].
    /repo/src/nempy/spot_market_backend/dataframe_validator.py:34-37. *)
Definition repeated (keys : list string) (f : frame) : bool :=
  let cols := flat_map (fun n => match col n f with Some c => [c] | None => [] end) keys in
  let rows := map (key_of cols) (seq 0 (fm_rows f)) in
  negb (Nat.eqb (length rows) (length (drop_duplicates cells_eqb rows))).

(** [DataFrameSchema.validate].
    /repo/src/nempy/spot_market_backend/dataframe_validator.py:18-32. *)
Definition validate (s : schema) (f : frame) : option err :=
  or_else (if forallb (fun n => dhas n (sc_columns s)) (names f) then None else Some EUnexpectedColumn)
  (or_else (if forallb (fun n => mem_str n (names f)) (sc_required s) then None else Some EMissingColumn)
  (or_else (fold_right (fun (p : string * series) r =>
                          or_else (match col (fst p) f with Some c => check_series (snd p) c | None => None end) r)
              None (sc_columns s))
  (match sc_keys s with
   | None => None
   | Some ks => if repeated ks f then Some ERepeatedRow else None
   end))).
