(** Table operations used by nempy, on lists of rows.

    A pandas DataFrame is a list of rows; the index is not modelled (the code
    resets it or ignores it).  Definitions only, no proofs. *)

From Coq Require Import QArith String List Bool Arith.
Import ListNotations.

(** Exceptions raised by nempy, pandas or python.  Exceptions are values.
    /repo/src/nempy/spot_market_backend/dataframe_validator.py:96-118,
    /repo/src/nempy/markets.py:3812-3817, and python built-ins. *)
Inductive err : Type :=
| EUnexpectedColumn | EMissingColumn | EDataType | EColumnValues | ERepeatedRow
| EModelBuild | EValue | EKey | EType | EAttribute | EIndex | ENaN.

(** A value or an exception.
    /repo/src/nempy/spot_market_backend/dataframe_validator.py:96-118,
    /repo/src/nempy/markets.py:3812-3817. *)
Inductive result (A : Type) : Type :=
| Ok (a : A)
| Err (e : err).
Arguments Ok {A} a.
Arguments Err {A} e.

(** [x in list] / [Series.isin(list)] for strings.  Python semantics, used all
    over /repo/src/nempy/markets.py (for example line 289). *)
Definition mem_str (s : string) (l : list string) : bool :=
  existsb (String.eqb s) l.

(** Sum of a column.  pandas [Series.sum()], used e.g. in
    /repo/src/nempy/markets.py:2753. *)
Definition qsum (l : list Q) : Q := fold_right Qplus 0 l.

(** Boolean strict order on numbers ([<] in python).
    Used e.g. in /repo/src/nempy/markets.py:3112, /repo/src/nempy/spot_market_backend/dataframe_validator.py:92. *)
Definition Qlt_bool (a b : Q) : bool := negb (Qle_bool b a).

(** [pd.merge(l, r, 'inner', on=...)]: every pair of rows that agree on the join
    columns, in the order of the left table.  The join columns are given as a
    boolean test.  pandas; used e.g. in
    /repo/src/nempy/spot_market_backend/variable_ids.py:153-158. *)
Definition merge {A B : Type} (on : A -> B -> bool) (l : list A) (r : list B)
  : list (A * B) :=
  flat_map (fun a => map (pair a) (filter (on a) r)) l.

(** [pd.merge(l, r, 'left', on=...)]: as [merge] but left rows without a match
    are kept once, with nulls ([None]).  pandas; used e.g. in
    /repo/src/nempy/spot_market_backend/ramp_rate_processing.py:78. *)
Definition merge_left {A B : Type} (on : A -> B -> bool) (l : list A) (r : list B)
  : list (A * option B) :=
  flat_map (fun a => match filter (on a) r with
                     | [] => [(a, None)]
                     | ms => map (fun b => (a, Some b)) ms
                     end) l.

(** [hf.save_index(df, col, offset)]: the rows numbered offset, offset+1, ...
    /repo/src/nempy/help_functions/helper_functions.py:5-14. *)
Definition save_index {A : Type} (offset : nat) (l : list A) : list (nat * A) :=
  combine (seq offset (length l)) l.

(** [df.drop_duplicates(cols)]: keeps the first row of each key.  The key is
    given by a boolean equality of rows.  pandas; used e.g. in
    /repo/src/nempy/spot_market_backend/market_constraints.py:178. *)
Fixpoint drop_duplicates {A : Type} (same : A -> A -> bool) (l : list A) : list A :=
  match l with
  | [] => []
  | a :: t => a :: filter (fun b => negb (same a b)) (drop_duplicates same t)
  end.

(** [max(ids) + 1] over a non-empty id column; [None] when the column is empty
    (python's [max] then raises ValueError, pandas' [.max()] gives NaN).
    Used e.g. in /repo/src/nempy/markets.py:267. *)
Definition next_id (ids : list nat) : option nat :=
  match ids with
  | [] => None
  | _ => Some (S (list_max ids))
  end.

(** Distinct keys in order of first occurrence: the groups of
    [df.groupby(cols)].  pandas sorts the groups; the order is not modelled.
    Used e.g. in /repo/src/nempy/markets.py:3248. *)
Fixpoint keys_of {K : Type} (keq : K -> K -> bool) (l : list K) : list K :=
  match l with
  | [] => []
  | k :: t => k :: filter (fun k' => negb (keq k k')) (keys_of keq t)
  end.

(** [df.groupby(key, as_index=False).aggregate({val: 'sum'})].
    Used e.g. in /repo/src/nempy/markets.py:3248, 3570, 3585. *)
Definition groupby_sum {A K : Type} (keq : K -> K -> bool) (key : A -> K)
  (val : A -> Q) (l : list A) : list (K * Q) :=
  map (fun k => (k, qsum (map val (filter (fun a => keq (key a) k) l))))
      (keys_of keq (map key l)).

(** Stable sort of a table ([df.sort_values]); insertion sort on a boolean
    "less or equal".  pandas; used in
    /repo/src/nempy/spot_market_backend/variable_ids.py:144. *)
Fixpoint insert_sorted {A : Type} (le : A -> A -> bool) (a : A) (l : list A) : list A :=
  match l with
  | [] => [a]
  | b :: t => if le a b then a :: b :: t else b :: insert_sorted le a t
  end.
(** As above.  /repo/src/nempy/spot_market_backend/variable_ids.py:144. *)
Definition sort_rows {A : Type} (le : A -> A -> bool) (l : list A) : list A :=
  fold_right (insert_sorted le) [] l.

(** Python dictionaries with string keys: insertion ordered, assignment replaces
    in place.  Used for all [self._...] group dictionaries of SpotMarket,
    /repo/src/nempy/markets.py:95-103. *)
Definition dict (A : Type) : Type := list (string * A).

(** [d[k]].  Used e.g. in /repo/src/nempy/markets.py:2721. *)
Fixpoint dget {A : Type} (k : string) (d : dict A) : option A :=
  match d with
  | [] => None
  | (k', v) :: t => if String.eqb k k' then Some v else dget k t
  end.

(** [d[k] = v].  Used e.g. in /repo/src/nempy/markets.py:527-528. *)
Fixpoint dset {A : Type} (k : string) (v : A) (d : dict A) : dict A :=
  match d with
  | [] => [(k, v)]
  | (k', v') :: t => if String.eqb k k' then (k, v) :: t else (k', v') :: dset k v t
  end.

(** [del d[k]].  Used e.g. in /repo/src/nempy/markets.py:1042-1047. *)
Fixpoint ddel {A : Type} (k : string) (d : dict A) : dict A :=
  match d with
  | [] => []
  | (k', v') :: t => if String.eqb k k' then t else (k', v') :: ddel k t
  end.

(** [k in d].  Used e.g. in /repo/src/nempy/markets.py:2720. *)
Definition dhas {A : Type} (k : string) (d : dict A) : bool :=
  match dget k d with Some _ => true | None => false end.

(** [pd.concat(list(d.values()))] / [pd.concat(d)]: all rows of all groups.
    /repo/src/nempy/markets.py:2945, 2988, 2998, 3009. *)
Definition dconcat {A : Type} (d : dict (list A)) : list A :=
  flat_map snd d.

(** A column that may be absent: no rows when absent.
    Used for the tables of variables that need not exist, /repo/src/nempy/markets.py:2945-3009. *)
Definition rows_or_nil {A : Type} (o : option (list A)) : list A :=
  match o with Some l => l | None => [] end.
