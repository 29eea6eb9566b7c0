(** What a table has to satisfy to be accepted, stated without the validator. *)

From Coq Require Import QArith ZArith String List Bool.
Import ListNotations.
From Verif Require Import PandasModel FrameModel.
Open Scope string_scope.
Open Scope list_scope.

(** The number in a cell, if it holds one. *)
Definition value (c : cell) : option Q :=
  match c with CInt z => Some (inject_Z z) | CNum q => Some q | _ => None end.

(** Two cells hold the same: equal numbers, the same text, both null and so on. *)
Definition same_cell (a b : cell) : Prop :=
  match value a, value b with
  | Some x, Some y => x == y
  | None, None => a = b /\ (forall g, a <> CFun g)
  | _, _ => False
  end.

(** A pandas table: one column per name, all of the same length, and the cells of a
    column of numbers are numbers. *)
Definition of_dtype (t : dtype) (c : cell) : Prop :=
  match t with
  | DFloat => match c with CNum _ | CPosInf | CNegInf | CNaN => True | _ => False end
  | DInt => match c with CInt _ => True | _ => False end
  | _ => True
  end.
Definition is_table (f : frame) : Prop :=
  NoDup (names f)
  /\ forall c, In c (fm_cols f) -> length (cl_cells c) = fm_rows f /\ Forall (of_dtype (cl_dtype c)) (cl_cells c).

(** The cell of a row in a column. *)
Definition holds (f : frame) (n : string) (i : nat) (x : cell) : Prop :=
  exists c, In c (fm_cols f) /\ cl_name c = n /\ nth_error (cl_cells c) i = Some x.

(** ** The demands of a description of columns (the flag says optional) *)

Definition known (cols : list (series * bool)) (n : string) : Prop := exists d b, In (d, b) cols /\ se_name d = n.
Definition needed (cols : list (series * bool)) (n : string) : Prop := exists d, In (d, false) cols /\ se_name d = n.

Definition no_unknown (cols : list (series * bool)) (f : frame) : Prop := forall n, In n (names f) -> known cols n.
Definition all_needed (cols : list (series * bool)) (f : frame) : Prop := forall n, needed cols n -> In n (names f).

(** A column has the type its description demands. *)
Definition right_type (d : series) (c : column) : Prop :=
  match se_type d with
  | TStr => forall x, In x (cl_cells c) -> exists s, x = CStr s
  | TCallable => forall x, In x (cl_cells c) -> exists g, x = CFun g
  | TFloat => cl_dtype c = DFloat
  | TInt => cl_dtype c = DInt
  end.

(** The values are the allowed ones, real numbers and not negative, where demanded. *)
Definition right_values (d : series) (c : column) : Prop :=
  forall x, In x (cl_cells c) ->
    (forall vs, se_allowed d = Some vs -> exists v, In v vs /\ same_cell x v)
    /\ (se_real d = true -> x <> CPosInf /\ x <> CNegInf /\ x <> CNaN)
    /\ (se_not_negative d = true -> x <> CNegInf /\ forall q, value x = Some q -> 0 <= q).

(** No two rows have the same key. *)
Definition keys_differ (keys : list string) (f : frame) : Prop :=
  forall i j, (i < j)%nat -> (j < fm_rows f)%nat ->
    exists n x y, In n keys /\ holds f n i x /\ holds f n j y /\ ~ same_cell x y.

(** All of it. *)
Definition fits (keys : list string) (cols : list (series * bool)) (f : frame) : Prop :=
  no_unknown cols f
  /\ all_needed cols f
  /\ (forall d b c, In (d, b) cols -> In c (fm_cols f) -> cl_name c = se_name d -> right_type d c /\ right_values d c)
  /\ keys_differ keys f.

(** ** Which error a table that does not fit gives *)

(** The first described column that is at fault. *)
Definition first_fault (cols : list (series * bool)) (f : frame) (d : series) (c : column) : Prop :=
  exists pre b post, cols = pre ++ (d, b) :: post
    /\ In c (fm_cols f) /\ cl_name c = se_name d
    /\ ~ (right_type d c /\ right_values d c)
    /\ forall d' b' c', In (d', b') pre -> In c' (fm_cols f) -> cl_name c' = se_name d' ->
         right_type d' c' /\ right_values d' c'.

Definition columns_fit (cols : list (series * bool)) (f : frame) : Prop :=
  forall d b c, In (d, b) cols -> In c (fm_cols f) -> cl_name c = se_name d -> right_type d c /\ right_values d c.

Definition fault (keys : list string) (cols : list (series * bool)) (f : frame) (e : err) : Prop :=
  match e with
  | EUnexpectedColumn => exists n, In n (names f) /\ ~ known cols n
  | EMissingColumn => no_unknown cols f /\ exists n, needed cols n /\ ~ In n (names f)
  | EDataType =>
      no_unknown cols f /\ all_needed cols f /\ exists d c, first_fault cols f d c /\ ~ right_type d c
  | EColumnValues =>
      no_unknown cols f /\ all_needed cols f /\ exists d c, first_fault cols f d c /\ right_type d c
  | ERepeatedRow =>
      no_unknown cols f /\ all_needed cols f /\ columns_fit cols f
      /\ exists i j, (i < j)%nat /\ (j < fm_rows f)%nat
           /\ forall n x y, In n keys -> holds f n i x -> holds f n j y -> same_cell x y
  | _ => False
  end.

(** ** Descriptions as nempy writes them: every column is described once, only columns
    of numbers are asked not to be negative, keys are no functions, and one of the
    key columns must be in the table. *)
Definition proper (keys : list string) (cols : list (series * bool)) : Prop :=
  NoDup (map (fun c => se_name (fst c)) cols)
  /\ (forall d b, In (d, b) cols -> se_not_negative d = true -> se_type d = TFloat \/ se_type d = TInt)
  /\ (forall n d b, In n keys -> In (d, b) cols -> se_name d = n -> se_type d <> TCallable)
  /\ (exists n, In n keys /\ needed cols n).
