(** Right hand side equations described without the evaluator. *)

From Coq Require Import QArith Qminmax Qabs String List Bool.
Import ListNotations.
From Verif Require Import PandasModel RhsModel.
Open Scope string_scope.
Open Scope list_scope.

(** ** Values of inputs *)

(** The value of an input: the sum of the SCADA values of an id, the initial output
    of a unit, an entered value or the availability of a market interconnector. *)
Definition has_value (st : store) (ty id : string) (q : Q) : Prop :=
  (In ty ["A"; "S"; "R"; "I"; "W"] /\ exists d l, dget ty (s_scada st) = Some d /\ dget id d = Some l /\ q == qsum l)
  \/ (ty = "T" /\ dget id (s_mw st) = Some q)
  \/ (ty = "E" /\ dget id (s_entered st) = Some q)
  \/ (ty = "M" /\ dget id (s_from st) = Some q)
  \/ (ty = "N" /\ dget id (s_to st) = Some q).

(** ** Expressions *)

Inductive source := Constant (c : Q) | Input (ty id : string) (m : Q).
Inductive binary := Add | Sub | Mul | Div | Max | Min.
Inductive unary := Square | Cube | Root | Abs | Neg.
Inductive expr :=
| Src (s : source)                       (* a value *)
| Bin (o : binary) (a b : expr) (m : Q)  (* two expressions, times m *)
| Imm (o : binary) (a : expr) (s : source) (* an expression and a value *)
| Un (o : unary) (a : expr) (m : Q)      (* of an expression, times m *)
| Step (a : expr) (m : Q)                (* m if the expression is positive *)
| PlusUn (o : unary) (a : expr) (s : source) (* add a function of a value *)
| PlusStep (a : expr) (s : source)       (* add the multiplier if a value is positive *)
| Plus (a : expr) (s : source)           (* no operator: add a value *)
| Scale (a : expr) (m : Q).              (* no operator: multiply *)

Definition two (o : binary) (a b : Q) : option Q :=
  match o with
  | Add => Some (a + b) | Sub => Some (a - b) | Mul => Some (a * b)
  | Div => if Qeq_bool b 0 then None else Some (a / b)
  | Max => Some (Qmax a b) | Min => Some (Qmin a b)
  end.
Definition one (root : Q -> Q) (o : unary) (a : Q) : Q :=
  match o with Square => a ^ 2 | Cube => a ^ 3 | Root => root a | Abs => Qabs a | Neg => - a end.

Definition lift (f : Q -> option Q) (a : option Q) : option Q := match a with Some q => f q | None => None end.

(** The number an expression stands for, [None] if it divides by zero.  A value
    enters a binary operation unscaled and its multiplier applies to the result, as
    in section A.7 of the Constraint Implementation Guidelines. *)
Fixpoint meaning (root : Q -> Q) (v : string -> string -> Q) (e : expr) : option Q :=
  match e with
  | Src (Constant c) => Some c
  | Src (Input ty id m) => Some (m * v ty id)
  | Bin o a b m => lift (fun x => lift (fun y => lift (fun z => Some (z * m)) (two o x y)) (meaning root v b)) (meaning root v a)
  | Imm o a (Constant c) => lift (fun x => two o x c) (meaning root v a)
  | Imm o a (Input ty id m) => lift (fun x => lift (fun z => Some (z * m)) (two o x (v ty id))) (meaning root v a)
  | Un o a m => lift (fun x => Some (one root o x * m)) (meaning root v a)
  | Step a m => lift (fun x => Some (if Qle_bool x 0 then 0 else m)) (meaning root v a)
  | PlusUn o a (Constant c) => lift (fun x => Some (x + one root o c)) (meaning root v a)
  | PlusUn o a (Input ty id m) => lift (fun x => Some (x + one root o (v ty id) * m)) (meaning root v a)
  | PlusStep a (Constant c) => lift (fun x => Some (x + c)) (meaning root v a)
  | PlusStep a (Input ty id m) => lift (fun x => Some (x + if Qle_bool (v ty id) 0 then 0 else m)) (meaning root v a)
  | Plus a (Constant c) => lift (fun x => Some (x + c)) (meaning root v a)
  | Plus a (Input ty id m) => lift (fun x => Some (x + m * v ty id)) (meaning root v a)
  | Scale a m => lift (fun x => Some (x * m)) (meaning root v a)
  end.

Fixpoint inputs (e : expr) : list (string * string) :=
  let of s := match s with Constant _ => [] | Input ty id _ => [(ty, id)] end in
  match e with
  | Src s => of s
  | Bin _ a b _ => inputs a ++ inputs b
  | Imm _ a s => inputs a ++ of s
  | Un _ a _ => inputs a
  | Step a _ => inputs a
  | PlusUn _ a s => inputs a ++ of s
  | PlusStep a s => inputs a ++ of s
  | Plus a s => inputs a ++ of s
  | Scale a _ => inputs a
  end.

(** The inputs that are added without an operator that falls back to the default. *)
Fixpoint added (e : expr) : list (string * string) :=
  let of s := match s with Constant _ => [] | Input ty id _ => [(ty, id)] end in
  match e with
  | Src _ => []
  | Bin _ a b _ => added a ++ added b
  | Imm _ a _ => added a
  | Un _ a _ => added a
  | Step a _ => added a
  | PlusUn _ a s => added a ++ of s
  | PlusStep a _ => added a
  | Plus a s => added a ++ of s
  | Scale a _ => added a
  end.

(** An input stands for its value, or for its default if it is of a kind that need
    not have one and has none. *)
Definition given (st : store) (df : string -> string -> option Q) (ty id : string) (q : Q) : Prop :=
  has_value st ty id q
  \/ (df ty id = Some q /\ (forall w, ~ has_value st ty id w) /\ ~ In ty ["A"; "S"; "R"; "I"; "W"; "C"; "U"; "G"; "B"; "X"]).
Definition readable (st : store) (df : string -> string -> option Q) (v : string -> string -> Q) (e : expr) : Prop :=
  (forall ty id, In (ty, id) (inputs e) -> given st df ty id (v ty id))
  /\ (forall ty id, In (ty, id) (added e) -> has_value st ty id (v ty id)).

(** The terms of an expression in reverse polish notation. *)
Definition op_name (o : binary) : string :=
  match o with Add => "ADD" | Sub => "SUB" | Mul => "MUL" | Div => "DIV" | Max => "MAX" | Min => "MIN" end.
Definition un_name (o : unary) : string :=
  match o with Square => "POW2" | Cube => "POW3" | Root => "SQRT" | Abs => "ABS" | Neg => "NEG" end.
Definition value_term (df : string -> string -> option Q) (op : option string) (s : source) : term :=
  match s with
  | Constant c => RTerm "C" "Constant" op c None (Some 1) None
  | Input ty id m => RTerm ty id op m None (df ty id) None
  end.
Definition stack_term (op : option string) (m : Q) : term := RTerm "U" "Stack" op m None None None.
Fixpoint encode (df : string -> string -> option Q) (e : expr) : list term :=
  match e with
  | Src s => [value_term df (Some "PUSH") s]
  | Bin o a b m => encode df a ++ encode df b ++ [stack_term (Some (op_name o)) m]
  | Imm o a s => encode df a ++ [value_term df (Some (op_name o)) s]
  | Un o a m => encode df a ++ [stack_term (Some (un_name o)) m]
  | Step a m => encode df a ++ [stack_term (Some "STEP") m]
  | PlusUn o a s => encode df a ++ [value_term df (Some (un_name o)) s]
  | PlusStep a s => encode df a ++ [value_term df (Some "STEP") s]
  | Plus a s => encode df a ++ [value_term df None s]
  | Scale a m => encode df a ++ [stack_term None m]
  end.

(** ** The stack *)

(** Operations that move elements of the stack; its top is the head of the list. *)
Inductive move := Copy (m : Q) | Swap (m : Q) | Down (m : Q) | Up (m : Q).
Definition move_term (o : move) : term :=
  match o with
  | Copy m => stack_term (Some "DUP") m | Swap m => stack_term (Some "EXCH") m
  | Down m => stack_term (Some "RSD") m | Up m => stack_term (Some "RSU") m
  end.
Inductive moves : list move -> list Q -> list Q -> Prop :=
| moves_none : forall s, moves [] s s
| moves_copy : forall m os a r s, moves os (a * m :: a :: r) s -> moves (Copy m :: os) (a :: r) s
| moves_swap : forall m os a b r s, moves os (b * m :: a :: r) s -> moves (Swap m :: os) (a :: b :: r) s
| moves_down : forall m os a r z s, moves os (z * m :: a :: r) s -> moves (Down m :: os) (a :: r ++ [z]) s
| moves_up : forall m os a b r s, moves os (b * m :: r ++ [a]) s -> moves (Up m :: os) (a :: b :: r) s.

(** The values of expressions, the last first. *)
Inductive stacked (root : Q -> Q) (v : string -> string -> Q) : list expr -> list Q -> Prop :=
| stacked_nil : stacked root v [] []
| stacked_snoc : forall es e s q, stacked root v es s -> meaning root v e = Some q -> stacked root v (es ++ [e]) (q :: s).

(** ** Sums and groups *)

Definition simple_type (ty : string) : Prop := ~ In ty ["U"; "G"; "B"; "X"].
Definition no_value (st : store) (t : term) : Prop := forall v, ~ has_value st (t_type t) (t_id t) v.

(** What a term without operator adds; a term of the SCADA types must have a value. *)
Definition amount (st : store) (t : term) (q : Q) : Prop :=
  (exists v, has_value st (t_type t) (t_id t) v /\ q == t_mult t * v)
  \/ (no_value st t /\ ~ In (t_type t) ["A"; "S"; "R"; "I"; "W"]
      /\ match t_value t with Some v => q == t_mult t * v | None => q == t_mult t end).
Inductive total (st : store) : list term -> Q -> Prop :=
| total_nil : total st [] 0
| total_cons : forall t ts a q, amount st t a -> total st ts q -> total st (t :: ts) (a + q).

(** A term that stands alone, a group with the term of its factor after it, or
    before it. *)
Inductive segment := Alone (t : term) | Closed (g : string) (ts : list term) (c : term) | Opened (c : term) (g : string) (ts : list term).
Definition seg_terms (s : segment) : list term :=
  match s with Alone t => [t] | Closed _ ts c => ts ++ [c] | Opened c _ ts => c :: ts end.
Definition seg_ids (s : segment) : list string :=
  match s with Alone _ => [] | Closed g _ _ => [g] | Opened _ g _ => [g] end.
Definition summand (g : option string) (t : term) : Prop := t_op t = None /\ t_group t = g /\ simple_type (t_type t).
Definition factor (c : term) : Prop := t_op c = None /\ t_group c = None /\ t_type c = "G".
Definition seg_ok (s : segment) : Prop :=
  match s with
  | Alone t => summand None t
  | Closed g ts c | Opened c g ts => ts <> [] /\ (forall t, In t ts -> summand (Some g) t) /\ factor c
  end.
Definition seg_total (st : store) (s : segment) (q : Q) : Prop :=
  match s with
  | Alone t => amount st t q
  | Closed _ ts c | Opened c _ ts => exists x, total st ts x /\ q == t_mult c * x
  end.
Inductive seg_sum (st : store) : list segment -> Q -> Prop :=
| sum_nil : seg_sum st [] 0
| sum_cons : forall s r a q, seg_total st s a -> seg_sum st r q -> seg_sum st (s :: r) (a + q).

(** ** Histories *)

Inductive call := Compute (id : string) | Update (spd ty : string) (v : Q).
Definition do_call (root : Q -> Q) (depth : nat) (c : call) (st : store) : store :=
  match c with
  | Compute id => fst (compute_rhs root depth st id)
  | Update spd ty v => match update st spd ty v with Done st' => st' | Fail _ => st end
  end.
Definition do_calls (root : Q -> Q) (depth : nat) (cs : list call) (st : store) : store :=
  fold_left (fun st c => do_call root depth c st) cs st.
Definition is_update (c : call) : bool := match c with Update _ _ _ => true | Compute _ => false end.

(** ** C45 *)

(** Some term of the equation is the input, or a generic equation that leads to it. *)
Inductive leads_to (st : store) (spd ty : string) : list term -> Prop :=
| leads_here : forall eqn t, In t eqn -> t_id t = spd -> t_type t = ty -> leads_to st spd ty eqn
| leads_via : forall eqn t eqn', In t eqn -> t_type t = "X" -> dget (t_id t) (s_generic st) = Some eqn' ->
    leads_to st spd ty eqn' -> leads_to st spd ty eqn.

(** No generic equation refers to another one. *)
Definition flat (st : store) : Prop :=
  forall id eqn t, dget id (s_generic st) = Some eqn -> In t eqn -> t_type t = "X" -> dget (t_id t) (s_generic st) = None.
