(** Model of nempy/historical_inputs/rhs_calculator.py: evaluation of right hand side
    equations.  Definitions only. *)

From Coq Require Import QArith Qabs String List Bool Arith.
Import ListNotations.
From Verif Require Import PandasModel.
Open Scope string_scope.
Open Scope list_scope.

(** Python exceptions: KeyError, IndexError, ValueError, ZeroDivisionError and
    RecursionError.
    /repo/src/nempy/historical_inputs/rhs_calculator.py:347, 555, 594-595, 658, 817. *)
Inductive rerr := RKey | RIndex | RValue | RZero | RRecursion.
(** A value or an exception.  /repo/src/nempy/historical_inputs/rhs_calculator.py:347, 555, 594-595. *)
Inductive res (A : Type) := Done (a : A) | Fail (e : rerr).
Arguments Done {A} a.
Arguments Fail {A} e.
(** An exception ends the evaluation.  /repo/src/nempy/historical_inputs/rhs_calculator.py:347, 555, 594-595. *)
Definition rbind {A B : Type} (r : res A) (f : A -> res B) : res B :=
  match r with Done a => f a | Fail e => Fail e end.
(** [d[k]].  /repo/src/nempy/historical_inputs/rhs_calculator.py:347, 475, 658. *)
Definition need_key {A : Type} (o : option A) : res A := match o with Some a => Done a | None => Fail RKey end.

(** A term of an equation: SpdType, SpdID, Operation, Multiplier, Value, Default and
    GroupTerm; [None] if the attribute is missing.  Numbers stand for the strings
    that [float] reads; every term has a Multiplier.
    /repo/src/nempy/historical_inputs/rhs_calculator.py:120-135, 580-640. *)
Record term := RTerm {
  t_type : string; t_id : string; t_op : option string; t_mult : Q;
  t_value : option Q; t_default : option Q; t_group : option string }.

(** [term['@Value'] = v], or its deletion.
    /repo/src/nempy/historical_inputs/rhs_calculator.py:454, 568, 580, 1038. *)
Definition set_value (t : term) (v : option Q) : term :=
  RTerm (t_type t) (t_id t) (t_op t) (t_mult t) v (t_default t) (t_group t).
(** [del term['@GroupTerm']].  /repo/src/nempy/historical_inputs/rhs_calculator.py:1064-1065. *)
Definition ungroup (t : term) : term :=
  RTerm (t_type t) (t_id t) (t_op t) (t_mult t) (t_value t) (t_default t) None.
(** [term['@SpdType'] == s].  /repo/src/nempy/historical_inputs/rhs_calculator.py:546, 591-593, 600. *)
Definition type_is (s : string) (t : term) : bool := String.eqb (t_type t) s.

(** [_get_default_if_needed].
    /repo/src/nempy/historical_inputs/rhs_calculator.py:656-660. *)
Definition value_or_default (t : term) : res Q :=
  match t_value t with Some v => Done v | None => need_key (t_default t) end.

(** ** Operations on the stack, whose top is the head of the list *)

(** [_no_operator].  /repo/src/nempy/historical_inputs/rhs_calculator.py:663-673. *)
Definition no_operator (stack : list Q) (t : term) : res (list Q) :=
  let stack := match stack with [] => [0] | _ => stack end in
  match stack with
  | [] => Fail RIndex
  | a :: r => Done (a + match t_value t with Some v => t_mult t * v | None => t_mult t end :: r)
  end.

(** [_type_u_no_operator].
    /repo/src/nempy/historical_inputs/rhs_calculator.py:676-682. *)
Definition u_no_operator (stack : list Q) (t : term) : res (list Q) :=
  let stack := match stack with [] => [0] | _ => stack end in
  match stack with [] => Fail RIndex | a :: r => Done (a * t_mult t :: r) end.

(** [_step].  /repo/src/nempy/historical_inputs/rhs_calculator.py:685-706. *)
Definition step_fun (q m : Q) : Q := if Qlt_bool 0 q then m else 0.
(** As above.  /repo/src/nempy/historical_inputs/rhs_calculator.py:685-706. *)
Definition op_step (stack : list Q) (t : term) : res (list Q) :=
  if type_is "U" t then
    match stack with [] => Fail RIndex | a :: r => Done (step_fun a (t_mult t) :: r) end
  else
    rbind (value_or_default t) (fun v =>
    match stack with
    | [] => Done [step_fun v (t_mult t)]
    | a :: r => Done (a + step_fun v (t_mult t) :: r)
    end).

(** [_square], [_cube], [_sqrt], [_absolute_value] and [_negation] have one shape: on
    the top of the stack, on the multiplier of a constant or on the value.
    /repo/src/nempy/historical_inputs/rhs_calculator.py:709-783. *)
Definition op_unary (f : Q -> Q) (stack : list Q) (t : term) : res (list Q) :=
  match stack with
  | [] => Fail RIndex
  | a :: r =>
      if type_is "U" t then Done (f a * t_mult t :: r)
      else if type_is "C" t then Done (a + f (t_mult t) :: r)
      else rbind (need_key (t_value t)) (fun v => Done (a + f v * t_mult t :: r))
  end.
(** As above.  /repo/src/nempy/historical_inputs/rhs_calculator.py:709-783. *)
Definition square (q : Q) : Q := q * q.
(** As above.  /repo/src/nempy/historical_inputs/rhs_calculator.py:709-783. *)
Definition cube (q : Q) : Q := q * q * q.
(** As above.  /repo/src/nempy/historical_inputs/rhs_calculator.py:709-783. *)
Definition negated (q : Q) : Q := - (1) * q.

(** [_add_on_stack].  /repo/src/nempy/historical_inputs/rhs_calculator.py:786-798. *)
Definition add_on_stack (stack : list Q) (t : term) : res (list Q) :=
  match stack with
  | [] => Fail RIndex
  | [a] => Done [a * t_mult t]
  | a :: b :: r => Done ((a + b) * t_mult t :: r)
  end.

(** [_subtract_on_stack], [_multipy_on_stack], [_divide_on_stack], [_max_on_stack]
    and [_min_on_stack]: [f] of the second element and the top.
    /repo/src/nempy/historical_inputs/rhs_calculator.py:815-823, 840-849, 866-875, 892-900, 917-926. *)
Definition on_stack (f : Q -> Q -> res Q) (stack : list Q) (t : term) : res (list Q) :=
  match stack with
  | a :: b :: r => rbind (f b a) (fun q => Done (q * t_mult t :: r))
  | _ => Fail RValue
  end.

(** [_add], [_subtract], [_multiply], [_divide], [_maximum], [_minimum]: [f] of the
    top and the multiplier of a constant or the value of another term.
    /repo/src/nempy/historical_inputs/rhs_calculator.py:801-812, 826-837, 852-863, 878-889, 903-914, 929-940. *)
Definition with_value (f : Q -> Q -> res Q) (stack : list Q) (t : term) : res (list Q) :=
  rbind (value_or_default t) (fun v =>
  match stack with
  | [] => Fail RIndex
  | a :: r =>
      if type_is "C" t then rbind (f a (t_mult t)) (fun q => Done (q :: r))
      else rbind (f a v) (fun q => Done (q * t_mult t :: r))
  end).

(** As above.
    /repo/src/nempy/historical_inputs/rhs_calculator.py:801-812, 826-837, 852-863, 878-889, 903-914, 929-940. *)
Definition plus (a b : Q) : res Q := Done (a + b).
(** As above.
    /repo/src/nempy/historical_inputs/rhs_calculator.py:801-812, 826-837, 852-863, 878-889, 903-914, 929-940. *)
Definition minus (a b : Q) : res Q := Done (a - b).
(** As above.
    /repo/src/nempy/historical_inputs/rhs_calculator.py:801-812, 826-837, 852-863, 878-889, 903-914, 929-940. *)
Definition times (a b : Q) : res Q := Done (a * b).
(** As above.
    /repo/src/nempy/historical_inputs/rhs_calculator.py:801-812, 826-837, 852-863, 878-889, 903-914, 929-940. *)
Definition over (a b : Q) : res Q := if Qeq_bool b 0 then Fail RZero else Done (a / b).
(** As above.
    /repo/src/nempy/historical_inputs/rhs_calculator.py:801-812, 826-837, 852-863, 878-889, 903-914, 929-940. *)
Definition larger (a b : Q) : res Q := Done (if Qlt_bool a b then b else a).
(** As above.
    /repo/src/nempy/historical_inputs/rhs_calculator.py:801-812, 826-837, 852-863, 878-889, 903-914, 929-940. *)
Definition smaller (a b : Q) : res Q := Done (if Qlt_bool b a then b else a).

(** [_push].  /repo/src/nempy/historical_inputs/rhs_calculator.py:943-952. *)
Definition op_push (stack : list Q) (t : term) : res (list Q) :=
  if type_is "C" t then Done (t_mult t :: stack)
  else rbind (value_or_default t) (fun v => Done (t_mult t * v :: stack)).

(** [_duplicate].  /repo/src/nempy/historical_inputs/rhs_calculator.py:955-960. *)
Definition op_dup (stack : list Q) (t : term) : res (list Q) :=
  match stack with [] => Fail RIndex | a :: _ => Done (a * t_mult t :: stack) end.

(** [_exchange].  /repo/src/nempy/historical_inputs/rhs_calculator.py:963-971. *)
Definition op_exch (stack : list Q) (t : term) : res (list Q) :=
  match stack with a :: b :: r => Done (b * t_mult t :: a :: r) | _ => Fail RValue end.

(** [_roll_stack_down] and [_roll_stack_up].
    /repo/src/nempy/historical_inputs/rhs_calculator.py:974-994. *)
Definition op_rsd (stack : list Q) (t : term) : res (list Q) :=
  match stack with
  | a :: b :: r => Done (last stack 0 * t_mult t :: removelast stack)
  | _ => Fail RValue
  end.
(** As above.  /repo/src/nempy/historical_inputs/rhs_calculator.py:974-994. *)
Definition op_rsu (stack : list Q) (t : term) : res (list Q) :=
  match stack with a :: b :: r => Done (b * t_mult t :: r ++ [a]) | _ => Fail RValue end.

(** [_stack_pop]: the flag and the stack.
    /repo/src/nempy/historical_inputs/rhs_calculator.py:997-1015. *)
Definition op_pop (stack : list Q) (t : term) : res (bool * list Q) :=
  if type_is "U" t then
    match stack with [] => Fail RIndex | a :: r => Done (Qle_bool a 0, r) end
  else rbind (need_key (t_value t)) (fun v => Done (Qle_bool v 0, stack)).

(** [_exchange_if_less_than_zero].
    /repo/src/nempy/historical_inputs/rhs_calculator.py:1018-1027. *)
Definition op_exlez (stack : list Q) (t : term) : res (list Q) :=
  match stack with a :: b :: r => Done (b * t_mult t :: a :: r) | _ => Done stack end.

(** Only POP and EXLEZ change the flag.  /repo/src/nempy/historical_inputs/rhs_calculator.py:591-649. *)
Definition keep_flag (pop : bool) (r : res (list Q)) : res (bool * list Q) := rbind r (fun s => Done (pop, s)).

(** The evaluation of a term that is in no group; [root] stands for [** 0.5], whose
    result is a float or, for negative numbers, a complex number.
    /repo/src/nempy/historical_inputs/rhs_calculator.py:582-649. *)
Definition apply_term (root : Q -> Q) (pop : bool) (stack : list Q) (t : term) : res (bool * list Q) :=
  let u := type_is "U" t in
  match t_op t, t_value t with
  | None, None => if u then keep_flag pop (u_no_operator stack t)
                  else if type_is "B" t then Fail RValue else keep_flag pop (no_operator stack t)
  | None, Some _ => if type_is "B" t then Fail RValue else keep_flag pop (no_operator stack t)
  | Some op, _ =>
      if type_is "B" t then Fail RValue
      else if String.eqb op "ADD" then keep_flag pop (if u then add_on_stack stack t else with_value plus stack t)
      else if String.eqb op "SUB" then keep_flag pop (if u then on_stack minus stack t else with_value minus stack t)
      else if String.eqb op "MUL" then keep_flag pop (if u then on_stack times stack t else with_value times stack t)
      else if String.eqb op "DIV" then keep_flag pop (if u then on_stack over stack t else with_value over stack t)
      else if String.eqb op "MAX" then keep_flag pop (if u then on_stack larger stack t else with_value larger stack t)
      else if String.eqb op "MIN" then keep_flag pop (if u then on_stack smaller stack t else with_value smaller stack t)
      else if String.eqb op "STEP" then keep_flag pop (op_step stack t)
      else if String.eqb op "POW2" then keep_flag pop (op_unary square stack t)
      else if String.eqb op "POW3" then keep_flag pop (op_unary cube stack t)
      else if String.eqb op "SQRT" then keep_flag pop (op_unary root stack t)
      else if String.eqb op "ABS" then keep_flag pop (op_unary Qabs stack t)
      else if String.eqb op "NEG" then keep_flag pop (op_unary negated stack t)
      else if String.eqb op "PUSH" then keep_flag pop (op_push stack t)
      else if String.eqb op "DUP" && u then keep_flag pop (op_dup stack t)
      else if String.eqb op "EXCH" && u then keep_flag pop (op_exch stack t)
      else if String.eqb op "RSD" && u then keep_flag pop (op_rsd stack t)
      else if String.eqb op "RSU" && u then keep_flag pop (op_rsu stack t)
      else if String.eqb op "POP" then op_pop stack t
      else if String.eqb op "EXLEZ" && u && pop then keep_flag false (op_exlez stack t)
      else Done (pop, stack)
  end.

(** ** Groups *)

(** A member of the group.  /repo/src/nempy/historical_inputs/rhs_calculator.py:1048, 1053. *)
Definition in_group (g : string) (t : term) : bool :=
  match t_group t with Some x => String.eqb x g | None => false end.
(** A member of a group that is done.  /repo/src/nempy/historical_inputs/rhs_calculator.py:547, 572. *)
Definition ignored (ignore : list string) (t : term) : bool :=
  match t_group t with Some g => mem_str g ignore | None => false end.

(** [_get_sub_groups].  /repo/src/nempy/historical_inputs/rhs_calculator.py:1030-1035. *)
Definition sub_groups (group : list term) : list string :=
  fold_left (fun ids t => match t_group t with
                          | Some g => if mem_str g ids then ids else ids ++ [g]
                          | None => ids
                          end) group [].

(** [_clear_group_values].
    /repo/src/nempy/historical_inputs/rhs_calculator.py:1038-1042. *)
Definition clear_groups (eqn : list term) : list term :=
  map (fun t => if type_is "G" t then set_value t None else t) eqn.

(** The positions of the first and the last member of a group and whether the first
    is of type G, one term at a time.
    /repo/src/nempy/historical_inputs/rhs_calculator.py:1045-1061. *)
Record span := Span { sp_first : option nat; sp_last : option nat; sp_g : bool }.
(** As above.  /repo/src/nempy/historical_inputs/rhs_calculator.py:1045-1061. *)
Definition is_pos (o : option nat) (i : nat) : bool := match o with Some n => Nat.eqb n i | None => false end.
(** As above.  /repo/src/nempy/historical_inputs/rhs_calculator.py:1045-1061. *)
Definition span_step (g : string) (prev : option term) (i : nat) (t : term) (s : span) : span :=
  let s := match sp_first s with
           | None => if in_group g t then Span (Some i) (sp_last s) (type_is "G" t) else s
           | Some _ => s
           end in
  let s := match sp_first s with
           | Some _ => if in_group g t then Span (sp_first s) (Some i) (sp_g s) else s
           | None => s
           end in
  match i, prev, t_group t with
  | S j, Some p, Some x =>
      if is_pos (sp_last s) j && negb (String.eqb x g) && sp_g s && (type_is "G" p || in_group x p)
      then Span (sp_first s) (Some i) (sp_g s) else s
  | _, _, _ => s
  end.
(** As above.  /repo/src/nempy/historical_inputs/rhs_calculator.py:1045-1061. *)
Fixpoint span_from (g : string) (prev : option term) (i : nat) (eqn : list term) (s : span) : span :=
  match eqn with [] => s | t :: r => span_from g (Some t) (S i) r (span_step g prev i t s) end.

(** The terms between them, without the id of the group.
    /repo/src/nempy/historical_inputs/rhs_calculator.py:1063-1070. *)
Fixpoint strip (g : string) (l : list term) : res (list term) :=
  match l with
  | [] => Done []
  | t :: r => match t_group t with
              | None => Fail RKey
              | Some x => rbind (strip g r) (fun r' => Done ((if String.eqb x g then ungroup t else t) :: r'))
              end
  end.

(** [_collect_group]; a group without members does not occur.
    /repo/src/nempy/historical_inputs/rhs_calculator.py:1045-1072. *)
Definition collect_group (eqn : list term) (g : string) : res (list term) :=
  let s := span_from g None 0 eqn (Span None None false) in
  match sp_first s, sp_last s with
  | Some a, Some b => strip g (firstn (S b - a) (skipn a eqn))
  | _, _ => Done []
  end.

(** ** Evaluation of an equation *)

(** The value of a term is stored.  /repo/src/nempy/historical_inputs/rhs_calculator.py:568, 580. *)
Fixpoint set_nth (i : nat) (v : Q) (eqn : list term) : list term :=
  match eqn, i with
  | [], _ => []
  | t :: r, O => set_value t (Some v) :: r
  | t :: r, S j => t :: set_nth j v r
  end.

(** The equation, the stack, the groups to ignore and the flag of POP.
    /repo/src/nempy/historical_inputs/rhs_calculator.py:540-545. *)
Record rpn := Rpn { r_eqn : list term; r_stack : list Q; r_ignore : list string; r_pop : bool }.

(** What the processing of groups does before a term is evaluated; the flag says
    whether the rest of the iteration is skipped.  [calc] is [_rpn_calc] of a group.
    /repo/src/nempy/historical_inputs/rhs_calculator.py:546-580. *)
Definition open_group (calc : list term -> res Q) (i : nat) (t : term) (s : rpn) : res (bool * rpn) :=
  let add g := rbind (collect_group (r_eqn s) g) (fun group =>
               rbind (calc group) (fun v =>
               Done (group, v, r_ignore s ++ [g] ++ sub_groups group))) in
  if type_is "G" t && match t_value t with None => true | Some _ => false end && negb (ignored (r_ignore s) t) then
    match (match t_group t with
           | Some g => Done (Some g)
           | None => match nth_error (r_eqn s) (S i) with
                     | None => Fail RIndex
                     | Some n => Done (t_group n)
                     end
           end) with
    | Fail e => Fail e
    | Done None => Done (true, s)
    | Done (Some g) => rbind (add g) (fun p => let '(_, v, ign) := p in
                       Done (false, Rpn (set_nth i v (r_eqn s)) (r_stack s) ign (r_pop s)))
    end
  else
    match t_group t with
    | Some g =>
        if mem_str g (r_ignore s) then Done (false, s)
        else rbind (add g) (fun p => let '(group, v, ign) := p in
             match nth_error (r_eqn s) (i + length group) with
             | None => Fail RIndex
             | Some n =>
                 if type_is "G" n then
                   Done (false, Rpn (set_nth (i + length group) v (r_eqn s)) (r_stack s) ign (r_pop s))
                 else match r_stack s with
                      | [] => Fail RIndex
                      | a :: r => Done (false, Rpn (r_eqn s) (a + v :: r) ign (r_pop s))
                      end
             end)
    | None => Done (false, s)
    end.

(** One iteration.  An exception leaves the equation as it is at that point.
    /repo/src/nempy/historical_inputs/rhs_calculator.py:544-649. *)
Definition rpn_step (root : Q -> Q) (calc : list term -> res Q) (i : nat) (s : rpn) : list term * res rpn :=
  match nth_error (r_eqn s) i with
  | None => (r_eqn s, Fail RIndex)
  | Some t =>
      match open_group calc i t s with
      | Fail e => (r_eqn s, Fail e)
      | Done (true, s') => (r_eqn s', Done s')
      | Done (false, s') =>
          match t_group t, nth_error (r_eqn s') i with
          | None, Some t' =>
              (r_eqn s', rbind (apply_term root (r_pop s') (r_stack s') t') (fun p =>
                         Done (Rpn (r_eqn s') (snd p) (r_ignore s') (fst p))))
          | _, _ => (r_eqn s', Done s')
          end
      end
  end.
(** As above.  /repo/src/nempy/historical_inputs/rhs_calculator.py:544-649. *)
Fixpoint rpn_loop (root : Q -> Q) (calc : list term -> res Q) (n i : nat) (s : rpn) : list term * res (list Q) :=
  match n with
  | O => (r_eqn s, Done (r_stack s))
  | S n' => match rpn_step root calc i s with
            | (e, Fail x) => (e, Fail x)
            | (_, Done s') => rpn_loop root calc n' (S i) s'
            end
  end.

(** [_rpn_stack] and [_rpn_calc].  A group has fewer terms with an id than the
    equation it is in, so [fuel] of one more than the number of terms suffices.
    /repo/src/nempy/historical_inputs/rhs_calculator.py:526-653. *)
Definition top (r : res (list Q)) : res Q :=
  rbind r (fun s => match s with a :: _ => Done a | [] => Fail RIndex end).
(** As above.  /repo/src/nempy/historical_inputs/rhs_calculator.py:526-653. *)
Fixpoint rpn_stack (root : Q -> Q) (fuel : nat) (eqn : list term) : list term * res (list Q) :=
  match fuel with
  | O => (eqn, Fail RRecursion)
  | S f => rpn_loop root (fun g => top (snd (rpn_stack root f g))) (length eqn) 0
             (Rpn (clear_groups eqn) [0] [] false)
  end.
(** As above.  /repo/src/nempy/historical_inputs/rhs_calculator.py:526-653. *)
Definition rpn_calc (root : Q -> Q) (eqn : list term) : list term * res Q :=
  let r := rpn_stack root (S (length eqn)) eqn in (fst r, top (snd r)).

(** ** The calculator *)

(** The attributes of RHSCalc: SCADA values by type and id, initial MW of units,
    entered values, availability of market interconnectors, generic equations and
    right hand side equations.
    /repo/src/nempy/historical_inputs/rhs_calculator.py:37-50. *)
Record store := Store {
  s_scada : dict (dict (list Q)); s_mw : dict Q; s_entered : dict Q; s_from : dict Q; s_to : dict Q;
  s_generic : dict (list term); s_rhs : dict (list term) }.
(** The generic equations with values stored in them.
    /repo/src/nempy/historical_inputs/rhs_calculator.py:454, 520-522. *)
Definition set_generic (st : store) (d : dict (list term)) : store :=
  Store (s_scada st) (s_mw st) (s_entered st) (s_from st) (s_to st) d (s_rhs st).
(** The right hand side equations with values stored in them.
    /repo/src/nempy/historical_inputs/rhs_calculator.py:347-349, 454. *)
Definition set_rhs (st : store) (d : dict (list term)) : store :=
  Store (s_scada st) (s_mw st) (s_entered st) (s_from st) (s_to st) (s_generic st) d.

(** The types of SCADA values.  /repo/src/nempy/historical_inputs/rhs_calculator.py:474. *)
Definition scada_types : list string := ["A"; "S"; "R"; "I"; "W"].

(** [_resolve_term_value]; [generic] is [_compute_generic_equation].  The values of
    one id are added up.
    /repo/src/nempy/historical_inputs/rhs_calculator.py:455-498. *)
Definition resolve_value (generic : store -> string -> store * res Q) (st : store) (t : term)
  : store * res (option Q) :=
  let some r := (st, rbind r (fun q => Done (Some q))) in
  if type_is "C" t then (st, Done None)
  else if mem_str (t_type t) scada_types then
    some (rbind (need_key (dget (t_type t) (s_scada st))) (fun d =>
          rbind (need_key (dget (t_id t) d)) (fun l => Done (fold_left Qplus l 0))))
  else if dhas (t_id t) (s_mw st) && type_is "T" t then some (need_key (dget (t_id t) (s_mw st)))
  else if dhas (t_id t) (s_entered st) && type_is "E" t then some (need_key (dget (t_id t) (s_entered st)))
  else if dhas (t_id t) (s_generic st) && type_is "X" t then
    let p := generic st (t_id t) in (fst p, rbind (snd p) (fun q => Done (Some q)))
  else if dhas (t_id t) (s_from st) && type_is "M" t then some (need_key (dget (t_id t) (s_from st)))
  else if dhas (t_id t) (s_to st) && type_is "N" t then some (need_key (dget (t_id t) (s_to st)))
  else (st, Done None).

(** [_resolve_term_values]: the values are stored in the terms of the equation.
    /repo/src/nempy/historical_inputs/rhs_calculator.py:438-453. *)
Fixpoint resolve_terms (generic : store -> string -> store * res Q) (st : store) (eqn : list term)
  : store * list term * option rerr :=
  match eqn with
  | [] => (st, [], None)
  | t :: r =>
      match resolve_value generic st t with
      | (st', Fail e) => (st', t :: r, Some e)
      | (st', Done v) =>
          let t' := match v with Some q => set_value t (Some q) | None => t end in
          let '(st'', r', e) := resolve_terms generic st' r in (st'', t' :: r', e)
      end
  end.
(** Values are resolved, then the equation is evaluated.
    /repo/src/nempy/historical_inputs/rhs_calculator.py:348-349, 521-522. *)
Definition eval_equation (root : Q -> Q) (generic : store -> string -> store * res Q) (st : store) (eqn : list term)
  : store * list term * res Q :=
  let '(st', eqn', e) := resolve_terms generic st eqn in
  match e with
  | Some x => (st', eqn', Fail x)
  | None => let p := rpn_calc root eqn' in (st', fst p, snd p)
  end.

(** [_compute_generic_equation]; [depth] is the limit of Python on nested calls.  The
    terms of the stored equation are changed in place; an equation that refers to
    itself always ends in RecursionError, and only then would the order of these
    changes be visible.
    /repo/src/nempy/historical_inputs/rhs_calculator.py:500-523. *)
Fixpoint compute_generic (root : Q -> Q) (depth : nat) (st : store) (id : string) : store * res Q :=
  match depth with
  | O => (st, Fail RRecursion)
  | S d => match dget id (s_generic st) with
           | None => (st, Fail RKey)
           | Some eqn =>
               let '(st', eqn', r) := eval_equation root (compute_generic root d) st eqn in
               (set_generic st' (dset id eqn' (s_generic st')), r)
           end
  end.

(** [compute_constraint_rhs] of one id and of a list of ids.
    /repo/src/nempy/historical_inputs/rhs_calculator.py:346-360. *)
Definition compute_rhs (root : Q -> Q) (depth : nat) (st : store) (id : string) : store * res Q :=
  match dget id (s_rhs st) with
  | None => (st, Fail RKey)
  | Some eqn =>
      let '(st', eqn', r) := eval_equation root (compute_generic root depth) st eqn in
      (set_rhs st' (dset id eqn' (s_rhs st')), r)
  end.
(** As above.  /repo/src/nempy/historical_inputs/rhs_calculator.py:346-360. *)
Fixpoint compute_all (root : Q -> Q) (depth : nat) (st : store) (ids : list string) : store * res (list (string * Q)) :=
  match ids with
  | [] => (st, Done [])
  | id :: r =>
      match compute_rhs root depth st id with
      | (st', Fail e) => (st', Fail e)
      | (st', Done q) => let p := compute_all root depth st' r in
                         (fst p, rbind (snd p) (fun l => Done ((id, q) :: l)))
      end
  end.

(** ** Dependants and updates *)

(** A term with this id and type.  /repo/src/nempy/historical_inputs/rhs_calculator.py:387, 394. *)
Definition refers (spd ty : string) (t : term) : bool := String.eqb (t_id t) spd && String.eqb (t_type t) ty.

(** [get_rhs_constraint_equations_that_depend_value].
    /repo/src/nempy/historical_inputs/rhs_calculator.py:382-399. *)
Definition dependent_generic (st : store) (spd ty : string) : list string :=
  fold_left (fun ids p =>
    fold_left (fun ids t => if refers spd ty t && negb (mem_str (fst p) ids) then ids ++ [fst p] else ids)
              (snd p) ids) (s_generic st) [].
(** As above.  /repo/src/nempy/historical_inputs/rhs_calculator.py:382-399. *)
Definition dependents (st : store) (spd ty : string) : list string :=
  let gen := dependent_generic st spd ty in
  fold_left (fun ids p =>
    fold_left (fun ids t => if (refers spd ty t && negb (mem_str (fst p) ids))
                               || (mem_str (t_id t) gen && type_is "X" t) then ids ++ [fst p] else ids)
              (snd p) ids) (s_rhs st) [].

(** [update_spd_id_value].
    /repo/src/nempy/historical_inputs/rhs_calculator.py:418-436. *)
Definition update (st : store) (spd ty : string) (v : Q) : res store :=
  if mem_str ty ["C"; "R"; "X"] then Fail RValue
  else if mem_str ty ["A"; "S"; "I"; "W"] then
    rbind (need_key (dget ty (s_scada st))) (fun d =>
    rbind (need_key (dget spd d)) (fun l =>
    match l with
    | _ :: _ :: _ => Fail RValue
    | [] => Fail RIndex
    | [_] => Done (Store (dset ty (dset spd [v] d) (s_scada st)) (s_mw st) (s_entered st) (s_from st) (s_to st)
                         (s_generic st) (s_rhs st))
    end))
  else if dhas spd (s_mw st) && String.eqb ty "T" then
    Done (Store (s_scada st) (dset spd v (s_mw st)) (s_entered st) (s_from st) (s_to st) (s_generic st) (s_rhs st))
  else if dhas spd (s_entered st) && String.eqb ty "E" then
    Done (Store (s_scada st) (s_mw st) (dset spd v (s_entered st)) (s_from st) (s_to st) (s_generic st) (s_rhs st))
  else if dhas spd (s_from st) && String.eqb ty "M" then
    Done (Store (s_scada st) (s_mw st) (s_entered st) (dset spd v (s_from st)) (s_to st) (s_generic st) (s_rhs st))
  else if dhas spd (s_to st) && String.eqb ty "N" then
    Done (Store (s_scada st) (s_mw st) (s_entered st) (s_from st) (dset spd v (s_to st)) (s_generic st) (s_rhs st))
  else Fail RValue.
