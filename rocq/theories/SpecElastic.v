(** Elastic constraints: violation variables and what they should be. *)

From Coq Require Import QArith Qminmax Qabs String List Bool Arith.
Import ListNotations.
From Verif Require Import PandasModel TablesModel MarketModel SolverModel SpecLp SpecHistory.
Open Scope string_scope.
Open Scope list_scope.

(** The rows of a constraint group. *)
Definition group (m : market) (k : string) : option (list crow) :=
  match dget k (m_mrhs m) with Some g => Some g | None => dget k (m_rhs m) end.

(** The violation variables of a group. *)
Definition violation_vars (m : market) (k : string) : list nat :=
  map df_id (rows_or_nil (dget (k ++ "_deficit")%string (m_deficits m))).
Definition is_violation (m : market) (k : string) (i : nat) : bool := existsb (Nat.eqb i) (violation_vars m k).

(** Value of a constraint's left-hand side without the violation variables, and
    the sum of its violation variables. *)
Definition own_value (m : market) (k : string) (c : pcon) (x : assignment) : Q :=
  linear (filter (fun t => negb (is_violation m k (fst t))) (pc_terms c)) x.
Definition violation (m : market) (k : string) (c : pcon) (x : assignment) : Q :=
  qsum (map (fun t => x (fst t)) (filter (fun t => is_violation m k (fst t)) (pc_terms c))).

(** By how much [a ty b] is missed. *)
Definition missed (ty : string) (a b : Q) : Q :=
  if String.eqb ty ">=" then Qmax 0 (b - a)
  else if String.eqb ty "<=" then Qmax 0 (a - b)
  else Qabs (a - b).

(** The cost that the argument violation_cost gives to a row. *)
Definition cost_of (v : vcost) (r : crow) (q : Q) : Prop :=
  match v with
  | VNum c => q = c
  | VTable t => exists s, cr_key r = KSet s /\ In (s, q) t
  | VOther => False
  end.
(** A cost table names every set once. *)
Definition once (v : vcost) : Prop := match v with VTable t => NoDup (map fst t) | _ => True end.

(** The argument violation_cost of a call. *)
Definition cost_arg (o : op) : option vcost :=
  match o with
  | OpCapacity _ v | OpUigf _ v | OpRamp _ _ _ _ v | OpFastStart _ v | OpDemand _ v | OpFcasReq _ v | OpMaxAvail _ v
  | OpJointRamping _ _ _ v | OpJointCapacity _ v | OpEnergyReg _ v | OpGeneric _ v => v
  | OpElastic _ v | OpTieBreak v => Some v
  | OpVolumeBids _ | OpPriceBids _ | OpRemoveFastStart | OpInterconnectors _ | OpLosses _ _
  | OpLinkUnits _ | OpLinkRegions _ | OpLinkInters _ => None
  end.

(** The last call about group [k] had the violation cost [v].  A fast start call
    counts if it met a market without fast start constraints, since it may leave
    older ones alone. *)
Definition made_elastic (c : config) (k : string) (v : vcost) (m : market) : Prop :=
  exists o m', in_force_at c o m' m /\ In k (touches o) /\ cost_arg o = Some v
    /\ (forall l w, o = OpFastStart l w -> group m' k = None).

(** [m] and [y] agree except for the violation variables of [k]. *)
Definition same_but (m : market) (k : string) (x y : assignment) : Prop :=
  forall i, ~ In i (violation_vars m k) -> y i == x i.

(** The constraint belongs to the group. *)
Definition of_group (g : list crow) (c : pcon) : Prop := exists r, In r g /\ cr_id r = pc_id c.
Definition of_groupb (g : list crow) (c : pcon) : bool := existsb (fun r => Nat.eqb (cr_id r) (pc_id c)) g.

(** Everything except the constraints of the group and the bounds of its
    violation variables is satisfied. *)
Definition feasible_but (p : problem) (m : market) (k : string) (g : list crow) (x : assignment) : Prop :=
  (forall v, In v (p_vars p) -> ~ In (pv_id v) (violation_vars m k) -> in_bounds x v)
  /\ (forall c, In c (p_cons p) -> ~ of_group g c -> con_holds x c)
  /\ (forall s, In s (p_sos2 p) -> sos2_ok x s)
  /\ (forall s, In s (p_sos1 p) -> sos1_ok x s).

(** The group has no violation variables, nor anything left over from earlier ones. *)
Definition inelastic (m : market) (k : string) : Prop :=
  dget (k ++ "_deficit")%string (m_deficits m) = None /\ dget (k ++ "_deficit")%string (m_lhs m) = None
  /\ dget (k ++ "_deficit")%string (m_obj_def m) = None.
Definition no_violation (m : market) (k : string) (x : assignment) : Prop :=
  forall i, In i (violation_vars m k) -> x i == 0.
(** Every row of the group is a constraint of the problem. *)
Definition all_present (p : problem) (g : list crow) : Prop :=
  forall r, In r g -> exists c, In c (p_cons p) /\ pc_id c = cr_id r.

(** The call [o] met the market [m'] and was accepted; later calls touched what it set
    only to make it elastic. *)
Definition softens (o : op) (post : list op) : Prop :=
  forall k o', In k (touches o) -> In o' post -> In k (touches o') -> exists v, o' = OpElastic k v.
Definition held_at (c : config) (o : op) (m' m : market) : Prop :=
  exists m0 pre post, new_market c = Ok m0 /\ sane (pre ++ o :: post) m0
    /\ m' = run pre m0 /\ snd (step o m') = None /\ softens o post /\ m = run (pre ++ o :: post) m0.
Definition held (c : config) (o : op) (m : market) : Prop := exists m', held_at c o m' m.
(** Nothing the call set is violated. *)
Definition unviolated (o : op) (m : market) (x : assignment) : Prop := forall k, In k (touches o) -> no_violation m k x.
