(** The second half of [SpotMarket.dispatch]: the linear problem used for prices
    and the over-constrained re-run. *)

From Coq Require Import QArith Qabs String List Bool Arith.
Import ListNotations.
From Verif Require Import PandasModel TablesModel MarketModel SolverModel.
Open Scope string_scope.
Open Scope list_scope.

(** [linear_mip_model] gets the same variables, constraints and objective as
    [mip_model] but no special ordered sets.
    /repo/src/nempy/spot_market_backend/solver_interface.py:79-89, 117-138, 174-175,
    243-244. *)
Definition linear_problem (p : problem) : problem := Problem (p_vars p) (p_obj p) (p_cons p) [] [].

(** [disable_variables]: both bounds become zero.
    /repo/src/nempy/spot_market_backend/solver_interface.py:465-469. *)
Definition disable (ids : list nat) (p : problem) : problem :=
  Problem (map (fun v => if existsb (Nat.eqb (pv_id v)) ids then PVar (pv_id v) 0 (Some 0) else v) (p_vars p))
    (p_obj p) (p_cons p) (p_sos2 p) (p_sos1 p).

(** [_disable_unused_link_pair]: links that carry nothing, of interconnectors with
    more than one link.  /repo/src/nempy/markets.py:3152-3156. *)
Definition unused_links (x : nat -> Q) (vs : list intervar) : list nat :=
  map iv_id (filter (fun v => negb (String.eqb (iv_inter v) (iv_link v)) && Qeq_bool (x (iv_id v)) 0) vs).

(** [_remove_unused_interpolation_weights]: per link the weights in the order of
    the distance of their break points from the flow, without the first three.
    [sort] stands for [sort_values('distance')], which leaves the order of equal
    distances open.  /repo/src/nempy/markets.py:3158-3171. *)
Definition near := (Q * nat)%type.
(** As above.  /repo/src/nempy/markets.py:3158-3171. *)
Definition weight_rows (x : nat -> Q) (vs : list intervar) (ws : list weightvar) : list (string * string * near) :=
  map (fun p => let '(v, w) := p in
         (iv_inter v, iv_link v, (Qabs (x (iv_id v) - wv_point w), wv_id w)))
      (merge (fun v w => String.eqb (iv_inter v) (wv_inter w) && String.eqb (iv_link v) (wv_link w)) vs ws).
(** As above.  /repo/src/nempy/markets.py:3158-3171. *)
Definition unused_weights (sort : list near -> list near) (x : nat -> Q) (vs : list intervar)
  (ws : list weightvar) : list nat :=
  let rows := weight_rows x vs ws in
  flat_map (fun k => map snd (skipn 3 (sort (map snd
      (filter (fun r => String.eqb (fst (fst r)) (fst k) && String.eqb (snd (fst r)) (snd k)) rows)))))
    (keys_of (fun a b => String.eqb (fst a) (fst b) && String.eqb (snd a) (snd b)) (map fst rows)).

(** [_get_linear_model], called if the market has loss variables, for the dispatch
    values [x].  /repo/src/nempy/markets.py:3072-3076, 3147-3150. *)
Definition pricing_problem (sort : list near -> list near) (m : market) (x : nat -> Q) (p : problem) : problem :=
  match m_loss m with
  | None => linear_problem p
  | Some _ =>
    disable (unused_links x (rows_or_nil (m_inter m)))
      (disable (unused_weights sort x (rows_or_nil (m_inter m)) (rows_or_nil (m_weights m))) (linear_problem p))
  end.

(** ** Over-constrained re-run *)

(** Some price of a market constraint group is at a limit.  [prices] are the shadow
    prices by constraint id, which the solver reports.
    /repo/src/nempy/markets.py:3090-3104. *)
Definition some_price (k : string) (at_limit : Q -> bool) (prices : nat -> Q) (m : market) : bool :=
  match dget k (m_mrhs m) with
  | Some rows => existsb (fun r => at_limit (prices (cr_id r))) rows
  | None => false
  end.
(** As above.  /repo/src/nempy/markets.py:3090-3104. *)
Definition price_limit_hit (energy_ceiling energy_floor fcas_ceiling : Q) (prices : nat -> Q) (m : market) : bool :=
  some_price "fcas" (fun q => Qle_bool fcas_ceiling q) prices m
  || some_price "demand" (fun q => Qle_bool energy_ceiling q) prices m
  || some_price "demand" (fun q => Qle_bool q energy_floor) prices m.

(** The groups with a violation above 0.0001.  /repo/src/nempy/markets.py:3106-3126. *)
Definition large (q : Q) : bool := negb (Qle_bool q (1 # 10000)) || negb (Qle_bool (-(1) # 10000) q).
(** As above.  /repo/src/nempy/markets.py:3106-3126. *)
Definition group_violated (m : market) (x : nat -> Q) (k : string) : bool :=
  match dget (deficit_key k) (m_deficits m) with
  | Some ds => existsb (fun d => large (x (df_id d))) ds
  | None => false
  end.
(** As above.  /repo/src/nempy/markets.py:3106-3126. *)
Definition violated_groups (m : market) (x : nat -> Q) : list string :=
  filter (group_violated m x) ["generic"; "fcas"].

(** [variables_and_cons]: constraint and adjuster of every violation variable of
    these groups that differs from zero.  /repo/src/nempy/markets.py:3130-3135. *)
Definition adjusters (m : market) (x : nat -> Q) : list (nat * Q) :=
  let gs := violated_groups m x in
  let variables := flat_map (fun k => rows_or_nil (dget (deficit_key k) (m_deficits m))) gs in
  let lhs := flat_map (fun k => rows_or_nil (dget (deficit_key k) (m_lhs m))) gs in
  map (fun p => let '(d, l) := p in (l_con l, (x (df_id d) + (1 # 100)) * l_coef l * -(1)))
    (merge (fun d l => Nat.eqb (df_id d) (l_var l))
       (filter (fun d => negb (Qeq_bool (x (df_id d)) 0)) variables) lhs).

(** [update_rhs] for each of them.  Constraints of which the right-hand side is a
    variable are never adjusted (they are not in these groups) and are left alone.
    /repo/src/nempy/markets.py:3136, /repo/src/nempy/spot_market_backend/solver_interface.py:456-458. *)
Definition adjust (adj : list (nat * Q)) (c : pcon) : pcon :=
  match pc_rhs c with
  | RNum q => PCon (pc_id c) (pc_type c) (pc_terms c)
                (RNum (q + qsum (map snd (filter (fun a => Nat.eqb (fst a) (pc_id c)) adj))))
  | RVar _ => c
  end.
(** As above.  /repo/src/nempy/markets.py:3136, /repo/src/nempy/spot_market_backend/solver_interface.py:456-458. *)
Definition relax (adj : list (nat * Q)) (p : problem) : problem :=
  Problem (p_vars p) (p_obj p) (map (adjust adj) (p_cons p)) (p_sos2 p) (p_sos1 p).

(** The problem of the re-run, if there is one.  /repo/src/nempy/markets.py:3090-3137. *)
Definition rerun_problem (energy_ceiling energy_floor fcas_ceiling : Q) (prices : nat -> Q) (m : market)
  (x : nat -> Q) (p : problem) : option problem :=
  if price_limit_hit energy_ceiling energy_floor fcas_ceiling prices m
     && negb (match violated_groups m x with [] => true | _ => false end)
  then Some (relax (adjusters m x) p)
  else None.
