(** Model of spot_market_backend/market_constraints.py.  Definitions only. *)

From Coq Require Import QArith String List Bool.
Import ListNotations.
From Verif Require Import PandasModel TablesModel.
Open Scope string_scope.
Open Scope list_scope.

(** [energy]: one equality per demand row, over the energy variables of the
    region.  /repo/src/nempy/spot_market_backend/market_constraints.py:84-94. *)
Definition energy_rhs (demand : list demand_row) (next : nat) : list crow :=
  map (fun p => let '(i, d) := p in CRow i "=" (de_demand d) (KRegion (de_region d)))
      (save_index next demand).

(** As above.  /repo/src/nempy/spot_market_backend/market_constraints.py:84-94. *)
Definition energy_map (demand : list demand_row) (next : nat) : list rcrow :=
  map (fun p => let '(i, d) := p in RC i (de_region d) "energy" 1)
      (save_index next demand).

(** [fcas]: one constraint per set, taken from the first row of the set.
    /repo/src/nempy/spot_market_backend/market_constraints.py:176-181. *)
Definition fcas_ids (req : list fcas_req_row) (next : nat) : list (nat * fcas_req_row) :=
  save_index next (drop_duplicates (fun a b => String.eqb (fq_set a) (fq_set b)) req).

(** As above.  /repo/src/nempy/spot_market_backend/market_constraints.py:176-181. *)
Definition fcas_rhs (req : list fcas_req_row) (next : nat) : list crow :=
  map (fun p => let '(i, r) := p in CRow i (fq_type r) (fq_volume r) (KSet (fq_set r)))
      (fcas_ids req next).

(** Every row maps its set's constraint to its region and service.
    /repo/src/nempy/spot_market_backend/market_constraints.py:184-187. *)
Definition fcas_map (req : list fcas_req_row) (next : nat) : list rcrow :=
  map (fun p => let '(r, (i, _)) := p in RC i (fq_region r) (fq_service r) 1)
      (merge (fun r (p : nat * fcas_req_row) => String.eqb (fq_set r) (fq_set (snd p)))
             req (fcas_ids req next)).
