(** The rules that the calls of a history lay down for dispatch. *)

From Coq Require Import QArith Qabs Qminmax String List Bool Arith ZArith.
Import ListNotations.
From Verif Require Import PandasModel TablesModel MarketModel SolverModel SpecLp SpecHistory SpecDispatch SpecRamp
  SpecFastStart SpecElastic SpecNetwork.
Open Scope string_scope.
Open Scope list_scope.

(** The tables given by the calls of a history. *)
Definition directions (ops : list op) : list inter_row :=
  flat_map (fun o => match o with OpInterconnectors l => l | _ => [] end) ops.
Definition unit_links (ops : list op) : list gunit_row :=
  flat_map (fun o => match o with OpLinkUnits l => l | _ => [] end) ops.
Definition region_links (ops : list op) : list gregion_row :=
  flat_map (fun o => match o with OpLinkRegions l => l | _ => [] end) ops.
Definition inter_links (ops : list op) : list ginter_row :=
  flat_map (fun o => match o with OpLinkInters l => l | _ => [] end) ops.

Definition loss_functions (ops : list op) : list lossfn_row :=
  flat_map (fun o => match o with OpLosses lf _ => lf | _ => [] end) ops.

(** No table and no group is set twice. *)
Definition one_each (ops : list op) : Prop := NoDup (flat_map touches ops).

(** A limit for the energy of a side of a unit applies when the side is listed and
    offers energy; limits that tie services together when it offers one of them. *)
Definition listed_offer (m : market) (u d : string) (services : list string) : Prop :=
  registered (m_cfg m) u d /\ exists s, In s services /\ offers m u s d.

(** The ramp limits of a bidirectional unit apply to its net output, which passes through zero
    at the rates of its load side below and of its generator side above. *)
Definition net_limits (c : config) (m : market) (x : assignment) (s : option scada_table) (g ld : ramp_row) : Prop :=
  let h := c_interval c / 60 in let u := rr_unit g in
  exists top bottom up down,
    rises_to h (rr_init g) (rr_down ld) (rr_up g) top
    /\ falls_to h (rr_init g) (rr_up ld) (rr_down g) bottom
    /\ smaller_rate ((top - rr_init g) / h) (scada_up s u) up
    /\ smaller_rate ((rr_init g - bottom) / h) (scada_down s u) down
    /\ rr_init g - down * h <= net_energy m x u
    /\ net_energy m x u <= rr_init g + up * h.

(** The rows of the two sides of a bidirectional unit. *)
Definition two_rows (c : config) (t : ramp_table) (g ld : ramp_row) : Prop :=
  In g (map ri_row (rt_rows t)) /\ In ld (map ri_row (rt_rows t))
  /\ rr_unit ld = rr_unit g /\ rr_dt g = "generator" /\ rr_dt ld = "load" /\ two_sided c (rr_unit g).

(** The bid tables of a history offer a volume that counts. *)
Definition bids_for (ops : list op) (u s d : string) : Prop :=
  exists t r b, In (OpVolumeBids t) ops /\ In r (bt_rows t) /\ In b (bt_bands t)
    /\ br_unit r = u /\ br_service r = s /\ br_dt r = d /\ 1 # 10000 <= br_val r b.

(** What a call says about dispatch. *)
Definition obeys (ops : list op) (m : market) (x : assignment) (o : op) : Prop :=
  let energy u d := dispatch m x u "energy" d in
  let gu := unit_links ops in let gr := region_links ops in let gi := inter_links ops in
  match o with
  | OpVolumeBids t =>
    forall r b, In r (bt_rows t) -> In b (bt_bands t) ->
      0 <= band_dispatch m x (br_unit r) (br_service r) (br_dt r) b
      /\ band_dispatch m x (br_unit r) (br_service r) (br_dt r) b <= br_val r b
  | OpCapacity l _ =>
    forall r, In r l -> listed_offer m (li_unit r) (li_dt r) ["energy"] -> energy (li_unit r) (li_dt r) <= li_cap r
  | OpUigf l _ =>
    forall r, In r l -> listed_offer m (ug_unit r) "generator" ["energy"] -> energy (ug_unit r) "generator" <= ug_cap r
  | OpRamp t s _ _ _ =>
    (forall r, In r (map ri_row (rt_rows t)) -> ~ two_sided (m_cfg m) (rr_unit r) ->
       listed_offer m (rr_unit r) (rr_dt r) ["energy"] -> usual_limits (m_cfg m) m x s r)
    /\ (forall g ld, two_rows (m_cfg m) t g ld ->
       offers m (rr_unit g) "energy" "generator" \/ offers m (rr_unit g) "energy" "load" ->
       net_limits (m_cfg m) m x s g ld)
  | OpFastStart l _ =>
    forall f d, In f l -> listed_offer m (fs_unit f) d ["energy"] -> follows_profile f (energy (fs_unit f) d)
  | OpMaxAvail l _ =>
    forall r, In r l -> listed_offer m (ma_unit r) (ma_dt r) [ma_service r] ->
      dispatch m x (ma_unit r) (ma_service r) (ma_dt r) <= ma_max r
  | OpJointRamping l _ _ _ =>
    let h := c_interval (m_cfg m) in
    (forall r d, In r l -> ~ two_sided (m_cfg m) (rg_unit r) ->
      let u := rg_unit r in
      (listed_offer m u d ["raise_reg"] ->
       let rr := dispatch m x u "raise_reg" d in
       if String.eqb d "generator" then energy u d + rr <= rg_init r + rg_up r * h / 60
       else rg_init r - rg_up r * h / 60 <= energy u d - rr)
      /\ (listed_offer m u d ["lower_reg"] ->
       let lr := dispatch m x u "lower_reg" d in
       if String.eqb d "generator" then rg_init r - rg_down r * h / 60 <= energy u d - lr
       else energy u d + lr <= rg_init r + rg_down r * h / 60))
    /\ (forall r, In r l -> two_sided (m_cfg m) (rg_unit r) ->
      let u := rg_unit r in
      let total s := dispatch m x u s "generator" + dispatch m x u s "load" in
      (offers m u "raise_reg" "generator" \/ offers m u "raise_reg" "load" ->
       net_energy m x u + total "raise_reg" <= rg_init r + rg_up r * h / 60)
      /\ (offers m u "lower_reg" "generator" \/ offers m u "lower_reg" "load" ->
       rg_init r - rg_down r * h / 60 <= net_energy m x u - total "lower_reg"))
  | OpJointCapacity l _ =>
    forall t, In t l ->
      let u := tz_unit t in let d := tz_dt t in
      let up := if String.eqb d "generator" then "raise_reg" else "lower_reg" in
      let down := if String.eqb d "generator" then "lower_reg" else "raise_reg" in
      (listed_offer m u d ["energy"; tz_service t; up] ->
       energy u d + (tz_emax t - tz_hbp t) / tz_max t * dispatch m x u (tz_service t) d + dispatch m x u up d <= tz_emax t)
      /\ (listed_offer m u d ["energy"; tz_service t; down] ->
       tz_emin t <= energy u d - (tz_lbp t - tz_emin t) / tz_max t * dispatch m x u (tz_service t) d - dispatch m x u down d)
  | OpEnergyReg l _ =>
    forall t, In t l -> listed_offer m (tz_unit t) (tz_dt t) ["energy"; tz_service t] ->
      let e := energy (tz_unit t) (tz_dt t) in
      let q := dispatch m x (tz_unit t) (tz_service t) (tz_dt t) in
      e + (tz_emax t - tz_hbp t) / tz_max t * q <= tz_emax t /\ tz_emin t <= e - (tz_lbp t - tz_emin t) / tz_max t * q
  | OpDemand l _ =>
    forall d, In d l -> supplied m (directions ops) (de_region d) ->
      energy_balance m x (directions ops) (loss_functions ops) (de_region d) == de_demand d
  | OpFcasReq l _ =>
    forall pre b post, l = pre ++ b :: post -> (forall r, In r pre -> fq_set r <> fq_set b) ->
      (exists r, In r l /\ fq_set r = fq_set b /\ region_offers m (fq_region r) (fq_service r))
      \/ some_linked m gu gr gi (fq_set b) ->
      relation (fq_type b) (set_supply m x l (fq_set b) + linked m x gu gr gi (fq_set b)) (fq_volume b)
  | OpGeneric l _ =>
    forall g, In g l -> some_linked m gu gr gi (ge_set g) ->
      relation (ge_type g) (linked m x gu gr gi (ge_set g)) (ge_rhs g)
  | OpInterconnectors l =>
    let flow d := link_flow m x (in_inter d) (in_link d) in
    (forall d, In d l -> in_min d <= flow d /\ flow d <= in_max d)
    /\ (forall a b, In a l -> In b l -> in_inter a = in_inter b -> in_link a <> in_link b ->
          in_link a <> in_inter a -> in_link b <> in_inter b -> flow a == 0 \/ flow b == 0)
  | OpLosses lf bps =>
    forall d f, In d (directions ops) -> In f lf -> about_link d f = true ->
      let loss := link_loss m x (in_inter d) (in_link d) in
      Qabs loss <= Qmax (Qabs (in_min d)) (Qabs (in_max d))
      /\ exists a b, adjacent d bps a b
           /\ interpolates (bp_point a) (lf_fun f (bp_point a)) (bp_point b) (lf_fun f (bp_point b))
                (link_flow m x (in_inter d) (in_link d)) loss
  | _ => True
  end.

(** The calls in scope: hard constraints without losses and tie breaks; bidirectional
    units only where every call treats them as documented. *)
Definition in_scope (c : config) (ops : list op) (o : op) : Prop :=
  cost_arg o = None
  /\ match o with
     | OpLosses _ _ | OpRemoveFastStart => False
     | OpRamp t _ _ run_type _ =>
       run_type = "no_fast_start_units" /\ rt_has_up t = false /\ rt_has_down t = false
       /\ forall g ld, two_rows c t g ld -> 0 < c_interval c /\ rr_init g == rr_init ld
            /\ 0 <= rr_up g /\ 0 <= rr_down g /\ 0 <= rr_up ld /\ 0 <= rr_down ld
     | OpFastStart l _ =>
       forall f, In f l -> ~ two_sided c (fs_unit f)
         /\ (fs_end_mode f = 2%Z -> 0 < fs_mode_two_length f) /\ (fs_end_mode f = 4%Z -> 0 < fs_mode_four_length f)
     | OpJointRamping l _ run_type _ =>
       run_type = "no_fast_start_units"
       /\ forall r, In r l -> two_sided c (rg_unit r) -> forall s, In s ["raise_reg"; "lower_reg"] ->
            (bids_for ops (rg_unit r) s "generator" <-> bids_for ops (rg_unit r) s "load")
     | OpJointCapacity l _ => forall t, In t l -> 0 < tz_max t /\ ~ two_sided c (tz_unit t)
     | OpEnergyReg l _ => forall t, In t l -> 0 < tz_max t /\ (two_sided c (tz_unit t) -> tz_dt t = "generator")
     | OpDemand _ _ => forall d, In d (directions ops) -> in_from d <> in_to d
     | OpFcasReq l _ => forall r, In r l -> fq_service r <> "energy"
     | _ => True
     end.

(** The same with interconnector losses: every break point belongs to a link with a
    loss function, and such a link has two break points that rise along its segments. *)
Definition in_scope_losses (c : config) (ops : list op) (o : op) : Prop :=
  match o with
  | OpLosses lf bps =>
    (forall b, In b bps -> exists f, In f lf /\ lf_inter f = bp_inter b /\ lf_link f = bp_link b)
    /\ (forall d f, In d (directions ops) -> In f lf -> about_link d f = true ->
          rising d bps /\ exists a b, In a bps /\ In b bps /\ at_link d a = true /\ at_link d b = true /\ bp_seg a <> bp_seg b)
  | _ => in_scope c ops o
  end.
