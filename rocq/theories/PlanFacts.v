(** The constraint calls as plans: which groups are written, then which are made
    elastic. *)

From Coq Require Import QArith Lqa String List Bool Arith Lia ZArith.
Import ListNotations.
From Verif Require Import PandasModel TablesModel VariableIdsModel MarketConstraintsModel
  UnitConstraintsModel RampModel FcasModel InterModel ElasticModel MarketModel
  SpecHistory PandasFacts StepFacts InvariantFacts RenumberFacts ShiftFacts SpecReplace.
Open Scope string_scope.
Open Scope list_scope.

Inductive write : Type :=
| WUnit (k : string) (mr : nat -> list crow) (mm : nat -> list ucrow)
| WReg (k : string) (mr : nat -> list crow) (mm : nat -> list rcrow)
| WGeneric (l : list generic_row)
| WTie (pairs : list (tie_row * tie_row)).

Definition wkey (w : write) : string :=
  match w with WUnit k _ _ => k | WReg k _ _ => k | WGeneric _ => "generic" | WTie _ => "tie_break" end.

Definition do_write (w : write) (m : market) : outcome :=
  match w with
  | WUnit k mr mm => new_unit_group k mr mm m
  | WReg k mr mm => new_regional_group k mr mm m
  | WGeneric l => done (put_generic l m)
  | WTie ps => done (put_tie ps m)
  end.

Fixpoint do_writes (ws : list write) (m : market) : outcome :=
  match ws with [] => done m | w :: t => andthen (do_write w m) (do_writes t) end.

(** Make elastic, if the flag says so only when the group is there. *)
Record flex := Flex { fl_if : bool; fl_key : string; fl_cost : vcost }.
Definition do_flex (f : flex) (m : market) : outcome :=
  if fl_if f then elastic_if_present (fl_key f) (fl_cost f) m else make_elastic (fl_key f) (fl_cost f) m.
Fixpoint do_flexes (fs : list flex) (m : market) : outcome :=
  match fs with [] => done m | f :: t => andthen (do_flex f m) (do_flexes t) end.

Definition regular (w : write) : Prop :=
  match w with
  | WUnit k mr mm => In k unit_keys /\ unit_group_ok mr mm /\ moves mv_c mr /\ moves mv_uc mm
  | WReg k mr mm => In k regional_keys /\ regional_group_ok mr mm /\ moves mv_c mr /\ moves mv_rc mm
  | WGeneric l => l <> []
  | WTie ps => ps <> []
  end.

Lemma andthen_assoc r f g : andthen (andthen r f) g = andthen r (fun m => andthen (f m) g).
Proof. destruct r as [m [e|]]; reflexivity. Qed.
Lemma andthen_done m f : andthen (done m) f = f m.
Proof. reflexivity. Qed.
Lemma andthen_ret r : andthen r done = r.
Proof. destruct r as [m [e|]]; reflexivity. Qed.
Lemma andthen_ext r f g : (forall m, f m = g m) -> andthen r f = andthen r g.
Proof. intros H. destruct r as [m [e|]]; cbn; auto. Qed.

Lemma do_writes_app ws1 ws2 m : do_writes (ws1 ++ ws2) m = andthen (do_writes ws1 m) (do_writes ws2).
Proof.
  revert m. induction ws1 as [|w t IH]; intros m; cbn [do_writes app]; [reflexivity|].
  rewrite andthen_assoc. apply andthen_ext. auto.
Qed.

Definition flex_opt (k : string) (v : option vcost) : list flex :=
  match v with Some v => [Flex false k v] | None => [] end.
Lemma maybe_flex k v m : maybe_elastic k v m = do_flexes (flex_opt k v) m.
Proof. destruct v; cbn; [|reflexivity]. unfold do_flex. cbn. now rewrite andthen_ret. Qed.

(** A plan for the constraint calls; it reads only tables that these calls leave
    alone. *)
Definition w_if {A} (l : list A) (w : write) : list write := match l with [] => [] | _ => [w] end.
Definition ramp_flex (v : option vcost) : list flex :=
  match v with
  | Some v => [Flex false "ramp_up" v; Flex false "ramp_down" v; Flex true "bidirectional_ramp_up" v; Flex true "bidirectional_ramp_down" v]
  | None => []
  end.
Definition joint_flex (v : option vcost) : list flex :=
  match v with
  | Some v => [Flex false "joint_ramping_raise_reg" v; Flex false "joint_ramping_lower_reg" v;
               Flex true "joint_ramping_raise_reg_bdu" v; Flex true "joint_ramping_lower_reg_bdu" v]
  | None => []
  end.

Definition plan (o : op) (m : market) : option (list write * list flex) :=
  match o with
  | OpCapacity l v =>
    Some ([WUnit "unit_bid_capacity" (capacity_rhs l) (fun n => capacity_map l n (m_bdu m))], flex_opt "unit_bid_capacity" v)
  | OpUigf l v => Some ([WUnit "uigf_capacity" (uigf_rhs l) (uigf_map l)], flex_opt "uigf_capacity" v)
  | OpRamp t s p run_type v =>
    let h := c_interval (m_cfg m) in
    match ramp_step t (m_bdu m) s p run_type h with
    | Err _ => None
    | Ok l =>
      let b := bdu_ramp_step t (m_bdu m) s h in
      Some ([WUnit "ramp_up" (fun n => ramp_up_rhs l n h) (fun n => ramp_up_map l n h);
             WUnit "ramp_down" (fun n => ramp_down_rhs l n h) (fun n => ramp_down_map l n h)]
            ++ w_if b (WUnit "bidirectional_ramp_up" (fun n => bdu_ramp_rhs b true n h) (fun n => bdu_ramp_map b n))
            ++ w_if b (WUnit "bidirectional_ramp_down" (fun n => bdu_ramp_rhs b false n h) (fun n => bdu_ramp_map b n)),
            ramp_flex v)
    end
  | OpFastStart l v =>
    let p := fs_with_dt (c_ui (m_cfg m)) l in
    match fast_start_rhs p 0 with
    | [] => Some ([], [])
    | _ => Some ([WUnit "fast_start" (fast_start_rhs p) (fast_start_map p)], flex_opt "fast_start" v)
    end
  | OpDemand l v => Some ([WReg "demand" (energy_rhs l) (energy_map l)], flex_opt "demand" v)
  | OpFcasReq l v => Some ([WReg "fcas" (fcas_rhs l) (fcas_map l)], flex_opt "fcas" v)
  | OpMaxAvail l v => Some ([WUnit "fcas_max_availability" (max_avail_rhs l) (max_avail_map l)], flex_opt "fcas_max_availability" v)
  | OpJointRamping l p run_type v =>
    match m_bids m with
    | None => None
    | Some vs =>
      let h := c_interval (m_cfg m) in
      match fast_start_adjust (map (fun r => Ramp (rg_unit r) "" (rg_init r) (rg_up r) (rg_down r)) l) run_type p h with
      | Err _ => None
      | Ok rates =>
        let is_bdu r := mem_str (rl_unit r) (m_bdu m) in
        let raise_all := reg_limits vs "raise_reg" rr_up rates in
        let lower_all := reg_limits vs "lower_reg" rr_down rates in
        let ro := filter (fun r => negb (is_bdu r)) raise_all in
        let rb := filter is_bdu raise_all in
        let lo := filter (fun r => negb (is_bdu r)) lower_all in
        let lb := filter is_bdu lower_all in
        Some (w_if ro (WUnit "joint_ramping_raise_reg" (joint_ramping_rhs raise_gen raise_load ro h) (joint_ramping_map raise_gen raise_load ro))
              ++ w_if rb (WUnit "joint_ramping_raise_reg_bdu" (reg_bdu_rhs true rb h) (reg_bdu_map true rb))
              ++ w_if lo (WUnit "joint_ramping_lower_reg" (joint_ramping_rhs lower_gen lower_load lo h) (joint_ramping_map lower_gen lower_load lo))
              ++ w_if lb (WUnit "joint_ramping_lower_reg_bdu" (reg_bdu_rhs false lb h) (reg_bdu_map false lb)),
              joint_flex v)
      end
    end
  | OpJointCapacity l v => Some ([WUnit "joint_capacity" (trap_rhs l) (fun n => joint_capacity_map l (m_bdu m) n)], flex_opt "joint_capacity" v)
  | OpEnergyReg l v => Some ([WUnit "energy_and_regulation_capacity" (trap_rhs l) (energy_reg_map l)], flex_opt "energy_and_regulation_capacity" v)
  | OpGeneric l v => Some ([WGeneric l], flex_opt "generic" v)
  | OpTieBreak v =>
    match m_obj_bids m, m_bids m with
    | Some prices, Some vs => Some ([WTie (tie_pairs (tie_rows prices vs (c_ui (m_cfg m))))], [Flex false "tie_break" v])
    | _, _ => None
    end
  | _ => None
  end.

Definition planned (o : op) : Prop := same_method o o.

Lemma guard_none o m k : snd (guard o m k) = None -> o = None /\ snd (k m) = None.
Proof. destruct o; cbn; [discriminate|auto]. Qed.

(** What an accepted call does, and that it does the same on any other market with
    the same tables of bids and prices. *)
Definition same_inputs (m m' : market) : Prop :=
  m_cfg m = m_cfg m' /\ m_bids m = m_bids m' /\ m_obj_bids m = m_obj_bids m'.

Lemma w_if_group {A} (l : list A) k mr mm m :
  new_unit_group_if l k mr mm m = do_writes (w_if l (WUnit k mr mm)) m.
Proof. destruct l; cbn; [reflexivity|]. now rewrite andthen_ret. Qed.

Lemma plan_same o m m' : same_inputs m m' -> plan o m = plan o m'.
Proof. intros [E1 [E2 E3]]. unfold plan, m_bdu. now rewrite E1, E2, E3. Qed.


Ltac unf := unfold check_limits, check_uigf, check_ramp, check_scada, check_fs_opt, check_fs_ramp, check_fs, check_bdu, check_demand, check_fcas_req,
  check_max_avail, check_reg_ramp, check_traps, check_generic, is_unit, is_region, m_bdu in *; cbv zeta in *.

Ltac reg_unit lem := split; [cbn; auto 20|split; [apply lem|split]].

Lemma regular_if {A} (l : list A) w : regular w -> Forall regular (w_if l w).
Proof. intros H. destruct l; cbn; auto. Qed.

Lemma accepted_plan o m : planned o -> sane_op o m -> snd (step o m) = None ->
  exists ws fs, plan o m = Some (ws, fs) /\ Forall regular ws
    /\ (forall m', same_inputs m m' -> step o m' = andthen (do_writes ws m') (do_flexes fs)).
Proof.
  intros P S A. destruct o; try contradiction P; cbn [step sane_op plan] in *.
  - unfold set_capacity, need_bids in *. destruct (m_bids m) as [vs|] eqn:EB; [|discriminate A].
    apply guard_none in A. destruct A as [C A]. eexists [_], _. split; [reflexivity|]. split.
    + apply Forall_cons; [|constructor]. reg_unit capacity_ok; [apply create_rhs_moves|apply capacity_map_moves].
    + intros m' [E1 [E2 E3]]. unf. rewrite E1, <- ?E2, ?EB in *. rewrite C. cbn [guard do_writes do_write].
      rewrite andthen_assoc. apply andthen_ext. intros m1. rewrite andthen_done. apply maybe_flex.
  - unfold set_uigf, need_bids in *. destruct (m_bids m) as [vs|] eqn:EB; [|discriminate A].
    apply guard_none in A. destruct A as [C A]. eexists [_], _. split; [reflexivity|]. split.
    + apply Forall_cons; [|constructor]. reg_unit uigf_ok; [apply create_rhs_moves|apply create_map_moves].
    + intros m' [E1 [E2 E3]]. unf. rewrite E1, <- ?E2, ?EB in *. rewrite C. cbn [guard do_writes do_write].
      rewrite andthen_assoc. apply andthen_ext. intros m1. rewrite andthen_done. apply maybe_flex.
  - unfold set_ramp in *. apply guard_none in A. destruct A as [C1 A]. apply guard_none in A. destruct A as [C2 A].
    apply guard_none in A. destruct A as [C3 A]. apply guard_none in A. destruct A as [C4 A]. cbv zeta in *.
    destruct (ramp_step t (m_bdu m) s p run_type (c_interval (m_cfg m))) as [l|e] eqn:ER; [|discriminate A].
    eexists _, _. split; [reflexivity|]. split.
    + apply Forall_app. split; [|apply Forall_app; split].
      * apply Forall_cons; [|apply Forall_cons; [|constructor]].
        -- reg_unit ramp_up_ok; [apply create_rhs_moves|apply create_map_moves].
        -- reg_unit ramp_down_ok; [apply create_rhs_moves|apply create_map_moves].
      * apply regular_if. reg_unit bdu_ok; [apply bdu_rhs_moves|apply bdu_map_moves].
      * apply regular_if. reg_unit bdu_ok; [apply bdu_rhs_moves|apply bdu_map_moves].
    + intros m' [E1 [E2 E3]]. unf. rewrite E1 in *. rewrite C1; cbn [guard]; rewrite C2; cbn [guard]; rewrite C3; cbn [guard]; rewrite C4; cbn [guard]; rewrite ER.
      clear. cbn [app do_writes do_write]. rewrite andthen_assoc. apply andthen_ext; intros m1.
      rewrite andthen_assoc. apply andthen_ext; intros m2. rewrite do_writes_app, andthen_assoc.
      transitivity (andthen (match bdu_ramp_step t (bidirectional (c_ui (m_cfg m'))) s (c_interval (m_cfg m')) with [] => done m2
        | _ :: _ => andthen (new_unit_group "bidirectional_ramp_up" (fun n => bdu_ramp_rhs (bdu_ramp_step t (bidirectional (c_ui (m_cfg m'))) s (c_interval (m_cfg m'))) true n (c_interval (m_cfg m'))) (fun n => bdu_ramp_map (bdu_ramp_step t (bidirectional (c_ui (m_cfg m'))) s (c_interval (m_cfg m'))) n) m2)
           (fun m => new_unit_group "bidirectional_ramp_down" (fun n => bdu_ramp_rhs (bdu_ramp_step t (bidirectional (c_ui (m_cfg m'))) s (c_interval (m_cfg m'))) false n (c_interval (m_cfg m'))) (fun n => bdu_ramp_map (bdu_ramp_step t (bidirectional (c_ui (m_cfg m'))) s (c_interval (m_cfg m'))) n) m) end) (do_flexes (ramp_flex v))).
      * apply andthen_ext. intros m3. destruct v; cbn [ramp_flex do_flexes do_flex fl_if fl_key fl_cost]; [|reflexivity].
        apply andthen_ext; intros m5. apply andthen_ext; intros m6. apply andthen_ext; intros m7. now rewrite andthen_ret.
      * destruct (bdu_ramp_step _ _ _ _) as [|b0 bt]; cbn [w_if do_writes do_write]; [reflexivity|].
        rewrite !andthen_assoc. apply andthen_ext; intros m3. rewrite andthen_done, andthen_ret. reflexivity.
  - unfold set_fast_start in *. apply guard_none in A. destruct A as [C A]. cbv zeta in *.
    destruct (fast_start_rhs (fs_with_dt (c_ui (m_cfg m)) l) 0) as [|r0 rt] eqn:EF.
    + eexists [], []. split; [reflexivity|]. split; [constructor|]. intros m' [E1 [E2 E3]]. unf. rewrite E1 in *. rewrite C. cbn [guard]. now rewrite EF.
    + eexists [_], _. split; [reflexivity|]. split.
      * apply Forall_cons; [|constructor]. reg_unit fast_start_ok; [apply blocks_rhs_moves|apply blocks_map_moves].
      * intros m' [E1 [E2 E3]]. unf. rewrite E1 in *. rewrite C. cbn [guard]. rewrite EF. cbn [guard do_writes do_write].
        rewrite andthen_assoc. apply andthen_ext. intros m1. rewrite andthen_done. apply maybe_flex.
  - unfold set_demand in *. apply guard_none in A. destruct A as [C A]. eexists [_], _. split; [reflexivity|]. split.
    + apply Forall_cons; [|constructor]. reg_unit demand_ok; [apply energy_rhs_moves|apply energy_map_moves].
    + intros m' [E1 [E2 E3]]. unf. rewrite E1 in *. rewrite C. cbn [guard do_writes do_write].
      rewrite andthen_assoc. apply andthen_ext. intros m1. rewrite andthen_done. apply maybe_flex.
  - unfold set_fcas_req in *. apply guard_none in A. destruct A as [C A]. eexists [_], _. split; [reflexivity|]. split.
    + apply Forall_cons; [|constructor]. reg_unit fcas_ok; [apply fcas_rhs_moves|apply fcas_map_moves].
    + intros m' [E1 [E2 E3]]. unf. rewrite E1 in *. rewrite C. cbn [guard do_writes do_write].
      rewrite andthen_assoc. apply andthen_ext. intros m1. rewrite andthen_done. apply maybe_flex.
  - unfold set_max_avail in *. apply guard_none in A. destruct A as [C A]. eexists [_], _. split; [reflexivity|]. split.
    + apply Forall_cons; [|constructor]. reg_unit max_avail_ok; [apply create_rhs_moves|apply create_map_moves].
    + intros m' [E1 [E2 E3]]. unf. rewrite E1 in *. rewrite C. cbn [guard do_writes do_write].
      rewrite andthen_assoc. apply andthen_ext. intros m1. rewrite andthen_done. apply maybe_flex.
  - unfold set_joint_ramping in *. apply guard_none in A. destruct A as [C1 A]. apply guard_none in A. destruct A as [C2 A].
    destruct (m_bids m) as [vs|] eqn:EB; [|discriminate A]. cbv zeta in *.
    destruct (fast_start_adjust _ run_type p (c_interval (m_cfg m))) as [rates|e] eqn:ER; [|discriminate A].
    eexists _, _. split; [reflexivity|]. split.
    + repeat (apply Forall_app; split); apply regular_if;
        first [reg_unit joint_ramping_ok; [apply joint_rhs_moves|apply joint_map_moves] | reg_unit reg_bdu_ok; [apply reg_bdu_rhs_moves|apply reg_bdu_map_moves]].
    + intros m' [E1 [E2 E3]]. unf. rewrite E1, <- ?E2, ?EB in *. rewrite C1; cbn [guard]; rewrite C2; cbn [guard]; rewrite <- E2; rewrite ER. clear.
      rewrite !do_writes_app, !andthen_assoc. rewrite w_if_group. apply andthen_ext; intros m1.
      rewrite !do_writes_app, !andthen_assoc. rewrite w_if_group. apply andthen_ext; intros m2.
      rewrite !do_writes_app, !andthen_assoc. rewrite w_if_group. apply andthen_ext; intros m3.
      rewrite w_if_group. apply andthen_ext; intros m4.
      destruct v; cbn [joint_flex do_flexes do_flex fl_if fl_key fl_cost]; [|reflexivity].
      apply andthen_ext; intros m5. apply andthen_ext; intros m6. apply andthen_ext; intros m7. now rewrite andthen_ret.
  - unfold set_joint_capacity in *. apply guard_none in A. destruct A as [C A]. destruct l as [|t0 l]; [discriminate A|].
    eexists [_], _. split; [reflexivity|]. split.
    + apply Forall_cons; [|constructor]. reg_unit joint_capacity_ok; [apply trap_rhs_moves|apply joint_capacity_moves].
    + intros m' [E1 [E2 E3]]. unf. rewrite E1 in *. rewrite C. cbn [guard do_writes do_write].
      rewrite andthen_assoc. apply andthen_ext. intros m1. rewrite andthen_done. apply maybe_flex.
  - unfold set_energy_reg in *. apply guard_none in A. destruct A as [C A]. destruct l as [|t0 l]; [discriminate A|].
    eexists [_], _. split; [reflexivity|]. split.
    + apply Forall_cons; [|constructor]. reg_unit energy_reg_ok; [apply trap_rhs_moves|apply energy_reg_moves].
    + intros m' [E1 [E2 E3]]. unf. rewrite E1 in *. rewrite C. cbn [guard do_writes do_write].
      rewrite andthen_assoc. apply andthen_ext. intros m1. rewrite andthen_done. apply maybe_flex.
  - unfold set_generic in *. apply guard_none in A. destruct A as [C A]. eexists [_], _. split; [reflexivity|]. split.
    + apply Forall_cons; [exact S|constructor].
    + intros m' [E1 [E2 E3]]. rewrite C. cbn [guard do_writes do_write]. rewrite !andthen_done. apply maybe_flex.
  - unfold set_tie_break in *. destruct (m_obj_bids m) as [prices|] eqn:EO; [|discriminate A]. destruct (m_bids m) as [vs|] eqn:EB; [|discriminate A].
    destruct (tie_pairs _) as [|q qs] eqn:ET; [discriminate A|].
    eexists [_], _. split; [reflexivity|]. split.
    + apply Forall_cons; [cbn; congruence|constructor].
    + intros m' [E1 [E2 E3]]. rewrite <- E1, <- E2, <- E3, EO, EB, ET. cbn [do_writes do_write do_flexes do_flex fl_if fl_key fl_cost]. rewrite !andthen_done, andthen_ret. reflexivity.
Qed.
