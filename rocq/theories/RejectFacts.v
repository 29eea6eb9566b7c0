(** Calls that end in an error of validation: what they have changed. *)

From Coq Require Import QArith ZArith String List Bool Lia.
Import ListNotations.
From Verif Require Import PandasModel TablesModel RampModel UnitConstraintsModel InterModel MarketModel FrameModel SpecFrame CallModel SpecCalls
  PandasFacts OffersFacts FrameFacts CallFacts RowFacts.
From Verif Require SolverModel SpecLp.
Open Scope string_scope.
Open Scope list_scope.

(** ** Parts of calls that raise no error of validation *)

Definition late (r : outcome) : Prop := forall m' e, r = (m', Some e) -> ~ validation_error e.

Ltac no_validation := let V := fresh in intros V; repeat (destruct V as [V|V]; [discriminate V|]); discriminate V.

Lemma late_done m : late (done m).
Proof. intros m' e H. discriminate H. Qed.
Lemma late_raise e m : ~ validation_error e -> late (raise e m).
Proof. intros N m' e' H. inversion H; subst. exact N. Qed.
Lemma late_andthen r k : late r -> (forall m, late (k m)) -> late (andthen r k).
Proof.
  intros L K m' e H. unfold andthen in H. destruct r as [m1 [e1|]].
  - inversion H; subst. exact (L m' e eq_refl).
  - exact (K m1 m' e H).
Qed.
Lemma late_unit k a b m : late (new_unit_group k a b m).
Proof.
  unfold new_unit_group. destruct (m_nc m).
  - destruct (next_id _); [apply late_done | apply late_raise; no_validation].
  - destruct (a 0%nat); [apply late_raise; no_validation | apply late_done].
Qed.
Lemma late_regional k a b m : late (new_regional_group k a b m).
Proof.
  unfold new_regional_group. destruct (m_nc m).
  - destruct (next_id _); [apply late_done | apply late_raise; no_validation].
  - destruct (a 0%nat); [apply late_raise; no_validation | apply late_done].
Qed.
Lemma late_unit_if {A} (l : list A) k a b m : late (new_unit_group_if l k a b m).
Proof. unfold new_unit_group_if. destruct l; [apply late_done | apply late_unit]. Qed.
Lemma late_deficits k rows m : late (add_deficits k rows m).
Proof.
  unfold add_deficits. destruct rows; [apply late_done|].
  destruct (next_id _); [apply late_done | apply late_raise; no_validation].
Qed.

Lemma fast_start_error l run p h e : RampModel.fast_start_adjust l run p h = Err e -> ~ validation_error e.
Proof.
  unfold RampModel.fast_start_adjust. intros H.
  repeat match type of H with
         | context [match ?x with _ => _ end] => destruct x; try discriminate H
         end; inversion H; subst; no_validation.
Qed.

(** ** Violation costs *)

Definition bad_cost (v : option vcost) : Prop :=
  match v with Some (VTable t) => check_vcost t <> None | _ => False end.

Lemma elastic_error k v m m' e :
  make_elastic k v m = (m', Some e) -> validation_error e -> m' = m /\ bad_cost (Some v).
Proof.
  intros H V. unfold make_elastic in H. destruct (group_rows k m) as [rows|].
  - destruct v as [q|t|].
    + destruct (late_deficits _ _ _ _ _ H V).
    + unfold guard in H. destruct (check_vcost t) eqn:E.
      * inversion H; subst. split; [reflexivity | unfold bad_cost; rewrite E; discriminate].
      * destruct (has_set_column k); [destruct (late_deficits _ _ _ _ _ H V)|].
        inversion H; subst. exfalso. revert V. no_validation.
    + destruct rows; [discriminate|]. inversion H; subst. exfalso. revert V. no_validation.
  - inversion H; subst. exfalso. revert V. no_validation.
Qed.
Lemma elastic_passed k v m m' : make_elastic k v m = (m', None) -> ~ bad_cost (Some v).
Proof.
  intros H B. unfold bad_cost in B. unfold make_elastic in H. destruct (group_rows k m); [|discriminate].
  destruct v; try contradiction. unfold guard in H. destruct (check_vcost t); [discriminate | contradiction].
Qed.
Lemma present_error k v m m' e :
  elastic_if_present k v m = (m', Some e) -> validation_error e -> m' = m /\ bad_cost (Some v).
Proof.
  unfold elastic_if_present. destruct (dhas k (m_c2v_unit m)); [apply elastic_error | intros H; discriminate H].
Qed.
Lemma maybe_error k v m m' e :
  maybe_elastic k v m = (m', Some e) -> validation_error e -> m' = m /\ bad_cost v.
Proof. destruct v; cbn; [apply elastic_error | intros H; discriminate H]. Qed.

Lemma andthen_error r k m' e :
  andthen r k = (m', Some e) -> late r -> validation_error e -> exists m1, r = (m1, None) /\ k m1 = (m', Some e).
Proof.
  intros H L V. destruct r as [m1 [e1|]]; cbn in H.
  - inversion H; subst. destruct (L m' e eq_refl V).
  - exists m1. split; [reflexivity | exact H].
Qed.

(** ** The calls *)

Definition op_cost (o : op) : option vcost :=
  match o with
  | OpCapacity _ v | OpUigf _ v | OpRamp _ _ _ _ v | OpFastStart _ v | OpDemand _ v | OpFcasReq _ v
  | OpMaxAvail _ v | OpJointRamping _ _ _ v | OpJointCapacity _ v | OpEnergyReg _ v | OpGeneric _ v => v
  | OpElastic _ v | OpTieBreak v => Some v
  | _ => None
  end.
Definition op_plain (o : op) : op :=
  match o with
  | OpCapacity l _ => OpCapacity l None
  | OpUigf l _ => OpUigf l None
  | OpRamp t s p r _ => OpRamp t s p r None
  | OpFastStart l _ => OpFastStart l None
  | OpDemand l _ => OpDemand l None
  | OpFcasReq l _ => OpFcasReq l None
  | OpMaxAvail l _ => OpMaxAvail l None
  | OpJointRamping l p r _ => OpJointRamping l p r None
  | OpJointCapacity l _ => OpJointCapacity l None
  | OpEnergyReg l _ => OpEnergyReg l None
  | OpGeneric l _ => OpGeneric l None
  | _ => o
  end.

Ltac at_guard H :=
  unfold guard at 1 in H;
  match type of H with
  | match ?c with Some _ => _ | None => _ end = _ =>
      let E := fresh "C" in destruct c eqn:E; [inversion H; subst; left; reflexivity|]
  end.

(** A tie break with a rejected cost saves its group. *)
Definition op_tie (o : op) : Prop := match o with OpTieBreak _ => True | _ => False end.

Lemma step_error o m m' e :
  step o m = (m', Some e) -> validation_error e ->
  m' = m \/ bad_cost (op_cost o) /\ (op_tie o \/ step (op_plain o) m = (m', None)).
Proof.
  intros H V. destruct o; cbn [step op_plain op_cost op_tie] in *.
  - unfold set_volume_bids in H. at_guard H. at_guard H.
    destruct (next_id _); inversion H; subst. exfalso. revert V. no_validation.
  - unfold set_price_bids in H. destruct (m_bids m); [|inversion H; subst; left; reflexivity].
    at_guard H. at_guard H. discriminate H.
  - unfold set_capacity, need_bids in *. destruct (m_bids m); [|inversion H; subst; left; reflexivity].
    at_guard H. unfold guard. destruct (andthen_error _ _ _ _ H (late_unit _ _ _ _) V) as [m1 [E1 E2]].
    destruct (maybe_error _ _ _ _ _ E2 V) as [-> B]. right. split; [exact B|]. right. rewrite E1. reflexivity.
  - unfold set_uigf, need_bids in *. destruct (m_bids m); [|inversion H; subst; left; reflexivity].
    at_guard H. unfold guard. destruct (andthen_error _ _ _ _ H (late_unit _ _ _ _) V) as [m1 [E1 E2]].
    destruct (maybe_error _ _ _ _ _ E2 V) as [-> B]. right. split; [exact B|]. right. rewrite E1. reflexivity.
  - unfold set_ramp in *. at_guard H. at_guard H. at_guard H. at_guard H. unfold guard. rewrite C0, C1, C2.
    destruct (ramp_step _ _ _ _ _ _) eqn:R.
    2: { inversion H; subst. destruct (fast_start_error _ _ _ _ _ R V). }
    cbv zeta in H |- *.
    destruct (andthen_error _ _ _ _ H (late_unit _ _ _ _) V) as [m1 [E1 H1]]. clear H. rewrite E1. cbn [andthen].
    destruct (andthen_error _ _ _ _ H1 (late_unit _ _ _ _) V) as [m2 [E2 H2]]. clear H1. rewrite E2. cbn [andthen].
    assert (L : late match bdu_ramp_step t (m_bdu m) s (c_interval (m_cfg m)) with
             | [] => done m2
             | _ :: _ =>
               andthen (new_unit_group "bidirectional_ramp_up"
                          (fun n => RampModel.bdu_ramp_rhs (bdu_ramp_step t (m_bdu m) s (c_interval (m_cfg m))) true n (c_interval (m_cfg m)))
                          (fun n => RampModel.bdu_ramp_map (bdu_ramp_step t (m_bdu m) s (c_interval (m_cfg m))) n) m2)
                 (fun m3 => new_unit_group "bidirectional_ramp_down"
                          (fun n => RampModel.bdu_ramp_rhs (bdu_ramp_step t (m_bdu m) s (c_interval (m_cfg m))) false n (c_interval (m_cfg m)))
                          (fun n => RampModel.bdu_ramp_map (bdu_ramp_step t (m_bdu m) s (c_interval (m_cfg m))) n) m3)
             end).
    { destruct (bdu_ramp_step _ _ _ _); [apply late_done|]. apply late_andthen; intros; apply late_unit. }
    destruct (andthen_error _ _ _ _ H2 L V) as [m3 [E3 H3]]. clear H2 L. rewrite E3. cbn [andthen].
    destruct v as [v|]; [|discriminate].
    assert (X : m' = m3 /\ bad_cost (Some v)).
    { destruct (make_elastic "ramp_up" v m3) as [m4 [e4|]] eqn:E4; cbn [andthen] in H3.
      - inversion H3; subst. exact (elastic_error _ _ _ _ _ E4 V).
      - pose proof (elastic_passed _ _ _ _ E4) as P. exfalso.
        destruct (make_elastic "ramp_down" v m4) as [m5 [e5|]] eqn:E5; cbn [andthen] in H3.
        + inversion H3; subst. apply P. apply (elastic_error _ _ _ _ _ E5 V).
        + destruct (elastic_if_present "bidirectional_ramp_up" v m5) as [m6 [e6|]] eqn:E6; cbn [andthen] in H3.
          * inversion H3; subst. apply P. apply (present_error _ _ _ _ _ E6 V).
          * apply P. apply (present_error _ _ _ _ _ H3 V). }
    destruct X as [-> B]. right. split; [exact B | right; reflexivity].
  - unfold set_fast_start in *. at_guard H. unfold guard. cbv zeta in *.
    destruct (fast_start_rhs _ 0) eqn:R; [discriminate|].
    destruct (andthen_error _ _ _ _ H (late_unit _ _ _ _) V) as [m1 [E1 E2]].
    destruct (maybe_error _ _ _ _ _ E2 V) as [-> B]. right. split; [exact B|]. right. rewrite E1. reflexivity.
  - discriminate H.
  - unfold set_demand in *. at_guard H. unfold guard.
    destruct (andthen_error _ _ _ _ H (late_regional _ _ _ _) V) as [m1 [E1 E2]].
    destruct (maybe_error _ _ _ _ _ E2 V) as [-> B]. right. split; [exact B|]. right. rewrite E1. reflexivity.
  - unfold set_fcas_req in *. at_guard H. unfold guard.
    destruct (andthen_error _ _ _ _ H (late_regional _ _ _ _) V) as [m1 [E1 E2]].
    destruct (maybe_error _ _ _ _ _ E2 V) as [-> B]. right. split; [exact B|]. right. rewrite E1. reflexivity.
  - unfold set_max_avail in *. at_guard H. unfold guard.
    destruct (andthen_error _ _ _ _ H (late_unit _ _ _ _) V) as [m1 [E1 E2]].
    destruct (maybe_error _ _ _ _ _ E2 V) as [-> B]. right. split; [exact B|]. right. rewrite E1. reflexivity.
  - unfold set_joint_ramping in *. at_guard H. at_guard H. unfold guard. rewrite C0.
    destruct (m_bids m); [|inversion H; subst; left; reflexivity]. cbv zeta in *.
    destruct (RampModel.fast_start_adjust _ _ _ _) eqn:R.
    2: { inversion H; subst. destruct (fast_start_error _ _ _ _ _ R V). }
    destruct (andthen_error _ _ _ _ H (late_unit_if _ _ _ _ _) V) as [m1 [E1 H1]]. clear H. rewrite E1. cbn [andthen].
    destruct (andthen_error _ _ _ _ H1 (late_unit_if _ _ _ _ _) V) as [m2 [E2 H2]]. clear H1. rewrite E2. cbn [andthen].
    destruct (andthen_error _ _ _ _ H2 (late_unit_if _ _ _ _ _) V) as [m3 [E3 H3]]. clear H2. rewrite E3. cbn [andthen].
    destruct (andthen_error _ _ _ _ H3 (late_unit_if _ _ _ _ _) V) as [m4 [E4 H4]]. clear H3. rewrite E4. cbn [andthen].
    destruct v as [v|]; [|discriminate].
    assert (X : m' = m4 /\ bad_cost (Some v)).
    { destruct (make_elastic "joint_ramping_raise_reg" v m4) as [m5 [e5|]] eqn:E5; cbn [andthen] in H4.
      - inversion H4; subst. exact (elastic_error _ _ _ _ _ E5 V).
      - pose proof (elastic_passed _ _ _ _ E5) as P. exfalso.
        destruct (make_elastic "joint_ramping_lower_reg" v m5) as [m6 [e6|]] eqn:E6; cbn [andthen] in H4.
        + inversion H4; subst. apply P. apply (elastic_error _ _ _ _ _ E6 V).
        + destruct (elastic_if_present "joint_ramping_raise_reg_bdu" v m6) as [m7 [e7|]] eqn:E7; cbn [andthen] in H4.
          * inversion H4; subst. apply P. apply (present_error _ _ _ _ _ E7 V).
          * apply P. apply (present_error _ _ _ _ _ H4 V). }
    destruct X as [-> B]. right. split; [exact B | right; reflexivity].
  - unfold set_joint_capacity in *. at_guard H. unfold guard. destruct l; [inversion H; subst; left; reflexivity|].
    destruct (andthen_error _ _ _ _ H (late_unit _ _ _ _) V) as [m1 [E1 E2]].
    destruct (maybe_error _ _ _ _ _ E2 V) as [-> B]. right. split; [exact B|]. right. rewrite E1. reflexivity.
  - unfold set_energy_reg in *. at_guard H. unfold guard. destruct l; [inversion H; subst; left; reflexivity|].
    destruct (andthen_error _ _ _ _ H (late_unit _ _ _ _) V) as [m1 [E1 E2]].
    destruct (maybe_error _ _ _ _ _ E2 V) as [-> B]. right. split; [exact B|]. right. rewrite E1. reflexivity.
  - unfold set_interconnectors in H. at_guard H. cbv zeta in H. destruct (next_id _); [discriminate|].
    inversion H; subst. exfalso. revert V. no_validation.
  - unfold set_losses in H. at_guard H. cbv zeta in H.
    repeat match type of H with
           | match ?x with _ => _ end = _ => destruct x; try discriminate H
           end; inversion H; subst; exfalso; revert V; no_validation.
  - unfold set_generic in *. at_guard H. unfold guard. cbv zeta in *.
    destruct (maybe_error _ _ _ _ _ H V) as [E B]. right. split; [exact B|]. right. rewrite E. reflexivity.
  - unfold link_units in H. at_guard H. discriminate H.
  - unfold link_regions in H. at_guard H. discriminate H.
  - unfold link_inters in H. at_guard H. discriminate H.
  - left. apply (elastic_error _ _ _ _ _ H V).
  - unfold set_tie_break in H.
    destruct (m_obj_bids m); [|inversion H; subst; left; reflexivity].
    destruct (m_bids m); [|inversion H; subst; left; reflexivity].
    destruct (UnitConstraintsModel.tie_pairs _); [inversion H; subst; left; reflexivity|].
    cbv zeta in H. destruct (elastic_error _ _ _ _ _ H V) as [_ B]. right. split; [exact B | left; exact I].
Qed.

(** ** Tables that fit give no error of validation *)

Definition op_checked (o : op) (m : market) : Prop :=
  match o with
  | OpVolumeBids t => check_bids true m t = None
  | OpPriceBids t => check_bids false m t = None
  | OpCapacity l _ => check_limits m l = None
  | OpUigf l _ => check_uigf m l = None
  | OpRamp t s p r _ =>
      check_ramp m t = None /\ check_fs_opt m r p = None
      /\ match s with Some s => check_scada m s | None => None end = None
  | OpFastStart l _ => check_fs m l = None
  | OpDemand l _ => check_demand m l = None
  | OpFcasReq l _ => check_fcas_req m l = None
  | OpMaxAvail l _ => check_max_avail m l = None
  | OpJointRamping l p r _ => check_reg_ramp m l = None /\ check_fs_opt m r p = None
  | OpJointCapacity l _ => check_traps allowed_contingency m l = None
  | OpEnergyReg l _ => check_traps allowed_regulation m l = None
  | OpInterconnectors l => check_inter m l = None
  | OpLosses lf bps => check_losses lf bps = None
  | OpGeneric l _ => check_generic l = None
  | OpLinkUnits l => check_gunit m l = None
  | OpLinkRegions l => check_gregion m l = None
  | OpLinkInters l => check_ginter l = None
  | OpRemoveFastStart | OpElastic _ _ | OpTieBreak _ => True
  end.

Lemma late_bdu m us k : (forall m', late (k m')) -> late (guard (check_bdu m us) m k).
Proof.
  intros K. unfold guard. destruct (check_bdu m us) eqn:E; [|apply K].
  apply late_raise. unfold check_bdu in E. cbn in E. destruct (Nat.eqb _ _); [discriminate|]. inversion E. no_validation.
Qed.
Lemma late_elastic k v m : ~ bad_cost (Some v) -> late (make_elastic k v m).
Proof. intros N m' e H V. apply N. apply (elastic_error _ _ _ _ _ H V). Qed.
Lemma late_maybe k v m : ~ bad_cost v -> late (maybe_elastic k v m).
Proof. intros N. destruct v; cbn; [apply late_elastic; exact N | apply late_done]. Qed.
Lemma late_present k v m : ~ bad_cost (Some v) -> late (elastic_if_present k v m).
Proof. intros N m' e H V. apply N. apply (present_error _ _ _ _ _ H V). Qed.

Ltac late_part :=
  repeat first
    [ apply late_done | apply late_unit | apply late_regional | apply late_unit_if | apply late_bdu; intros
    | (apply late_raise; no_validation)
    | (apply late_maybe; assumption) | (apply late_elastic; assumption) | (apply late_present; assumption)
    | (apply late_andthen; [|intros]) ].

Lemma step_late o m : op_checked o m -> ~ bad_cost (op_cost o) -> late (step o m).
Proof.
  intros C N. destruct o; cbn [step op_checked op_cost] in *.
  - unfold set_volume_bids. rewrite C. cbn [guard]. apply late_bdu. intros. cbv zeta. destruct (next_id _); late_part.
  - unfold set_price_bids. destruct (m_bids m); [|late_part]. rewrite C. cbn [guard]. late_part.
  - unfold set_capacity, need_bids. destruct (m_bids m); [|late_part]. rewrite C. cbn [guard]. late_part.
  - unfold set_uigf, need_bids. destruct (m_bids m); [|late_part]. rewrite C. cbn [guard]. late_part.
  - destruct C as [C1 [C2 C3]]. unfold set_ramp. rewrite C1. cbn [guard]. unfold guard at 1.
    destruct (check_bdu _ _) eqn:B.
    { intros m2 e2 H V. inversion H; subst. revert V. unfold check_bdu in B. cbn in B. destruct (Nat.eqb _ _); [discriminate|].
      inversion B. no_validation. }
    rewrite C2. cbn [guard]. rewrite C3. cbn [guard]. destruct (ramp_step _ _ _ _ _ _) eqn:R.
    2: { apply late_raise. exact (fast_start_error _ _ _ _ _ R). }
    cbv zeta. apply late_andthen; [late_part|intros]. apply late_andthen; [late_part|intros].
    apply late_andthen; [|intros].
    + destruct (bdu_ramp_step _ _ _ _); late_part.
    + destruct v; late_part.
  - unfold set_fast_start. rewrite C. cbn [guard]. cbv zeta. destruct (fast_start_rhs _ 0); late_part.
  - unfold remove_fast_start. cbv zeta. late_part.
  - unfold set_demand. rewrite C. cbn [guard]. late_part.
  - unfold set_fcas_req. rewrite C. cbn [guard]. late_part.
  - unfold set_max_avail. rewrite C. cbn [guard]. late_part.
  - destruct C as [C1 C2]. unfold set_joint_ramping. rewrite C1. cbn [guard]. rewrite C2. cbn [guard].
    destruct (m_bids m); [|late_part]. cbv zeta. destruct (fast_start_adjust _ _ _ _) eqn:R.
    2: { apply late_raise. exact (fast_start_error _ _ _ _ _ R). }
    apply late_andthen; [late_part|intros]. apply late_andthen; [late_part|intros].
    apply late_andthen; [late_part|intros]. apply late_andthen; [late_part|intros]. destruct v; late_part.
  - unfold set_joint_capacity. rewrite C. cbn [guard]. destruct l; late_part.
  - unfold set_energy_reg. rewrite C. cbn [guard]. destruct l; late_part.
  - unfold set_interconnectors. rewrite C. cbn [guard]. cbv zeta. destruct (next_id _); late_part.
  - unfold set_losses. rewrite C. cbn [guard]. cbv zeta.
    repeat match goal with |- late (match ?x with _ => _ end) => destruct x end; late_part.
  - unfold set_generic. rewrite C. cbn [guard]. cbv zeta. late_part.
  - unfold link_units. rewrite C. late_part.
  - unfold link_regions. rewrite C. late_part.
  - unfold link_inters. rewrite C. late_part.
  - late_part.
  - unfold set_tie_break. destruct (m_obj_bids m); [|late_part]. destruct (m_bids m); [|late_part].
    destruct (UnitConstraintsModel.tie_pairs _); late_part.
Qed.

Ltac take H := unfold given in H;
  repeat match type of H with
         | match ?o with Some _ => _ | None => None end = Some _ => let E := fresh "Q" in destruct o eqn:E; [|discriminate H]
         end;
  inversion H; subst; clear H.

Lemma profiles_checked r m p q :
  opt_table p -> read_profiles r p = Some q -> Forall table_fits (profile_table r m p) -> check_fs_opt m r q = None.
Proof.
  unfold read_profiles, profile_table, check_fs_opt. intros T H F.
  destruct (String.eqb r "no_fast_start_units") eqn:E.
  - inversion H; subst. reflexivity.
  - destruct p as [f|]; cbn [read_opt] in H.
    + take H. inversion F as [|? ? F1 _]; subst. exact (fs_ramp_rows m r f _ T F1 Q).
    + inversion H; subst. reflexivity.
Qed.

Lemma typed_checked req m c o :
  args_tables c -> Forall table_fits (tables req m c) -> typed c = Some o -> op_checked o m.
Proof.
  intros [_ A] F H. destruct c as [f|f|f v|f v|f s p r v|f v| |f v|f v|f v|f p r v|f v|f v|f|lf bps|f v|f|f|f|k v|v];
    cbn [typed tables] in *; take H; cbn [op_checked]; try exact I;
    try (inversion F as [|? ? F1 F2]; subst; cbv beta iota delta [table_fits] in F1).
  - exact (bids_rows m req true f _ A F1 Q).
  - exact (bids_rows m req false f _ A F1 Q).
  - exact (limits_rows m req f _ A F1 Q).
  - exact (uigf_rows m f _ A F1 Q).
  - destruct A as [Af [As Ap]]. apply Forall_app in F2. destruct F2 as [Fp Fs].
    split; [exact (ramp_rows m req f _ Af F1 Q)|]. split.
    + exact (profiles_checked r m p _ Ap Q1 Fp).
    + destruct s as [s|]; cbn [read_opt] in Q0.
      * take Q0. inversion Fs as [|? ? Fs1 _]; subst. exact (scada_rows m s _ As Fs1 Q3).
      * inversion Q0; subst. reflexivity.
  - exact (fs_rows m f _ A F1 Q).
  - exact (demand_rows m f _ A F1 Q).
  - exact (fcas_req_rows m f _ A F1 Q).
  - exact (max_avail_rows m f _ A F1 Q).
  - destruct A as [Af Ap]. split; [exact (reg_ramp_rows m f _ Af F1 Q)|].
    exact (profiles_checked r m p _ Ap Q0 F2).
  - exact (trap_rows m allowed_contingency f _ A F1 Q).
  - exact (trap_rows m allowed_regulation f _ A F1 Q).
  - exact (inter_rows m f _ A F1 Q).
  - destruct A as [Al Ab]. inversion F2 as [|? ? F3 _]; subst.
    exact (losses_rows lf bps _ _ Al Ab F1 F3 Q Q0).
  - exact (generic_rows f _ A F1 Q).
  - exact (gunit_rows m f _ A F1 Q).
  - exact (gregion_rows m f _ A F1 Q).
  - exact (ginter_rows f _ A F1 Q).
Qed.

Lemma read_cost_bad v w : cost_is_table (Some v) -> read_cost v = Some w -> bad_cost (Some w) -> ~ cost_fits (Some v).
Proof.
  intros T H B F. destruct v as [q|f|]; cbn [read_cost] in H; try (inversion H; subst; exact B).
  cbn [cost_fits cost_is_table] in *. pose proof (proj2 (validate_accepts _ _ f vcost_proper T) F) as V.
  fold vcost_schema in V. rewrite V in H. take H. exact (B (vcost_rows f _ T F Q)).
Qed.
Lemma opt_cost_bad v w : cost_is_table v -> read_opt read_cost v = Some w -> bad_cost w -> ~ cost_fits v.
Proof.
  intros T H B. destruct v as [v|]; cbn [read_opt] in H.
  - take H. exact (read_cost_bad v _ T Q B).
  - inversion H; subst. destruct B.
Qed.

Lemma typed_cost c o : args_tables c -> typed c = Some o -> bad_cost (op_cost o) -> ~ cost_fits (cost_of_call c).
Proof.
  intros [T _] H B. destruct c as [f|f|f v|f v|f s p r v|f v| |f v|f v|f v|f p r v|f v|f v|f|lf bps|f v|f|f|f|k v|v];
    cbn [typed cost_of_call] in *; take H; cbn [op_cost] in B; try (destruct B; fail);
    try (eapply opt_cost_bad; eassumption); try (eapply read_cost_bad; eassumption).
Qed.
Lemma typed_tie c o : typed c = Some o -> op_tie o -> exists v, c = FTieBreak v.
Proof.
  intros H T. destruct c as [f|f|f v|f v|f s p r v|f v| |f v|f v|f v|f p r v|f v|f v|f|lf bps|f v|f|f|f|k v|v];
    cbn [typed] in H; take H; try (destruct T; fail). exists v. reflexivity.
Qed.
Lemma typed_plain c o : has_plain_form c -> typed c = Some o -> typed (without_cost c) = Some (op_plain o).
Proof.
  intros P H. destruct c as [f|f|f v|f v|f s p r v|f v| |f v|f v|f v|f p r v|f v|f v|f|lf bps|f v|f|f|f|k v|v];
    try contradiction; cbn [typed without_cost] in *; take H; cbn [read_opt]; unfold given; reflexivity.
Qed.

(** ** Errors of the checks *)

Lemma validate_class s f e : validate s f = Some e -> validation_error e.
Proof.
  unfold validate, validation_error. destruct (forallb _ (names f)); cbn [or_else]; [|intros H; inversion H; tauto].
  destruct (forallb _ (sc_required s)); cbn [or_else]; [|intros H; inversion H; tauto].
  destruct (fold_right _ _ _) as [e'|] eqn:E; cbn [or_else].
  - intros H. inversion H; subst e'. clear H.
    induction (sc_columns s) as [|p l IH]; cbn in E; [discriminate|].
    destruct (col (fst p) f) as [c|]; [|apply IH; exact E].
    destruct (check_series (snd p) c) eqn:S; cbn [or_else] in E; [|apply IH; exact E].
    inversion E; subst. destruct (check_series_class _ _ _ S); tauto.
  - destruct (sc_keys s); [|discriminate]. destruct (repeated l f); [|discriminate]. intros H; inversion H; tauto.
Qed.

Lemma checks_class req m c e : both_sides m c -> checks req m c = Some e -> validation_error e.
Proof.
  intros B H. destruct c as [f|f|f v|f v|f s p r v|f v| |f v|f v|f v|f p r v|f v|f v|f|lf bps|f v|f|f|f|k v|v];
    cbn [checks both_sides] in *; try discriminate H; try exact (validate_class _ _ _ H).
  - destruct (validate (ramp_schema req m) f) eqn:E; cbn [or_else] in H; [inversion H; subst; exact (validate_class _ _ _ E)|].
    rewrite B in H. cbn [or_else] in H. unfold fs_ramp_check in H. destruct p as [p|].
    + destruct (String.eqb r "no_fast_start_units"); cbn [or_else] in H.
      * destruct s; [exact (validate_class _ _ _ H) | discriminate].
      * destruct (validate (fs_ramp_schema r m) p) eqn:E'; cbn [or_else] in H; [inversion H; subst; exact (validate_class _ _ _ E')|].
        destruct s; [exact (validate_class _ _ _ H) | discriminate].
    + cbn [or_else] in H. destruct s; [exact (validate_class _ _ _ H) | discriminate].
  - destruct (validate (reg_ramp_schema m) f) eqn:E; cbn [or_else] in H; [inversion H; subst; exact (validate_class _ _ _ E)|].
    unfold fs_ramp_check in H. destruct p as [p|]; [|discriminate].
    destruct (String.eqb r "no_fast_start_units"); [discriminate | exact (validate_class _ _ _ H)].
  - destruct (validate lossfn_schema lf) eqn:E; cbn [or_else] in H; [inversion H; subst; exact (validate_class _ _ _ E)|].
    exact (validate_class _ _ _ H).
Qed.

(** ** The calls on tables *)

Lemma call_error req c m m' e back :
  args_tables c -> call req c m = Some (m', Some e, back) -> validation_error e ->
  m' = m
  \/ ~ cost_fits (cost_of_call c)
     /\ ((exists v, c = FTieBreak v) \/ has_plain_form c /\ does (call req (without_cost c) m) = Some (m', None)).
Proof.
  intros A H V. unfold call in H. destruct (first_check c m) eqn:E1; [inversion H; subst; left; reflexivity|].
  destruct (before_check c) as [c1|] eqn:E2; [|inversion H; subst; left; reflexivity].
  destruct (checks req m c1) eqn:E3; [inversion H; subst; left; reflexivity|].
  unfold given in H. destruct (typed c1) as [o|] eqn:E4; [|discriminate].
  destruct (step o m) as [m1 [e1|]] eqn:E5; [|discriminate].
  assert (X : m1 = m' /\ validation_error e1).
  { destruct (cost_error (cost_of_call c1)) as [e'|].
    - destruct e1; inversion H; subst; split; try reflexivity; try exact V. unfold validation_error; tauto.
    - inversion H; subst. split; [reflexivity | exact V]. }
  destruct X as [-> V1]. destruct (step_error o m m' e1 E5 V1) as [->|[B S]]; [left; reflexivity|]. right.
  assert (C : cost_of_call c1 = cost_of_call c).
  { destruct c; cbn [before_check] in E2; try (inversion E2; subst; reflexivity);
      unfold given in E2; repeat (destruct (fill_link _); [|discriminate]); inversion E2; subst; reflexivity. }
  split.
  { rewrite <- C. exact (typed_cost c1 o (before_table _ _ A E2) E4 B). }
  destruct S as [S|S].
  - left. destruct (typed_tie _ _ E4 S) as [v ->]. exists v. destruct c; cbn [before_check] in E2; try (inversion E2; subst; reflexivity);
      unfold given in E2; repeat (destruct (fill_link _); [|discriminate]); discriminate.
  - right. assert (P : has_plain_form c).
    { destruct c; try exact I; cbn [before_check] in E2; inversion E2; subst; cbn [typed] in E4; take E4; cbn [step op_plain] in *; rewrite E5 in S; discriminate. }
    split; [exact P|].
    assert (P1 : has_plain_form c1).
    { destruct c; try contradiction; cbn [before_check] in E2; try (inversion E2; subst; exact I);
      unfold given in E2; repeat (destruct (fill_link _); [|discriminate]); inversion E2; subst; exact I. }
    assert (W1 : first_check (without_cost c) m = first_check c m) by (destruct c; reflexivity).
    assert (W2 : before_check (without_cost c) = Some (without_cost c1)).
    { destruct c; cbn [before_check without_cost] in *; try (inversion E2; subst; reflexivity);
      unfold given in *; repeat (destruct (fill_link _); [|discriminate]); inversion E2; subst; reflexivity. }
    assert (W3 : checks req m (without_cost c1) = checks req m c1) by (destruct c1; reflexivity).
    unfold call. rewrite W1, E1, W2, W3, E3, (typed_plain _ _ P1 E4). unfold given. rewrite S. reflexivity.
Qed.

Lemma call_rejected req c c1 m m' r back :
  args_tables c -> cost_fits (cost_of_call c) -> first_check c m = None -> before_check c = Some c1 -> both_sides m c1 ->
  call req c m = Some (m', r, back) ->
  ((exists e, r = Some e /\ validation_error e) <-> ~ Forall table_fits (tables req m c1)).
Proof.
  intros A F E1 E2 B H. unfold call in H. rewrite E1, E2 in H. pose proof (before_table _ _ A E2) as A1.
  pose proof (checks_fit req m c1 A1) as K. destruct (checks req m c1) eqn:E3.
  - inversion H; subst. split.
    + intros _ G. assert (X : Some e = None) by (apply K; split; assumption). discriminate X.
    + intros _. exists e. split; [reflexivity|]. exact (checks_class _ _ _ _ B E3).
  - pose proof (proj1 K eq_refl) as [G _]. unfold given in H. destruct (typed c1) as [o|] eqn:E4; [|discriminate].
    split; [|intros N; contradiction]. intros [e [-> V]]. exfalso.
    assert (C : cost_of_call c1 = cost_of_call c).
    { destruct c; cbn [before_check] in E2; try (inversion E2; subst; reflexivity);
      unfold given in E2; repeat (destruct (fill_link _); [|discriminate]); inversion E2; subst; reflexivity. }
    assert (N : ~ bad_cost (op_cost o)).
    { intros X. apply (typed_cost c1 o A1 E4 X). rewrite C. exact F. }
    assert (Z : cost_error (cost_of_call c1) = None).
    { rewrite C. unfold cost_error. destruct A as [T _]. destruct (cost_of_call c) as [[]|]; try reflexivity.
      exact (proj2 (validate_accepts _ _ _ vcost_proper T) F). }
    rewrite Z in H. pose proof (step_late o m (typed_checked req m c1 o A1 G E4) N) as L.
    destruct (step o m) as [m1 [e1|]]; [|discriminate]. inversion H; subst. exact (L m' e eq_refl V).
Qed.

(** ** The constructor *)

(** The table of unit information as it is checked. *)
Lemma construct_spec rs h f :
  is_table f -> let f' := fill_dt (fill "loss_factor" DFloat (CNum 1) f) in
  match construct rs h f with
  | Some (Ok (req, m, g)) =>
      fits ["unit"; "dispatch_type"] (unit_info_cols rs) f' /\ g = f' /\ req = mem_str "dispatch_type" (names f)
      /\ exists l, read_unit_info f' = Some l /\ m = empty_market (Config rs l h)
  | Some (Err e) => fault ["unit"; "dispatch_type"] (unit_info_cols rs) f' e
  | None => fits ["unit"; "dispatch_type"] (unit_info_cols rs) f' /\ read_unit_info f' = None
  end.
Proof.
  intros T f'. unfold construct. fold f'.
  assert (T' : is_table f') by (apply table_text; apply table_fill; [exact T | exact I]).
  destruct (validate (unit_info_schema rs) f') eqn:V.
  - exact (proj1 (validate_error _ _ f' e (unit_info_proper rs) T') V).
  - pose proof (proj1 (validate_accepts _ _ f' (unit_info_proper rs) T') V) as F. unfold given.
    destruct (read_unit_info f') as [l|] eqn:R; [|split; [exact F | reflexivity]].
    unfold new_market. rewrite (unit_info_rows rs h f' l T' F R).
    split; [exact F|]. split; [reflexivity|]. split; [reflexivity|]. exists l. split; reflexivity.
Qed.

(** After validation the rows can be read: every column is text or real numbers. *)
Lemma rows_of_some {A} (mk : nat -> option A) f : (forall i, (i < fm_rows f)%nat -> mk i <> None) -> rows_of mk f <> None.
Proof.
  intros H. unfold rows_of. assert (G : forall i, In i (seq 0 (fm_rows f)) -> mk i <> None).
  { intros i I. apply in_seq in I. apply H. lia. }
  induction (seq 0 (fm_rows f)) as [|a l IH]; cbn; [discriminate|].
  destruct (mk a) eqn:E; [|exfalso; exact (G a (or_introl eq_refl) E)].
  destruct (all_some (map mk l)) eqn:E'; [discriminate|]. exfalso. apply IH; [|reflexivity].
  intros i I. apply G. right. exact I.
Qed.

Lemma needed_cell keys cols f d i :
  is_table f -> fits keys cols f -> In (d, false) cols -> (i < fm_rows f)%nat ->
  exists c x, In c (fm_cols f) /\ cl_name c = se_name d /\ In x (cl_cells c) /\ cell_at (se_name d) f i = Some x
              /\ right_type d c /\ right_values d c /\ of_dtype (cl_dtype c) x.
Proof.
  intros T F I L. pose proof F as [_ [M [C _]]].
  assert (N : In (se_name d) (names f)) by (apply M; exists d; split; [exact I | reflexivity]).
  unfold names in N. apply in_map_iff in N. destruct N as [c [E Ic]].
  destruct T as [ND T]. destruct (T c Ic) as [Lc Tc].
  destruct (nth_error (cl_cells c) i) as [x|] eqn:X; [|apply nth_error_None in X; lia].
  exists c, x. pose proof (nth_error_In _ _ X) as Ix. destruct (C d false c I Ic E) as [C1 C2].
  split; [exact Ic|]. split; [exact E|]. split; [exact Ix|]. split.
  { unfold cell_at. rewrite <- E, (col_in f c ND Ic). exact X. }
  split; [exact C1|]. split; [exact C2|]. rewrite Forall_forall in Tc. exact (Tc x Ix).
Qed.
Lemma needed_str keys cols f d i :
  is_table f -> fits keys cols f -> In (d, false) cols -> se_type d = TStr -> (i < fm_rows f)%nat ->
  exists s, str_at (se_name d) f i = Some s.
Proof.
  intros T F I E L. destruct (needed_cell _ _ _ _ _ T F I L) as [c [x [_ [_ [Ix [H [Ty _]]]]]]].
  unfold right_type in Ty. rewrite E in Ty. destruct (Ty x Ix) as [s ->]. exists s. unfold str_at. rewrite H. reflexivity.
Qed.
Lemma needed_num keys cols f d i :
  is_table f -> fits keys cols f -> In (d, false) cols -> se_type d = TFloat -> se_real d = true -> (i < fm_rows f)%nat ->
  exists q, num_at (se_name d) f i = Some q.
Proof.
  intros T F I E R L. destruct (needed_cell _ _ _ _ _ T F I L) as [c [x [_ [_ [Ix [H [Ty [V D]]]]]]]].
  unfold right_type in Ty. rewrite E in Ty. rewrite Ty in D. destruct (V x Ix) as [_ [V2 _]].
  destruct (V2 R) as [N1 [N2 N3]]. unfold num_at. rewrite H. destruct x; try contradiction; eauto.
Qed.

Lemma unit_info_read rs f :
  is_table f -> fits ["unit"; "dispatch_type"] (unit_info_cols rs) f -> read_unit_info f <> None.
Proof.
  intros T F. apply rows_of_some. intros i L.
  destruct (needed_str _ _ _ (text "unit") i T F ltac:(column) eq_refl L) as [u Eu]; cbn [se_name text text_in dt_col real_pos] in Eu.
  destruct (needed_str _ _ _ (text_in "region" rs) i T F ltac:(column) eq_refl L) as [r Er]; cbn [se_name text text_in dt_col real_pos] in Er.
  destruct (needed_str _ _ _ dt_col i T F ltac:(column) eq_refl L) as [d Ed]; cbn [se_name text text_in dt_col real_pos] in Ed.
  destruct (needed_num _ _ _ (real_pos "loss_factor") i T F ltac:(column) eq_refl eq_refl L) as [q Eq']; cbn [se_name text text_in dt_col real_pos] in Eq'.
  change (se_name dt_col) with "dispatch_type" in Ed. unfold given. rewrite Eu, Er, Ed, Eq'. discriminate.
Qed.

Definition filled (f : frame) : frame := fill_dt (fill "loss_factor" DFloat (CNum 1) f).
Lemma filled_table f : is_table f -> is_table (filled f).
Proof. intros T. apply table_text. apply table_fill; [exact T | exact I]. Qed.
Lemma filled_again f : filled (filled f) = filled f.
Proof.
  unfold filled. rewrite (fill_there "loss_factor"); [unfold fill_dt, fill_text; apply fill_there; apply fill_has|].
  apply fill_in. right. apply fill_has.
Qed.

Lemma construct_again rs h f req m f' :
  is_table f -> construct rs h f = Some (Ok (req, m, f')) -> is_table f' /\ construct rs h f' = Some (Ok (true, m, f')).
Proof.
  intros T H. pose proof (construct_spec rs h f T) as S. cbv zeta in S. rewrite H in S.
  destruct S as [F [-> [-> [l [R ->]]]]]. fold (filled f) in *. pose proof (filled_table f T) as T'.
  split; [exact T'|]. pose proof (construct_spec rs h (filled f) T') as S. cbv zeta in S. fold (filled (filled f)) in S.
  rewrite filled_again in S. unfold construct. fold (filled (filled f)). rewrite filled_again.
  rewrite (proj2 (validate_accepts _ _ (filled f) (unit_info_proper rs) T') F : validate (unit_info_schema rs) (filled f) = None).
  unfold given. rewrite R. unfold new_market. rewrite (unit_info_rows rs h (filled f) l T' F R).
  replace (mem_str "dispatch_type" (names (filled f))) with true; [reflexivity|].
  symmetry. apply mem_str_in. apply fill_has.
Qed.

(** ** Deciding that a frame is a table *)

Definition of_dtypeb (t : dtype) (c : cell) : bool :=
  match t with
  | DFloat => match c with CNum _ | CPosInf | CNegInf | CNaN => true | _ => false end
  | DInt => match c with CInt _ => true | _ => false end
  | _ => true
  end.
Fixpoint nodup_str (l : list string) : bool :=
  match l with [] => true | a :: t => negb (mem_str a t) && nodup_str t end.
Definition tableb (f : frame) : bool :=
  nodup_str (names f)
  && forallb (fun c => Nat.eqb (length (cl_cells c)) (fm_rows f) && forallb (of_dtypeb (cl_dtype c)) (cl_cells c)) (fm_cols f).
Lemma nodup_str_ok l : nodup_str l = true -> NoDup l.
Proof.
  induction l as [|a l IH]; cbn; intros H; [constructor|]. apply andb_true_iff in H. destruct H as [H1 H2].
  constructor; [|exact (IH H2)]. intros I. apply mem_str_in in I. rewrite I in H1. discriminate.
Qed.
Lemma tableb_ok f : tableb f = true -> is_table f.
Proof.
  unfold tableb. rewrite andb_true_iff. intros [N H]. split; [exact (nodup_str_ok _ N)|]. intros c I.
  rewrite forallb_forall in H. specialize (H c I). apply andb_true_iff in H. destruct H as [H1 H2].
  split; [apply Nat.eqb_eq; exact H1|]. apply Forall_forall. intros x Ix. rewrite forallb_forall in H2.
  specialize (H2 x Ix). destruct (cl_dtype c), x; cbn in *; try exact I0; try discriminate; exact Logic.I.
Qed.

(** ** As the theorems state it *)

Lemma described_properly req m c :
  Forall (fun t : table => let '(keys, cols, _) := t in proper keys cols) (tables req m c)
  /\ proper ["unit"; "dispatch_type"] (unit_info_cols (regions m))
  /\ proper ["set"; "cost"] vcost_cols.
Proof.
  split; [|split; [apply unit_info_proper | exact vcost_proper]].
  assert (P : forall r p, Forall (fun t : table => let '(keys, cols, _) := t in proper keys cols) (profile_table r m p)).
  { intros r p. unfold profile_table. destruct p; [|constructor].
    destruct (String.eqb r "no_fast_start_units"); constructor; [apply fs_ramp_proper | constructor]. }
  destruct c as [f|f|f v|f v|f s p r v|f v| |f v|f v|f v|f p r v|f v|f v|f|lf bps|f v|f|f|f|k v|v]; cbn [tables];
    repeat (constructor; try first
      [ apply volume_proper | apply price_proper | apply limits_proper | apply uigf_proper | apply ramp_proper
      | apply fs_proper | apply demand_proper | apply fcas_req_proper | apply max_avail_proper | apply reg_ramp_proper
      | apply trap_proper | apply inter_proper | apply lossfn_proper | apply bp_proper | apply generic_proper
      | apply gunit_proper | apply gregion_proper | apply ginter_proper ]); try apply P.
  apply Forall_app. split; [apply P|]. destruct s; constructor; [apply scada_proper | constructor].
Qed.

Lemma constructor_exact rs interval f :
  is_table f ->
  ((exists req m f', construct rs interval f = Some (Ok (req, m, f')))
   <-> fits ["unit"; "dispatch_type"] (unit_info_cols rs)
         (fill "dispatch_type" DObject (CStr "generator") (fill "loss_factor" DFloat (CNum 1) f)))
  /\ forall e, construct rs interval f = Some (Err e)
     <-> fault ["unit"; "dispatch_type"] (unit_info_cols rs)
           (fill "dispatch_type" DObject (CStr "generator") (fill "loss_factor" DFloat (CNum 1) f)) e.
Proof.
  intros T. pose proof (construct_spec rs interval f T) as S. cbv zeta in S. unfold fill_dt, fill_text in S.
  set (g := fill "dispatch_type" DObject (CStr "generator") (fill "loss_factor" DFloat (CNum 1) f)) in *.
  assert (T' : is_table g) by exact (filled_table f T).
  pose proof (validate_accepts _ _ g (unit_info_proper rs) T') as VA.
  assert (VE : forall e, validate (make_schema ["unit"; "dispatch_type"] (unit_info_cols rs)) g = Some e
               <-> fault ["unit"; "dispatch_type"] (unit_info_cols rs) g e)
    by (intros e; exact (validate_error _ _ g e (unit_info_proper rs) T')).
  destruct (construct rs interval f) as [[[[req m] f']|e]|].
  - destruct S as [F _]. split.
    + split; [intros _; exact F | intros _; exists req, m, f'; reflexivity].
    + intros e. split; [discriminate|]. intros H. apply VE in H. apply VA in F. congruence.
  - split.
    + split; [intros [? [? [? H]]]; discriminate H|]. intros F. apply VA in F. apply VE in S. congruence.
    + intros e'. split; [intros H; inversion H; subst; exact S|]. intros H. apply VE in H. apply VE in S. congruence.
  - destruct S as [F R]. destruct (unit_info_read rs g T' F R).
Qed.

Lemma rejected_unchanged req c m m' e back :
  args_tables c -> cost_fits (cost_of_call c) ->
  call req c m = Some (m', Some e, back) -> validation_error e ->
  m' = m /\ SolverModel.assemble m' = SolverModel.assemble m.
Proof.
  intros A F H V. destruct (call_error req c m m' e back A H V) as [->|[N _]]; [split; reflexivity | contradiction].
Qed.
Lemma rejected_costs req c m m' e back :
  args_tables c -> has_plain_form c ->
  call req c m = Some (m', Some e, back) -> validation_error e ->
  m' = m \/ ~ cost_fits (cost_of_call c) /\ does (call req (without_cost c) m) = Some (m', None).
Proof.
  intros A P H V. destruct (call_error req c m m' e back A H V) as [->|[N [[v ->]|[_ S]]]]; [left; reflexivity | destruct P | right; split; assumption].
Qed.

(** ** Deciding that a row does not hold *)

Definition con_bad (x : SpecLp.assignment) (c : SolverModel.pcon) : bool :=
  let a := SpecLp.linear (SolverModel.pc_terms c) x in
  let b := SpecLp.rhs_value (SolverModel.pc_rhs c) x in
  (negb (String.eqb (SolverModel.pc_type c) "<=") || negb (Qle_bool a b))
  && (negb (String.eqb (SolverModel.pc_type c) ">=") || negb (Qle_bool b a))
  && (negb (String.eqb (SolverModel.pc_type c) "=") || negb (Qeq_bool a b)).
Lemma con_bad_ok x c : con_bad x c = true -> ~ SpecLp.con_holds x c.
Proof.
  unfold con_bad, SpecLp.con_holds, SpecLp.relation. rewrite !andb_true_iff, !orb_true_iff, !negb_true_iff, !String.eqb_neq.
  intros [[A B] C] [[E H]|[[E H]|[E H]]].
  - apply Qle_bool_iff in H. destruct A as [A|A]; congruence.
  - apply Qle_bool_iff in H. destruct B as [B|B]; congruence.
  - apply Qeq_bool_iff in H. destruct C as [C|C]; congruence.
Qed.
