(** How one API call is put together from changes of a few kinds; an induction
    principle over calls and histories. *)

From Coq Require Import QArith String List Bool Arith Lia ZArith.
Import ListNotations.
From Verif Require Import PandasModel TablesModel VariableIdsModel MarketConstraintsModel
  UnitConstraintsModel RampModel FcasModel InterModel ElasticModel MarketModel PandasFacts SpecHistory.
Open Scope string_scope.
Open Scope list_scope.

(** Unit level keys and regional keys. *)
Definition unit_keys : list string :=
  ["unit_bid_capacity"; "uigf_capacity"; "ramp_up"; "ramp_down"; "bidirectional_ramp_up";
   "bidirectional_ramp_down"; "fast_start"; "fcas_max_availability"; "joint_ramping_raise_reg";
   "joint_ramping_raise_reg_bdu"; "joint_ramping_lower_reg"; "joint_ramping_lower_reg_bdu";
   "joint_capacity"; "energy_and_regulation_capacity"].
Definition regional_keys : list string := ["demand"; "fcas"].

(** What the id columns of the tables of a group satisfy. *)
Definition ids_ok (mk_rhs : nat -> list crow) : Prop :=
  forall n, NoDup (map cr_id (mk_rhs n)) /\ (forall i, In i (map cr_id (mk_rhs n)) -> n <= i)%nat.
Definition unit_group_ok (mk_rhs : nat -> list crow) (mk_map : nat -> list ucrow) : Prop :=
  ids_ok mk_rhs /\ (forall n c, In c (mk_map n) -> In (uc_con c) (map cr_id (mk_rhs n))).
Definition regional_group_ok (mk_rhs : nat -> list crow) (mk_map : nat -> list rcrow) : Prop :=
  ids_ok mk_rhs /\ (forall n c, In c (mk_map n) -> In (rc_con c) (map cr_id (mk_rhs n))).

Lemma ids_ok_seq mk len : (forall n, map cr_id (mk n) = seq n len) -> ids_ok mk.
Proof.
  intros H n. rewrite H. split; [apply seq_NoDup|]. intros i Hi. apply in_seq in Hi. lia.
Qed.

Lemma create_ids l n d : map cr_id (create_constraints_rhs l n d) = seq n (length l).
Proof.
  unfold create_constraints_rhs. rewrite map_map, <- (save_index_fst n l).
  apply map_ext. intros [i u]; reflexivity.
Qed.

Lemma create_map_ids l n : map uc_con (create_constraints_map l n) = seq n (length l).
Proof.
  unfold create_constraints_map. rewrite map_map, <- (save_index_fst n l).
  apply map_ext. intros [i u]; reflexivity.
Qed.

Lemma create_ok l d : unit_group_ok (fun n => create_constraints_rhs l n d) (create_constraints_map l).
Proof.
  split.
  - apply (ids_ok_seq _ (length l)). intros; apply create_ids.
  - intros n c Hc. rewrite create_ids, <- create_map_ids. now apply in_map.
Qed.

Lemma capacity_ok l bdu : unit_group_ok (capacity_rhs l) (fun n => capacity_map l n bdu).
Proof.
  destruct (create_ok (capacity_limits l) "<=") as [H1 H2]. split; [exact H1|].
  intros n c Hc. apply in_map_iff in Hc. destruct Hc as [c0 [<- Hc]]. cbn. now apply (H2 n c0).
Qed.

Lemma uigf_ok l : unit_group_ok (uigf_rhs l) (uigf_map l).
Proof. apply create_ok. Qed.
Lemma ramp_up_ok l h : unit_group_ok (fun n => ramp_up_rhs l n h) (fun n => ramp_up_map l n h).
Proof. apply create_ok. Qed.
Lemma ramp_down_ok l h : unit_group_ok (fun n => ramp_down_rhs l n h) (fun n => ramp_down_map l n h).
Proof. apply create_ok. Qed.
Lemma max_avail_ok l : unit_group_ok (max_avail_rhs l) (max_avail_map l).
Proof. apply create_ok. Qed.

Lemma bdu_ramp_rhs_ids l up n h :
  map cr_id (bdu_ramp_rhs l up n h) = map fst (bdu_ids l n).
Proof. unfold bdu_ramp_rhs. rewrite map_map. apply map_ext. intros [i r]; reflexivity. Qed.

Lemma bdu_ok l up h : unit_group_ok (fun n => bdu_ramp_rhs l up n h) (bdu_ramp_map l).
Proof.
  split.
  - eapply ids_ok_seq. intros n. rewrite bdu_ramp_rhs_ids. apply save_index_fst.
  - intros n c Hc. rewrite bdu_ramp_rhs_ids. unfold bdu_ramp_map in Hc.
    apply in_app_or in Hc. destruct Hc as [Hc|Hc]; apply in_map_iff in Hc;
      destruct Hc as [p [<- Hp]]; cbn; apply in_merge_p in Hp; now apply in_map.
Qed.

Lemma blocks_ids bs n :
  map cr_id (blocks_rhs bs n) = seq n (list_sum (map (fun b => length (fst b)) bs)).
Proof.
  revert n. induction bs as [|[l d] t IH]; intros n; cbn [blocks_rhs map list_sum fold_right fst]; [reflexivity|].
  rewrite map_app, create_ids, IH. now rewrite seq_app.
Qed.

Lemma blocks_map_ids bs n :
  map uc_con (blocks_map bs n) = seq n (list_sum (map (fun b => length (fst b)) bs)).
Proof.
  revert n. induction bs as [|[l d] t IH]; intros n; cbn [blocks_map map list_sum fold_right fst]; [reflexivity|].
  rewrite map_app, create_map_ids, IH. now rewrite seq_app.
Qed.

Lemma fast_start_ok p : unit_group_ok (fast_start_rhs p) (fast_start_map p).
Proof.
  split.
  - eapply ids_ok_seq. intros n. apply blocks_ids.
  - intros n c Hc. unfold fast_start_rhs. rewrite blocks_ids, <- blocks_map_ids. now apply in_map.
Qed.

Lemma reg_rhs_ids s h l : map cr_id (reg_rhs s h l) = map fst l.
Proof. unfold reg_rhs. rewrite map_map. apply map_ext. intros [i r]; reflexivity. Qed.

Lemma reg_map_ids s l c : In c (reg_map s l) -> In (uc_con c) (map fst l).
Proof.
  unfold reg_map. intros H. apply in_app_or in H.
  destruct H as [H|H]; apply in_map_iff in H; destruct H as [[i r] [<- H]]; cbn;
    apply in_map_iff; exists (i, r); auto.
Qed.

Lemma NoDup_filter_map {A B} (f : A -> B) (p : A -> bool) l : NoDup (map f l) -> NoDup (map f (filter p l)).
Proof.
  induction l as [|a t IH]; cbn; intros H; [constructor|]. inversion H as [|? ? H1 H2]; subst.
  destruct (p a); cbn; auto. constructor; auto.
  intros Hi. apply H1. apply in_map_iff in Hi. destruct Hi as [b [E Hb]].
  apply filter_In in Hb. apply in_map_iff. exists b; tauto.
Qed.

Lemma joint_ramping_ok sg sl l h :
  unit_group_ok (joint_ramping_rhs sg sl l h) (joint_ramping_map sg sl l).
Proof.
  split.
  - intros n. unfold joint_ramping_rhs. rewrite map_app, !reg_rhs_ids. split.
    + assert (ND : NoDup (map fst (save_index n l))) by (rewrite save_index_fst; apply seq_NoDup).
      rewrite <- map_app.
      assert (NoDup (side "generator" (save_index n l) ++ side "load" (save_index n l))) as ND2.
      { unfold side. assert (D : NoDup (save_index n l)) by apply save_index_NoDup.
        induction (save_index n l) as [|p t IH]; cbn; [constructor|].
        inversion D; subst. inversion ND; subst.
        destruct (String.eqb (rl_dt (snd p)) "generator") eqn:E1.
        - apply String.eqb_eq in E1. rewrite E1. cbn. constructor; auto.
          rewrite in_app_iff, !filter_In. tauto.
        - destruct (String.eqb (rl_dt (snd p)) "load") eqn:E2; auto.
          apply NoDup_Add with (a := p) (l := filter (fun p0 => String.eqb (rl_dt (snd p0)) "generator") t
             ++ filter (fun p0 => String.eqb (rl_dt (snd p0)) "load") t).
          + apply Add_app.
          + split; auto. rewrite in_app_iff, !filter_In. tauto. }
      apply NoDup_map_in; auto.
      intros p q Hp Hq E. apply (save_index_inj n l); auto.
      * apply in_app_or in Hp. destruct Hp as [Hp|Hp]; apply filter_In in Hp; tauto.
      * apply in_app_or in Hq. destruct Hq as [Hq|Hq]; apply filter_In in Hq; tauto.
    + intros i Hi. rewrite <- map_app in Hi. apply in_map_iff in Hi. destruct Hi as [p [<- Hp]].
      apply in_app_or in Hp. destruct Hp as [Hp|Hp]; apply filter_In in Hp; destruct Hp as [Hp _];
        apply in_save_index in Hp; lia.
  - intros n c Hc. unfold joint_ramping_rhs. rewrite map_app, !reg_rhs_ids.
    unfold joint_ramping_map in Hc. apply in_or_app. apply in_app_or in Hc.
    destruct Hc as [Hc|Hc]; apply reg_map_ids in Hc; auto.
Qed.

Lemma reg_bdu_rhs_ids r l h n : map cr_id (reg_bdu_rhs r l h n) = map fst (reg_bdu_ids l n).
Proof. unfold reg_bdu_rhs. rewrite map_map. apply map_ext. intros [i x]; reflexivity. Qed.

Lemma reg_bdu_ok r l h : unit_group_ok (reg_bdu_rhs r l h) (reg_bdu_map r l).
Proof.
  split.
  - eapply ids_ok_seq. intros n. rewrite reg_bdu_rhs_ids. apply save_index_fst.
  - intros n c Hc. rewrite reg_bdu_rhs_ids. unfold reg_bdu_map in Hc.
    apply in_app_or in Hc. destruct Hc as [Hc|Hc]; apply in_map_iff in Hc;
      destruct Hc as [p [<- Hp]]; cbn; apply in_merge_p in Hp; now apply in_map.
Qed.

Lemma trap_rhs_ids l n : map cr_id (trap_rhs l n) = seq n (length l + length l).
Proof.
  unfold trap_rhs. rewrite map_app, !map_map, seq_app.
  rewrite <- (save_index_fst n l), <- (save_index_fst (n + length l) l). f_equal;
    apply map_ext; intros [i t]; reflexivity.
Qed.

Lemma in_trap_ids_up (l : list trap_row) n p : In p (save_index n l) -> In (fst p) (seq n (length l + length l)).
Proof. intros H. apply in_save_index in H. apply in_seq. lia. Qed.
Lemma in_trap_ids_lo (l : list trap_row) n p : In p (save_index (n + length l) l) -> In (fst p) (seq n (length l + length l)).
Proof. intros H. apply in_save_index in H. apply in_seq. lia. Qed.

Ltac in_maps H :=
  repeat (apply in_app_or in H; destruct H as [H|H]);
  apply in_map_iff in H; destruct H as [[? ?] [<- H]]; cbn [uc_con].

Lemma joint_capacity_ok l bdu : unit_group_ok (trap_rhs l) (joint_capacity_map l bdu).
Proof.
  split.
  - eapply ids_ok_seq. intros n. apply trap_rhs_ids.
  - intros n c Hc. rewrite trap_rhs_ids. unfold joint_capacity_map, jc_upper_map, jc_lower_map in Hc.
    in_maps Hc; try (apply filter_In in Hc; destruct Hc as [Hc _]);
      first [apply in_trap_ids_up in Hc; exact Hc | apply in_trap_ids_lo in Hc; exact Hc].
Qed.

Lemma energy_reg_ok l : unit_group_ok (trap_rhs l) (energy_reg_map l).
Proof.
  split.
  - eapply ids_ok_seq. intros n. apply trap_rhs_ids.
  - intros n c Hc. rewrite trap_rhs_ids. unfold energy_reg_map in Hc.
    in_maps Hc; first [apply in_trap_ids_up in Hc; exact Hc | apply in_trap_ids_lo in Hc; exact Hc].
Qed.

Lemma energy_rhs_ids l n : map cr_id (energy_rhs l n) = seq n (length l).
Proof.
  unfold energy_rhs. rewrite map_map, <- (save_index_fst n l). apply map_ext. intros [i u]; reflexivity.
Qed.

Lemma demand_ok l : regional_group_ok (energy_rhs l) (energy_map l).
Proof.
  split.
  - eapply ids_ok_seq. intros n. apply energy_rhs_ids.
  - intros n c Hc. rewrite energy_rhs_ids. apply in_map_iff in Hc. destruct Hc as [[i d] [<- Hc]].
    cbn. rewrite <- save_index_fst. change i with (fst (i, d)). now apply in_map.
Qed.

Lemma fcas_rhs_ids l n : map cr_id (fcas_rhs l n) = map fst (fcas_ids l n).
Proof. unfold fcas_rhs. rewrite map_map. apply map_ext. intros [i x]; reflexivity. Qed.

Lemma fcas_ok l : regional_group_ok (fcas_rhs l) (fcas_map l).
Proof.
  split.
  - eapply ids_ok_seq. intros n. rewrite fcas_rhs_ids. apply save_index_fst.
  - intros n c Hc. rewrite fcas_rhs_ids. apply in_map_iff in Hc. destruct Hc as [[r [i q]] [<- Hc]].
    cbn. apply in_merge in Hc. change i with (fst (i, q)). apply in_map. tauto.
Qed.

Lemma generic_rhs_ids l n : map cr_id (generic_rhs l n) = seq n (length l).
Proof.
  unfold generic_rhs. rewrite map_map, <- (save_index_fst n l). apply map_ext. intros [i u]; reflexivity.
Qed.

Lemma tie_rhs_ids l n : map cr_id (tie_rhs l n) = seq n (length l).
Proof.
  unfold tie_rhs. rewrite map_map, <- (save_index_fst n l). apply map_ext. intros [i u]; reflexivity.
Qed.

(** ** Induction over one call *)

Lemma andthen_fst (P : market -> Prop) r k :
  P (fst r) -> (forall m, P m -> P (fst (k m))) -> P (fst (andthen r k)).
Proof. destruct r as [m [e|]]; cbn; auto. Qed.

Lemma guard_fst (P : market -> Prop) o m k :
  P m -> (o = None -> P (fst (k m))) -> P (fst (guard o m k)).
Proof. destruct o; cbn; auto. Qed.

(** The state changes of set_generic_constraints and set_tie_break_constraints
    before they make the group elastic. *)
Definition put_generic (l : list generic_row) (m : market) : market :=
  match m_nc m with
  | Some n => set_m_nc (next_id (map cr_id (generic_rhs l n)))
                (set_m_rhs (dset "generic" (generic_rhs l n) (m_rhs m)) m)
  | None => set_m_rhs (dset "generic" [] (m_rhs m)) m
  end.
Definition put_tie (pairs : list (tie_row * tie_row)) (m : market) : market :=
  match m_nc m with
  | Some n =>
    set_m_nc (next_id (map cr_id (tie_rhs pairs n)))
      (set_m_rhs (dset "tie_break" (tie_rhs pairs n) (m_rhs m))
        (set_m_lhs (dset "tie_break" (tie_lhs pairs n) (m_lhs m)) m))
  | None =>
    set_m_rhs (dset "tie_break" [] (m_rhs m))
      (set_m_lhs (dset "tie_break" [] (m_lhs m)) m)
  end.

Section Preserve.
  Variable P : market -> Prop.
  Variable K : string -> Prop.
  Hypothesis H_vol : forall t m, K "bids" -> P m -> P (fst (set_volume_bids t m)).
  Hypothesis H_price : forall t m, K "prices" -> P m -> P (fst (set_price_bids t m)).
  Hypothesis H_unit : forall k mr mm m, In k unit_keys -> K k -> unit_group_ok mr mm -> P m ->
    P (fst (new_unit_group k mr mm m)).
  Hypothesis H_reg : forall k mr mm m, In k regional_keys -> K k -> regional_group_ok mr mm -> P m ->
    P (fst (new_regional_group k mr mm m)).
  Hypothesis H_elastic : forall k v m, K k -> P m -> P (fst (make_elastic k v m)).
  Hypothesis H_remove : forall m, K "fast_start" -> P m -> P (fst (remove_fast_start m)).
  Hypothesis H_inter : forall l m, K "interconnectors" -> P m -> P (fst (set_interconnectors l m)).
  Hypothesis H_gunit : forall l m, K "unit links" -> P m -> P (set_m_gen_unit l m).
  Hypothesis H_gregion : forall l m, K "region links" -> P m -> P (set_m_gen_region l m).
  Hypothesis H_ginter : forall l m, K "interconnector links" -> P m -> P (set_m_gen_inter l m).
  Hypothesis H_tie : forall pairs m, K "tie_break" -> pairs <> [] -> P m -> P (put_tie pairs m).

  (** The two calls whose arguments a theorem may have to restrict. *)
  Variable ok : op -> market -> Prop.
  Hypothesis H_losses : forall lf bps m, K "interpolation_weights" -> K "losses" -> ok (OpLosses lf bps) m ->
    P m -> P (fst (set_losses lf bps m)).
  Hypothesis H_generic : forall l v m, K "generic" -> ok (OpGeneric l v) m -> P m -> P (put_generic l m).

  Lemma elastic_if_present_preserves k v m : K k -> P m -> P (fst (elastic_if_present k v m)).
  Proof. unfold elastic_if_present. destruct (dhas k (m_c2v_unit m)); auto. Qed.

  Lemma maybe_elastic_preserves k v m : K k -> P m -> P (fst (maybe_elastic k v m)).
  Proof. destruct v; cbn; auto. Qed.

  Lemma new_unit_group_if_preserves {A} (l : list A) k mr mm m :
    In k unit_keys -> K k -> unit_group_ok mr mm -> P m -> P (fst (new_unit_group_if l k mr mm m)).
  Proof. destruct l; cbn; auto. Qed.

  Lemma step_preserves_all o m :
    (forall k, In k (touches o) -> K k) -> ok o m -> P m -> P (fst (step o m)).
  Proof.
    intros HK Hok HP.
    Local Ltac inK := match goal with H : forall k, In k _ -> _ k |- _ => apply H; cbn; auto 20 end.
    Local Ltac grp h lem := apply h; [cbn; auto 20 | inK | apply lem | auto].
    Local Ltac el h := apply h; [inK | auto].
    destruct o; cbn [step touches] in *.
    - el H_vol.
    - el H_price.
    - unfold set_capacity, need_bids. destruct (m_bids m); [|exact HP].
      apply guard_fst; auto. intros _.
      apply andthen_fst; [grp H_unit capacity_ok|].
      intros; el maybe_elastic_preserves.
    - unfold set_uigf, need_bids. destruct (m_bids m); [|exact HP].
      apply guard_fst; auto. intros _.
      apply andthen_fst; [grp H_unit uigf_ok|].
      intros; el maybe_elastic_preserves.
    - unfold set_ramp. repeat (apply guard_fst; [exact HP|intros _]).
      destruct (ramp_step _ _ _ _ _ _) as [l|e]; [|exact HP].
      apply andthen_fst; [grp H_unit ramp_up_ok|]. intros m1 HP1.
      apply andthen_fst; [grp H_unit ramp_down_ok|]. intros m2 HP2.
      apply andthen_fst.
      { destruct (bdu_ramp_step _ _ _ _); [exact HP2|].
        apply andthen_fst; [grp H_unit bdu_ok|]. intros.
        grp H_unit bdu_ok. }
      intros m3 HP3. destruct v; [|exact HP3].
      apply andthen_fst; [el H_elastic|]. intros.
      apply andthen_fst; [el H_elastic|]. intros.
      apply andthen_fst; [el elastic_if_present_preserves|]. intros.
      el elastic_if_present_preserves.
    - unfold set_fast_start. apply guard_fst; auto. intros _.
      destruct (fast_start_rhs _ 0); [exact HP|].
      apply andthen_fst; [grp H_unit fast_start_ok|].
      intros; el maybe_elastic_preserves.
    - el H_remove.
    - unfold set_demand. apply guard_fst; auto. intros _.
      apply andthen_fst; [grp H_reg demand_ok|].
      intros; el maybe_elastic_preserves.
    - unfold set_fcas_req. apply guard_fst; auto. intros _.
      apply andthen_fst; [grp H_reg fcas_ok|].
      intros; el maybe_elastic_preserves.
    - unfold set_max_avail. apply guard_fst; auto. intros _.
      apply andthen_fst; [grp H_unit max_avail_ok|].
      intros; el maybe_elastic_preserves.
    - unfold set_joint_ramping. repeat (apply guard_fst; [exact HP|intros _]).
      destruct (m_bids m) as [vs|]; [|exact HP].
      destruct (fast_start_adjust _ _ _ _) as [rates|e]; [|exact HP].
      apply andthen_fst; [grp @new_unit_group_if_preserves joint_ramping_ok|].
      intros m1 HP1.
      apply andthen_fst; [grp @new_unit_group_if_preserves reg_bdu_ok|].
      intros m2 HP2.
      apply andthen_fst; [grp @new_unit_group_if_preserves joint_ramping_ok|].
      intros m3 HP3.
      apply andthen_fst; [grp @new_unit_group_if_preserves reg_bdu_ok|].
      intros m4 HP4. destruct v; [|exact HP4].
      apply andthen_fst; [el H_elastic|]. intros.
      apply andthen_fst; [el H_elastic|]. intros.
      apply andthen_fst; [el elastic_if_present_preserves|]. intros.
      el elastic_if_present_preserves.
    - unfold set_joint_capacity. apply guard_fst; auto. intros _.
      destruct l; [exact HP|].
      apply andthen_fst; [grp H_unit joint_capacity_ok|].
      intros; el maybe_elastic_preserves.
    - unfold set_energy_reg. apply guard_fst; auto. intros _.
      destruct l; [exact HP|].
      apply andthen_fst; [grp H_unit energy_reg_ok|].
      intros; el maybe_elastic_preserves.
    - el H_inter.
    - apply H_losses; [inK|inK|auto|auto].
    - unfold set_generic. apply guard_fst; auto. intros _.
      apply maybe_elastic_preserves; [inK|].
      change (P (put_generic l m)). apply (H_generic l v); [inK|auto|auto].
    - unfold link_units. apply guard_fst; auto. intros _. cbn [done fst]. el H_gunit.
    - unfold link_regions. apply guard_fst; auto. intros _. cbn [done fst]. el H_gregion.
    - unfold link_inters. apply guard_fst; auto. intros _. cbn [done fst]. el H_ginter.
    - el H_elastic.
    - unfold set_tie_break. destruct (m_obj_bids m); [|exact HP]. destruct (m_bids m); [|exact HP].
      destruct (tie_pairs _) as [|q qs] eqn:E; [exact HP|]. apply H_elastic; [inK|].
      change (P (put_tie (q :: qs) m)). apply H_tie; [inK|congruence|auto].
  Qed.
End Preserve.

(** The same for properties that the setters of tables keep. *)
Lemma step_preserves (P : market -> Prop) (K : string -> Prop) :
  (forall t m, P m -> P (fst (set_volume_bids t m))) ->
  (forall t m, P m -> P (fst (set_price_bids t m))) ->
  (forall k mr mm m, In k unit_keys -> K k -> unit_group_ok mr mm -> P m ->
    P (fst (new_unit_group k mr mm m))) ->
  (forall k mr mm m, In k regional_keys -> K k -> regional_group_ok mr mm -> P m ->
    P (fst (new_regional_group k mr mm m))) ->
  (forall k v m, K k -> P m -> P (fst (make_elastic k v m))) ->
  (forall m, K "fast_start" -> P m -> P (fst (remove_fast_start m))) ->
  (forall l m, P m -> P (fst (set_interconnectors l m))) ->
  (forall l m, P m -> P (set_m_gen_unit l m)) ->
  (forall l m, P m -> P (set_m_gen_region l m)) ->
  (forall l m, P m -> P (set_m_gen_inter l m)) ->
  (forall pairs m, K "tie_break" -> pairs <> [] -> P m -> P (put_tie pairs m)) ->
  forall ok : op -> market -> Prop,
  (forall lf bps m, K "interpolation_weights" -> ok (OpLosses lf bps) m ->
    P m -> P (fst (set_losses lf bps m))) ->
  (forall l v m, K "generic" -> ok (OpGeneric l v) m -> P m -> P (put_generic l m)) ->
  forall o m, (forall k, In k (touches o) -> K k) -> ok o m -> P m -> P (fst (step o m)).
Proof. intros. apply (step_preserves_all P K) with (ok := ok); auto. Qed.

(** ** Induction over a history *)

Lemma run_app ops1 ops2 m : run (ops1 ++ ops2) m = run ops2 (run ops1 m).
Proof. apply fold_left_app. Qed.

Lemma run_cons o ops m : run (o :: ops) m = run ops (fst (step o m)).
Proof. reflexivity. Qed.

Lemma run_preserves (P : market -> Prop) ops :
  (forall o m, In o ops -> P m -> P (fst (step o m))) ->
  forall m, P m -> P (run ops m).
Proof.
  induction ops as [|o t IH]; intros H m HP; [exact HP|].
  rewrite run_cons. apply IH; [intros; apply H; [now right|assumption]|]. apply H; [now left|assumption].
Qed.

Lemma run_preserves_along (P : market -> Prop) (C : op -> market -> Prop) ops :
  (forall o m, In o ops -> C o m -> P m -> P (fst (step o m))) ->
  forall m, along C ops m -> P m -> P (run ops m).
Proof.
  induction ops as [|o t IH]; intros H m HC HP; [exact HP|].
  destruct HC as [HC1 HC2]. rewrite run_cons.
  apply IH; [intros; apply H; auto; now right|exact HC2|]. apply H; auto. now left.
Qed.

Lemma along_app C ops1 ops2 m :
  along C (ops1 ++ ops2) m <-> along C ops1 m /\ along C ops2 (run ops1 m).
Proof.
  revert m. induction ops1 as [|o t IH]; intros m; cbn [app along].
  - cbn. tauto.
  - rewrite IH, run_cons. tauto.
Qed.

(** The configuration never changes. *)
Lemma step_cfg o m : m_cfg (fst (step o m)) = m_cfg m.
Proof.
  apply (step_preserves (fun m' => m_cfg m' = m_cfg m) (fun _ => True)) with (ok := fun _ _ => True); auto.
  - intros t m0 H. unfold set_volume_bids. repeat (apply guard_fst; [exact H|intros _]).
    destruct (next_id _); exact H.
  - intros t m0 H. unfold set_price_bids. destruct (m_bids m0); [|exact H].
    repeat (apply guard_fst; [exact H|intros _]). exact H.
  - intros k mr mm m0 _ _ _ H. unfold new_unit_group. destruct (m_nc m0).
    + destruct (next_id _); exact H.
    + destruct (mr 0%nat); exact H.
  - intros k mr mm m0 _ _ _ H. unfold new_regional_group. destruct (m_nc m0).
    + destruct (next_id _); exact H.
    + destruct (mr 0%nat); exact H.
  - intros k v m0 _ H. unfold make_elastic. destruct (group_rows k m0); [|exact H].
    assert (A : forall rows m1, m_cfg m1 = m_cfg m -> m_cfg (fst (add_deficits k rows m1)) = m_cfg m).
    { intros rows m1 H1. unfold add_deficits. destruct rows; [exact H1|]. destruct (next_id _); exact H1. }
    destruct v; auto.
    + apply guard_fst; [exact H|]. intros _. destruct (has_set_column k); auto.
    + destruct l; exact H.
  - intros m0 _ H. unfold remove_fast_start. cbn.
    destruct (dhas "fast_start" (m_rhs m0)); cbn;
      match goal with |- context[dhas "fast_start_deficit" ?d] => destruct (dhas "fast_start_deficit" d) end; exact H.
  - intros l m0 H. unfold set_interconnectors. apply guard_fst; [exact H|]. intros _.
    destruct (next_id _); exact H.
  - intros pairs m0 _ _ H. unfold put_tie. destruct (m_nc m0); exact H.
  - intros lf bps m0 _ _ H. unfold set_losses. apply guard_fst; [exact H|]. intros _.
    cbn -[loss_link_lhs next_id]. destruct (m_directions m0); [|exact H].
    destruct (m_inter m0); [|exact H]. destruct (m_reg_inter m0); [|exact H].
    destruct (next_id _); [|exact H]. destruct (next_id _); [|exact H].
    destruct (loss_link_lhs _ _ _); [exact H|]. destruct (next_id _); [|exact H].
    destruct (m_nc m0); exact H.
  - intros l v m0 _ _ H. unfold put_generic. destruct (m_nc m0); exact H.
Qed.

Lemma run_cfg ops m : m_cfg (run ops m) = m_cfg m.
Proof.
  apply (run_preserves (fun m' => m_cfg m' = m_cfg m)); auto.
  intros o m0 _ H. now rewrite step_cfg.
Qed.
