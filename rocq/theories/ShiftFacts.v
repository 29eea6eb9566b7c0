(** The tables of a constraint group depend on the first free number only through
    a shift of the numbers. *)

From Coq Require Import QArith Lqa String List Bool Arith Lia ZArith Permutation.
Import ListNotations.
From Verif Require Import PandasModel TablesModel VariableIdsModel MarketConstraintsModel
  UnitConstraintsModel RampModel FcasModel InterModel ElasticModel MarketModel
  PandasFacts StepFacts RenumberFacts.
Open Scope string_scope.
Open Scope list_scope.

(** Numbers from [n] on are moved up by [d]. *)
Definition up (n d i : nat) : nat := if (i <? n)%nat then i else (d + i)%nat.

Lemma up_low n d i : (i < n)%nat -> up n d i = i.
Proof. intros H. unfold up. now rewrite (proj2 (Nat.ltb_lt i n) H). Qed.
Lemma up_high n d i : (n <= i)%nat -> up n d i = (d + i)%nat.
Proof. intros H. unfold up. now rewrite (proj2 (Nat.ltb_ge i n) H). Qed.
Lemma up_inj n d i j : up n d i = up n d j -> i = j.
Proof. unfold up. destruct (i <? n)%nat eqn:E1, (j <? n)%nat eqn:E2; rewrite ?Nat.ltb_lt, ?Nat.ltb_ge in *; lia. Qed.

(** Moving the ids of a table. *)
Definition mv_c (d : nat) (r : crow) : crow := ren_c (Nat.add d) r.
Definition mv_uc (d : nat) (r : ucrow) : ucrow := ren_uc (Nat.add d) r.
Definition mv_rc (d : nat) (r : rcrow) : rcrow := ren_rc (Nat.add d) r.
Definition mv {A} (d : nat) (p : nat * A) : nat * A := ((d + fst p)%nat, snd p).

Lemma save_mv {A} n d (l : list A) : save_index (n + d) l = map (mv d) (save_index n l).
Proof. apply save_index_shift. Qed.
Lemma save_mv3 {A} n d k (l : list A) : save_index (n + d + k) l = map (mv d) (save_index (n + k) l).
Proof. rewrite <- save_mv. f_equal. lia. Qed.

Lemma filter_mv {A} d (f : A -> bool) (l : list (nat * A)) :
  filter (fun p => f (snd p)) (map (mv d) l) = map (mv d) (filter (fun p => f (snd p)) l).
Proof. induction l as [|a t IH]; cbn; [reflexivity|]. destruct (f (snd a)); cbn; now rewrite IH. Qed.

Definition moves {A} (mvf : nat -> A -> A) (mk : nat -> list A) : Prop :=
  forall n d, mk (n + d)%nat = map (mvf d) (mk n).

Lemma create_rhs_moves l dir : moves mv_c (fun n => create_constraints_rhs l n dir).
Proof. intros n d. unfold create_constraints_rhs. rewrite save_mv, !map_map. apply map_ext. intros [i u]. reflexivity. Qed.
Lemma create_map_moves l : moves mv_uc (create_constraints_map l).
Proof. intros n d. unfold create_constraints_map. rewrite save_mv, !map_map. apply map_ext. intros [i u]. reflexivity. Qed.
Lemma capacity_map_moves l bdu : moves mv_uc (fun n => capacity_map l n bdu).
Proof. intros n d. unfold capacity_map. rewrite create_map_moves, !map_map. apply map_ext. intros u. reflexivity. Qed.

Lemma blocks_rhs_moves bs : moves mv_c (blocks_rhs bs).
Proof.
  induction bs as [|[l dir] t IH]; intros n d; cbn [blocks_rhs]; [reflexivity|]. rewrite map_app. f_equal; [apply create_rhs_moves|].
  rewrite <- IH. f_equal. lia.
Qed.
Lemma blocks_map_moves bs : moves mv_uc (blocks_map bs).
Proof.
  induction bs as [|[l dir] t IH]; intros n d; cbn [blocks_map]; [reflexivity|]. rewrite map_app. f_equal; [apply create_map_moves|].
  rewrite <- IH. f_equal. lia.
Qed.

Lemma bdu_rhs_moves l b h : moves mv_c (fun n => bdu_ramp_rhs l b n h).
Proof. intros n d. unfold bdu_ramp_rhs, bdu_ids. rewrite save_mv, !map_map. apply map_ext. intros [i u]. reflexivity. Qed.
Lemma bdu_map_moves l : moves mv_uc (bdu_ramp_map l).
Proof.
  intros n d. unfold bdu_ramp_map, bdu_ids. rewrite save_mv. rewrite merge_ren_r by reflexivity. rewrite map_app, !map_map. reflexivity.
Qed.

Lemma energy_rhs_moves l : moves mv_c (energy_rhs l).
Proof. intros n d. unfold energy_rhs. rewrite save_mv, !map_map. apply map_ext. intros [i u]. reflexivity. Qed.
Lemma energy_map_moves l : moves mv_rc (energy_map l).
Proof. intros n d. unfold energy_map. rewrite save_mv, !map_map. apply map_ext. intros [i u]. reflexivity. Qed.
Lemma fcas_rhs_moves l : moves mv_c (fcas_rhs l).
Proof. intros n d. unfold fcas_rhs, fcas_ids. rewrite save_mv, !map_map. apply map_ext. intros [i u]. reflexivity. Qed.
Lemma fcas_map_moves l : moves mv_rc (fcas_map l).
Proof.
  intros n d. unfold fcas_map, fcas_ids. rewrite save_mv. rewrite merge_ren_r by reflexivity. rewrite !map_map. apply map_ext.
  intros [r [i u]]. reflexivity.
Qed.
Lemma generic_moves l : moves mv_c (generic_rhs l).
Proof. intros n d. unfold generic_rhs. rewrite save_mv, !map_map. apply map_ext. intros [i u]. reflexivity. Qed.

Lemma reg_rhs_moves s h l d : reg_rhs s h (map (mv d) l) = map (mv_c d) (reg_rhs s h l).
Proof. unfold reg_rhs. rewrite !map_map. apply map_ext. intros [i u]. reflexivity. Qed.
Lemma reg_map_moves s l d : reg_map s (map (mv d) l) = map (mv_uc d) (reg_map s l).
Proof. unfold reg_map. rewrite map_app, !map_map. f_equal; apply map_ext; intros [i u]; reflexivity. Qed.
Lemma side_moves dt l d : side dt (map (mv d) l) = map (mv d) (side dt l).
Proof. unfold side. apply (filter_mv d (fun r => String.eqb (rl_dt r) dt)). Qed.
Lemma joint_rhs_moves sg sl l h : moves mv_c (joint_ramping_rhs sg sl l h).
Proof. intros n d. unfold joint_ramping_rhs. rewrite save_mv, !side_moves, !reg_rhs_moves, map_app. reflexivity. Qed.
Lemma joint_map_moves sg sl l : moves mv_uc (joint_ramping_map sg sl l).
Proof. intros n d. unfold joint_ramping_map. rewrite save_mv, !side_moves, !reg_map_moves, map_app. reflexivity. Qed.
Lemma reg_bdu_rhs_moves b l h : moves mv_c (reg_bdu_rhs b l h).
Proof. intros n d. unfold reg_bdu_rhs, reg_bdu_ids. rewrite save_mv, !map_map. apply map_ext. intros [i u]. reflexivity. Qed.
Lemma reg_bdu_map_moves b l : moves mv_uc (reg_bdu_map b l).
Proof.
  intros n d. unfold reg_bdu_map, reg_bdu_ids. rewrite save_mv. rewrite merge_ren by reflexivity. rewrite map_app, !map_map. reflexivity.
Qed.

Lemma trap_rhs_moves l : moves mv_c (trap_rhs l).
Proof.
  intros n d. unfold trap_rhs. rewrite save_mv3, save_mv, map_app, !map_map. f_equal; apply map_ext; intros [i u]; reflexivity.
Qed.
Lemma jc_upper_moves l bdu d : jc_upper_map (map (mv d) l) bdu = map (mv_uc d) (jc_upper_map l bdu).
Proof.
  unfold jc_upper_map. rewrite (filter_mv d (fun r => mem_str (tz_unit r) bdu)). rewrite !map_app, !map_map.
  repeat (f_equal; [apply map_ext; intros [i u]; reflexivity|]). apply map_ext; intros [i u]; reflexivity.
Qed.
Lemma jc_lower_moves l bdu d : jc_lower_map (map (mv d) l) bdu = map (mv_uc d) (jc_lower_map l bdu).
Proof.
  unfold jc_lower_map. rewrite (filter_mv d (fun r => mem_str (tz_unit r) bdu)). rewrite !map_app, !map_map.
  repeat (f_equal; [apply map_ext; intros [i u]; reflexivity|]). apply map_ext; intros [i u]; reflexivity.
Qed.
Lemma joint_capacity_moves l bdu : moves mv_uc (joint_capacity_map l bdu).
Proof. intros n d. unfold joint_capacity_map. rewrite save_mv3, save_mv, jc_upper_moves, jc_lower_moves, map_app. reflexivity. Qed.
Lemma energy_reg_moves l : moves mv_uc (energy_reg_map l).
Proof.
  intros n d. unfold energy_reg_map. rewrite save_mv3, save_mv, !map_app, !map_map.
  repeat (f_equal; [apply map_ext; intros [i u]; reflexivity|]). apply map_ext; intros [i u]; reflexivity.
Qed.

Lemma tie_rhs_moves l : moves mv_c (tie_rhs l).
Proof. intros n d. unfold tie_rhs. rewrite save_mv, !map_map. apply map_ext. intros [i u]. reflexivity. Qed.
Definition mv_l (d : nat) (r : lrow) : lrow := LRow (d + l_con r) (l_var r) (l_coef r).
Lemma tie_lhs_moves l : moves mv_l (tie_lhs l).
Proof. intros n d. unfold tie_lhs. rewrite save_mv, !map_app, !map_map. f_equal; apply map_ext; intros [i [a b]]; reflexivity. Qed.

(** From the first free number on, moving is renumbering. *)
(** Renumberings that move the numbers from [n] on up by [d]. *)
Lemma moves_c rho mk n d a : (forall i, (n <= i)%nat -> rho i = (d + i)%nat) -> ids_ok mk -> moves mv_c mk -> (n <= a)%nat ->
  mk (a + d)%nat = map (ren_c rho) (mk a).
Proof.
  intros R O M H. rewrite M. apply map_ext_in. intros r Hr. unfold mv_c, ren_c. rewrite R; [reflexivity|].
  destruct (O a) as [_ O']. specialize (O' (cr_id r) (in_map _ _ _ Hr)). lia.
Qed.
Lemma moves_uc rho mr mk n d a : (forall i, (n <= i)%nat -> rho i = (d + i)%nat) -> unit_group_ok mr mk -> moves mv_uc mk -> (n <= a)%nat ->
  mk (a + d)%nat = map (ren_uc rho) (mk a).
Proof.
  intros R [O O2] M H. rewrite M. apply map_ext_in. intros r Hr. unfold mv_uc, ren_uc. rewrite R; [reflexivity|].
  destruct (O a) as [_ O']. specialize (O' (uc_con r) (O2 a r Hr)). lia.
Qed.
Lemma moves_rc rho mr mk n d a : (forall i, (n <= i)%nat -> rho i = (d + i)%nat) -> regional_group_ok mr mk -> moves mv_rc mk -> (n <= a)%nat ->
  mk (a + d)%nat = map (ren_rc rho) (mk a).
Proof.
  intros R [O O2] M H. rewrite M. apply map_ext_in. intros r Hr. unfold mv_rc, ren_rc. rewrite R; [reflexivity|].
  destruct (O a) as [_ O']. specialize (O' (rc_con r) (O2 a r Hr)). lia.
Qed.

Lemma next_id_moves mk a d : moves mv_c mk -> next_id (map cr_id (mk (a + d)%nat)) = option_map (fun i => (i + d)%nat) (next_id (map cr_id (mk a))).
Proof.
  intros M. rewrite M, map_map. cbn [cr_id mv_c ren_c]. 
  assert (X : forall l, list_max (map (fun r => (d + cr_id r)%nat) l) = match l with [] => 0%nat | _ => (d + list_max (map cr_id l))%nat end).
  { induction l as [|r t IH]; [reflexivity|]. cbn [map list_max fold_right] in *. unfold list_max in *. rewrite IH. destruct t; cbn; lia. }
  destruct (mk a) as [|r t] eqn:E; [reflexivity|]. specialize (X (r :: t)). cbn [map next_id option_map] in *. unfold mv_c, ren_c in *. cbn [cr_id] in *. 
  f_equal. change (fun r0 : crow => (d + cr_id r0)%nat) with (fun r0 : crow => (d + cr_id r0)%nat) in *. rewrite X. lia.
Qed.
