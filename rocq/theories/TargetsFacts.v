(** Lemmas: which fast start profiles have targets that are numbers. *)

From Coq Require Import QArith Lqa String List Bool ZArith Lia.
Import ListNotations.
From Verif Require Import PandasModel TablesModel UnitConstraintsModel ReportsModel ModesModel TargetsModel SpecModes PandasFacts ModesFacts.
Open Scope string_scope.
Open Scope list_scope.

Lemma over_zero a b : b == 0 -> column_over a b = None.
Proof. intros E. unfold column_over. apply Qeq_bool_iff in E. now rewrite E. Qed.
Lemma over_some a b : 0 < b -> column_over a b = Some (a / b).
Proof. intros E. unfold column_over. destruct (Qeq_bool b 0) eqn:X; [|reflexivity]. apply Qeq_bool_iff in X. exfalso. lra. Qed.

Section Rows.
  Variables (ps : list profile) (rep : list (ukey * Q)) (f : fs_row).
  Hypothesis H_modes : forall p, In p ps -> in_modes p.
  Hypothesis H_row : In f (fs_table (update_modes ps rep)).

  Lemma row_of : exists r, In r (update_modes ps rep) /\ In (mo_profile r) ps
    /\ f = Fs (pf_unit (mo_profile r)) (mo_end_mode r) (mo_time r) (pf_len2 (mo_profile r)) (pf_len4 (mo_profile r)) (pf_min_loading (mo_profile r)).
  Proof.
    unfold fs_table in H_row. apply in_map_iff in H_row. destruct H_row as [r [E Hr]]. exists r. split; [exact Hr|]. split; [|now symmetry].
    destruct (row_origin _ _ _ Hr) as [q [Hq ->]]. apply in_with_dispatch in Hq. cbn [mo_profile mode_row_of]. rewrite profile_kept. apply Hq.
  Qed.

  Lemma end_modes : (0 <= fs_end_mode f <= 4)%Z.
  Proof.
    destruct row_of as [r [Hr [Hp ->]]]. destruct (row_facts _ _ _ Hr (H_modes _ Hp)) as [d [_ [_ [B _]]]]. cbn in B |- *.
    assert (0 <= start_mode (mo_profile r) d)%Z; [|lia]. unfold start_mode. pose proof (H_modes _ Hp) as [M _].
    destruct (Z.eqb _ _); [destruct (Qlt_le_dec 0 d); lia|lia].
  Qed.

  Lemma four_time : fs_end_mode f = 4%Z -> 0 <= fs_time_in_end_mode f <= fs_mode_four_length f.
  Proof.
    destruct row_of as [r [Hr [Hp ->]]]. cbn. intros E. pose proof (H_modes _ Hp) as M. pose proof M as [Hm [Ht [L1 [L2 [L3 L4]]]]].
    destruct (row_seen _ _ _ Hr M) as [d [t [l [_ [_ [Mv Et]]]]]].
    pose proof (start_mode_bounds (mo_profile r) d Hm) as Hk.
    pose proof (moves_spec (mo_profile r) (start_mode (mo_profile r) d) (pf_time (mo_profile r)) 5 ltac:(lia) Ht ltac:(reflexivity) L1 L2 L3 L4) as S.
    rewrite Mv in S. destruct S as [_ [_ [_ [S4 [S5 _]]]]].
    rewrite Et. unfold end_time. cbn [wk_mode wk_time wk_left wk_profile]. rewrite E. cbn [Z.eqb Pos.eqb andb].
    destruct (Qle_bool (t + l) (pf_len4 (mo_profile r))) eqn:Q; cbn [negb]; [apply Qle_bool_iff in Q; lra|lra].
  Qed.

  Lemma target_defined : (forall p, In p ps -> 0 <= pf_min_loading p) -> (fs_end_mode f = 4%Z -> 0 < fs_mode_four_length f) ->
    exists q, fs_target f = Some q /\ 0 <= q <= fs_min_loading f.
  Proof.
    intros Mn L4. pose proof end_modes as B. assert (P : 0 <= fs_min_loading f).
    { destruct row_of as [r [_ [Hp E]]]. rewrite E. cbn. auto. }
    unfold fs_target. assert (C : fs_end_mode f = 0%Z \/ fs_end_mode f = 1%Z \/ fs_end_mode f = 2%Z \/ fs_end_mode f = 3%Z \/ fs_end_mode f = 4%Z) by lia.
    destruct C as [C|[C|[C|[C|C]]]]; rewrite C.
    - exists 0. split; [reflexivity|lra].
    - exists 0. split; [reflexivity|lra].
    - destruct (mode_two_target ps rep f H_modes Mn H_row C) as [P2 [_ [_ T]]]. rewrite (over_some _ _ P2). eauto.
    - exists (fs_min_loading f). split; [reflexivity|lra].
    - specialize (L4 C). rewrite (over_some _ _ L4). eexists. split; [reflexivity|]. pose proof (four_time C) as [T1 T2].
      assert (A1 : 0 <= fs_time_in_end_mode f / fs_mode_four_length f) by (apply Qle_shift_div_l; lra).
      assert (A2 : fs_time_in_end_mode f / fs_mode_four_length f <= 1) by (apply Qle_shift_div_r; lra).
      generalize dependent (fs_time_in_end_mode f / fs_mode_four_length f). intros q B1 B2. split; nra.
  Qed.

  (** The rows without a target, and what is divided in them. *)
  Lemma target_missing : (forall p, In p ps -> 0 <= pf_min_loading p) ->
    (fs_target f = None <-> fs_end_mode f = 4%Z /\ fs_mode_four_length f == 0)
    /\ (fs_target f = None -> fs_time_in_end_mode f == 0).
  Proof.
    intros Mn.
    assert (K : fs_target f = None -> fs_end_mode f = 4%Z /\ fs_mode_four_length f == 0).
    { intros N. destruct (Z.eq_dec (fs_end_mode f) 4) as [E|E].
      - split; [exact E|]. pose proof (four_time E) as [T1 T2]. destruct (Qlt_le_dec 0 (fs_mode_four_length f)) as [L|L]; [|lra].
        destruct (target_defined Mn (fun _ => L)) as [q [X _]]. congruence.
      - destruct (target_defined Mn ltac:(intros; contradiction)) as [q [X _]]. congruence. }
    split; [split; [exact K|]|].
    - intros [E Z]. unfold fs_target. rewrite E, (over_zero _ _ Z). reflexivity.
    - intros N. destruct (K N) as [E Z]. pose proof (four_time E). lra.
  Qed.
End Rows.

(** The limits the market sets are these targets, where they are numbers. *)
Lemma limits_are_targets l lim : In lim (fs_mode_one l ++ fs_mode_two l ++ fs_mode_three l ++ fs_mode_four l) ->
  exists f, In (ul_dt lim, f) l /\ fs_unit f = ul_unit lim /\ ul_service lim = "energy" /\ forall q, fs_target f = Some q -> ul_rhs lim == q.
Proof.
  intros H. rewrite !in_app_iff in H. unfold fs_mode_one, fs_mode_two, fs_mode_three, fs_mode_four in H.
  destruct H as [H|[H|[H|H]]]; apply in_map_iff in H; destruct H as [[dt f] [<- H]]; apply filter_In in H; destruct H as [H E];
    cbn [fst snd ul_dt ul_unit ul_service ul_rhs] in *; exists f; (split; [exact H|]); (split; [reflexivity|]); (split; [reflexivity|]);
    intros q; unfold fs_target.
  - apply orb_true_iff in E. destruct E as [E|E]; apply Z.eqb_eq in E; rewrite E; intros X; injection X as <-; reflexivity.
  - apply Z.eqb_eq in E. rewrite E. unfold column_over. destruct (Qeq_bool _ 0); [discriminate|]. intros X. injection X as <-. reflexivity.
  - apply Z.eqb_eq in E. rewrite E. intros X. injection X as <-. reflexivity.
  - apply Z.eqb_eq in E. rewrite E. unfold column_over. destruct (Qeq_bool _ 0); [discriminate|]. intros X. injection X as <-. reflexivity.
Qed.
