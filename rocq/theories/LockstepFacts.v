(** The same plan carried out on two markets that differ in their counters and in
    some groups. *)

From Coq Require Import QArith Lqa String List Bool Arith Lia ZArith Permutation.
Import ListNotations.
From Verif Require Import PandasModel TablesModel VariableIdsModel MarketConstraintsModel
  UnitConstraintsModel RampModel FcasModel InterModel ElasticModel MarketModel
  SpecHistory SpecElastic PandasFacts StepFacts InvariantFacts ElasticStateFacts RenumberFacts ShiftFacts SpecReplace PlanFacts.
Open Scope string_scope.
Open Scope list_scope.

Lemma make_group_rows k m : group_rows k m = group m k.
Proof. reflexivity. Qed.

(** The tables that the constraint calls leave alone. *)
Record plain (m' m : market) : Prop := {
  pl_cfg : m_cfg m' = m_cfg m; pl_bids : m_bids m' = m_bids m; pl_inter : m_inter m' = m_inter m; pl_loss : m_loss m' = m_loss m;
  pl_weights : m_weights m' = m_weights m; pl_reg_bids : m_reg_bids m' = m_reg_bids m;
  pl_reg_inter : m_reg_inter m' = m_reg_inter m; pl_reg_loss : m_reg_loss m' = m_reg_loss m;
  pl_unit_bids : m_unit_bids m' = m_unit_bids m; pl_gen_unit : m_gen_unit m' = m_gen_unit m;
  pl_gen_region : m_gen_region m' = m_gen_region m; pl_gen_inter : m_gen_inter m' = m_gen_inter m;
  pl_dyn : m_dyn m' = m_dyn m; pl_obj_bids : m_obj_bids m' = m_obj_bids m }.

Lemma plain_refl m : plain m m.
Proof. constructor; reflexivity. Qed.
Lemma plain_trans a b c : plain a b -> plain b c -> plain a c.
Proof. intros [] []. constructor; congruence. Qed.
Lemma plain_sym a b : plain a b -> plain b a.
Proof. intros []. constructor; congruence. Qed.

(** A group with its tables, and the tables of violation variables of a key. *)
Definition same_tables (k : string) (m' m : market) : Prop :=
  dget k (m_rhs m') = dget k (m_rhs m) /\ dget k (m_mrhs m') = dget k (m_mrhs m)
  /\ dget k (m_c2v_unit m') = dget k (m_c2v_unit m) /\ dget k (m_c2v_reg m') = dget k (m_c2v_reg m)
  /\ (k = "tie_break" -> dget k (m_lhs m') = dget k (m_lhs m)).
Definition same_deficits (key : string) (m' m : market) : Prop :=
  dget key (m_deficits m') = dget key (m_deficits m) /\ dget key (m_obj_def m') = dget key (m_obj_def m)
  /\ (key <> "tie_break" -> dget key (m_lhs m') = dget key (m_lhs m)).

(** Tables of a key that no call writes. *)
Definition same_others (k : string) (m' m : market) : Prop :=
  (In k regional_keys -> dget k (m_rhs m') = dget k (m_rhs m))
  /\ (~ In k regional_keys -> dget k (m_mrhs m') = dget k (m_mrhs m) /\ dget k (m_c2v_reg m') = dget k (m_c2v_reg m))
  /\ (~ In k unit_keys -> dget k (m_c2v_unit m') = dget k (m_c2v_unit m)).

Lemma no_tie_deficit k : deficit_key k <> "tie_break".
Proof.
  assert (L : forall a b, String.length (a ++ b)%string = (String.length a + String.length b)%nat) by (induction a; cbn; auto).
  unfold deficit_key. intros E. pose proof (f_equal String.length E) as X. rewrite L in X. cbn [String.length Nat.add] in X.
  destruct k as [|c1 [|c2 t]]; cbn in X, E; [discriminate|discriminate|lia].
Qed.

(** What one write and one call of make_constraints_elastic change. *)
Lemma write_frame w m m2 a : regular w -> m_nc m = Some a -> do_write w m = (m2, None) ->
  plain m2 m /\ m_nv m2 = m_nv m /\ (exists b, m_nc m2 = Some b /\ (a <= b)%nat)
  /\ (forall k, k <> wkey w -> same_tables k m2 m) /\ (forall key, same_deficits key m2 m)
  /\ (exists g r, (dget (wkey w) (m_mrhs m2) = Some g \/ (~ In (wkey w) regional_keys /\ dget (wkey w) (m_mrhs m2) = dget (wkey w) (m_mrhs m) /\ dget (wkey w) (m_rhs m2) = Some g)) /\ In r g /\ (a <= cr_id r)%nat)
  /\ (forall k g, dget k (m_mrhs m2) = Some g -> In k regional_keys \/ dget k (m_mrhs m) = Some g)
  /\ (forall k, same_others k m2 m).
Proof.
  assert (MX : forall mk n0 b, ids_ok mk -> next_id (map cr_id (mk n0)) = Some b -> (n0 <= b)%nat /\ exists r, In r (mk n0) /\ (n0 <= cr_id r)%nat).
  { intros mk n0 b O H. destruct (O n0) as [_ O']. destruct (mk n0) as [|r t] eqn:E; [discriminate H|]. 
    assert (L : (n0 <= cr_id r)%nat) by (apply O'; now left).
    split; [|exists r; split; [now left|exact L]]. cbn [map next_id] in H. injection H as <-. cbn [list_max fold_right]. unfold list_max. cbn [fold_right]. lia. }
  intros R N A. destruct w as [k mr mm|k mr mm|l|ps]; cbn [do_write wkey regular] in *.
  - destruct R as [Hk [[O _] _]]. unfold new_unit_group in A. rewrite N in A.
    destruct (next_id (map cr_id (mr a))) as [b|] eqn:EN; [|discriminate A]. injection A as <-. destruct (MX _ _ _ O EN) as [L1 [r [L2 L3]]].
    assert (NR : ~ In k regional_keys). { cbn in Hk |- *. intuition (subst; discriminate). }
    assert (NT : k <> "tie_break"). { cbn in Hk |- *. intuition (subst; discriminate). }
    unfold put_unit. rewrite (market_eta m). fields. split; [constructor; reflexivity|]. split; [reflexivity|]. split; [exists b; auto|]. split; [|split; [|split; [|split]]].
    + intros k' Hk'. unfold same_tables; fields. rewrite !dget_dset_other by congruence. auto 10.
    + intros key. unfold same_deficits; fields. auto.
    + exists (mr a), r. split; [|auto]. right. rewrite dget_dset_same. auto.
    + intros k' g H. auto.
    + intros k'. unfold same_others; fields. rewrite !dget_dset_cases. split; [|split]; auto; intros Hn; destruct (String.eqb_spec k' k); [subst; contradiction|auto|subst; contradiction|auto].
  - destruct R as [Hk [[O _] _]]. unfold new_regional_group in A. rewrite N in A.
    destruct (next_id (map cr_id (mr a))) as [b|] eqn:EN; [|discriminate A]. injection A as <-. destruct (MX _ _ _ O EN) as [L1 [r [L2 L3]]].
    unfold put_regional. rewrite (market_eta m). fields. split; [constructor; reflexivity|]. split; [reflexivity|]. split; [exists b; auto|]. split; [|split; [|split; [|split]]].
    + intros k' Hk'. unfold same_tables; fields. rewrite !dget_dset_other by congruence. auto 10.
    + intros key. unfold same_deficits; fields. auto.
    + exists (mr a), r. split; [|auto]. left. now rewrite dget_dset_same.
    + intros k' g H. rewrite dget_dset_cases in H. destruct (String.eqb k' k) eqn:E; [|auto]. apply String.eqb_eq in E. subst. auto.
    + intros k'. unfold same_others; fields. rewrite !dget_dset_cases. split; [|split]; auto; intros Hn; destruct (String.eqb_spec k' k); [subst; contradiction|auto].
  - injection A as <-. unfold put_generic. rewrite N.
    assert (O : ids_ok (generic_rhs l)) by (eapply ids_ok_seq; intros; apply generic_rhs_ids).
    destruct (next_id (map cr_id (generic_rhs l a))) as [b|] eqn:EN.
    2:{ destruct l; [congruence|discriminate EN]. }
    destruct (MX _ _ _ O EN) as [L1 [r [L2 L3]]]. rewrite (market_eta m). fields.
    split; [constructor; reflexivity|]. split; [reflexivity|]. split; [exists b; auto|]. split; [|split; [|split; [|split]]].
    + intros k' Hk'. unfold same_tables; fields. rewrite !dget_dset_other by congruence. auto 10.
    + intros key. unfold same_deficits; fields. auto.
    + exists (generic_rhs l a), r. split; [|auto]. right. rewrite dget_dset_same. split; [cbn; intuition discriminate|auto].
    + auto.
    + intros k'. unfold same_others; fields. rewrite !dget_dset_cases. split; [|split]; auto; intros Hn; destruct (String.eqb_spec k' "generic"); [subst; cbn in Hn; intuition discriminate|auto].
  - injection A as <-. unfold put_tie. rewrite N.
    assert (O : ids_ok (tie_rhs ps)) by (eapply ids_ok_seq; intros; apply tie_rhs_ids).
    destruct (next_id (map cr_id (tie_rhs ps a))) as [b|] eqn:EN.
    2:{ destruct ps; [congruence|discriminate EN]. }
    destruct (MX _ _ _ O EN) as [L1 [r [L2 L3]]]. rewrite (market_eta m). fields.
    split; [constructor; reflexivity|]. split; [reflexivity|]. split; [exists b; auto|]. split; [|split; [|split; [|split]]].
    + intros k' Hk'. unfold same_tables; fields. rewrite !dget_dset_other by congruence. auto 10.
    + intros key. unfold same_deficits; fields. repeat split. intros H. now rewrite dget_dset_other by congruence.
    + exists (tie_rhs ps a), r. split; [|auto]. right. rewrite dget_dset_same. split; [cbn; intuition discriminate|auto].
    + auto.
    + intros k'. unfold same_others; fields. rewrite !dget_dset_cases. split; [|split]; auto; intros Hn; destruct (String.eqb_spec k' "tie_break"); [subst; cbn in Hn; intuition discriminate|auto].
Qed.

(** The rows that make_constraints_elastic gives a cost. *)
Definition costed_rows (k : string) (v : vcost) (rows : list crow) : option (list (crow * Q)) :=
  match v with
  | VNum c => Some (map (fun r => (r, c)) rows)
  | VTable t => if has_set_column k then Some (map (fun p => (fst p, snd (snd p))) (merge (fun r (s : string * Q) => in_set r (fst s)) rows t)) else None
  | VOther => None
  end.

Lemma make_elastic_accepted k v m m2 : make_elastic k v m = (m2, None) ->
  exists rows, group m k = Some rows /\ ((v = VOther /\ rows = [] /\ m2 = m) \/
    exists cr, costed_rows k v rows = Some cr /\ add_deficits k cr m = (m2, None) /\ match v with VTable t => check_vcost t = None | _ => True end).
Proof.
  intros H. unfold make_elastic in H. change (group_rows k m) with (group m k) in H. destruct (group m k) as [rows|]; [|discriminate H]. exists rows. split; [reflexivity|].
  destruct v as [c|t|].
  - right. eexists. split; [reflexivity|auto].
  - right. destruct (check_vcost t) eqn:C; [discriminate H|]. cbn [guard] in H. unfold costed_rows. destruct (has_set_column k); [|discriminate H]. eexists. split; [reflexivity|auto].
  - left. destruct rows; [|discriminate H]. injection H as <-. auto.
Qed.

Lemma add_deficits_accepted k cr m m2 : add_deficits k cr m = (m2, None) ->
  (cr = [] /\ m2 = m) \/
  (exists b, next_id (map df_id (deficit_variables cr (m_nv m))) = Some b /\
   m2 = set_m_nv b (set_m_lhs (dset (deficit_key k) (deficit_lhs cr (m_nv m)) (m_lhs m))
         (set_m_obj_def (dset (deficit_key k) (deficit_costs cr (m_nv m)) (m_obj_def m))
           (set_m_deficits (dset (deficit_key k) (deficit_variables cr (m_nv m)) (m_deficits m)) m)))).
Proof.
  unfold add_deficits. destruct cr as [|c t]; [intros [= <-]; now left|]. set (cr := c :: t). intros H. right.
  destruct (next_id (map df_id (deficit_variables cr (m_nv m)))) as [b|]; [|discriminate H]. exists b. split; [reflexivity|].
  injection H as <-. rewrite (market_eta m). reflexivity.
Qed.

Lemma deficit_ids_ge cr n0 i : In i (map df_id (deficit_variables cr n0)) -> (n0 <= i)%nat.
Proof.
  unfold deficit_variables, deficit_rows. rewrite map_map, !map_app, !map_map. rewrite !in_app_iff, !in_map_iff.
  intros [[[j p] [E H]]|[[[j p] [E H]]|[[j p] [E H]]]]; cbn in E; subst; apply in_save_index in H; cbn [fst] in H; lia.
Qed.

(** What a call of make_constraints_elastic changes. *)
Lemma flex_frame f m m2 : do_flex f m = (m2, None) ->
  plain m2 m /\ m_nc m2 = m_nc m /\ (m_nv m <= m_nv m2)%nat
  /\ m_rhs m2 = m_rhs m /\ m_mrhs m2 = m_mrhs m /\ (forall k, same_tables k m2 m)
  /\ (forall key, key <> deficit_key (fl_key f) -> same_deficits key m2 m)
  /\ ((forall key, same_deficits key m2 m)
      \/ exists ds d0, dget (deficit_key (fl_key f)) (m_deficits m2) = Some ds /\ In d0 ds /\ (m_nv m <= df_id d0)%nat).
Proof.
  assert (ID : forall m0 : market, plain m0 m0 /\ m_nc m0 = m_nc m0 /\ (m_nv m0 <= m_nv m0)%nat /\ m_rhs m0 = m_rhs m0 /\ m_mrhs m0 = m_mrhs m0 /\ (forall k, same_tables k m0 m0)
     /\ (forall key, key <> deficit_key (fl_key f) -> same_deficits key m0 m0) /\ ((forall key, same_deficits key m0 m0)
      \/ exists ds d0, dget (deficit_key (fl_key f)) (m_deficits m0) = Some ds /\ In d0 ds /\ (m_nv m0 <= df_id d0)%nat)).
  { intros m0. unfold same_tables, same_deficits. split; [apply plain_refl|]. repeat split; auto; lia. }
  assert (MAIN : forall v, make_elastic (fl_key f) v m = (m2, None) -> plain m2 m /\ m_nc m2 = m_nc m /\ (m_nv m <= m_nv m2)%nat
  /\ m_rhs m2 = m_rhs m /\ m_mrhs m2 = m_mrhs m /\ (forall k, same_tables k m2 m)
  /\ (forall key, key <> deficit_key (fl_key f) -> same_deficits key m2 m)
  /\ ((forall key, same_deficits key m2 m)
      \/ exists ds d0, dget (deficit_key (fl_key f)) (m_deficits m2) = Some ds /\ In d0 ds /\ (m_nv m <= df_id d0)%nat)).
  { intros v H. apply make_elastic_accepted in H. destruct H as [rows [_ [[_ [_ ->]]|[cr [_ [H _]]]]]]; [apply ID|].
    apply add_deficits_accepted in H. destruct H as [[_ ->]|[b [EN ->]]]; [apply ID|].
    destruct (deficit_variables cr (m_nv m)) as [|d0 ds] eqn:ED; [discriminate EN|].
    assert (L : (m_nv m <= df_id d0)%nat). { apply (deficit_ids_ge cr). rewrite ED. now left. }
    assert (LB : (m_nv m <= b)%nat). { cbn [map next_id] in EN. injection EN as <-. unfold list_max. cbn [fold_right]. lia. }
    rewrite (market_eta m). fields. split; [constructor; reflexivity|]. split; [reflexivity|]. split; [exact LB|]. split; [reflexivity|]. split; [reflexivity|]. split; [|split].
    - intros k. unfold same_tables; fields. repeat split. intros ->. rewrite dget_dset_other; [reflexivity|]. intros E. exact (no_tie_deficit _ (eq_sym E)).
    - intros key Hk. unfold same_deficits; fields. rewrite !dget_dset_other by congruence. auto.
    - right. exists (d0 :: ds), d0. rewrite dget_dset_same. split; [reflexivity|]. split; [now left|exact L]. }
  unfold do_flex. destruct (fl_if f); [|apply MAIN]. unfold elastic_if_present. destruct (dhas (fl_key f) (m_c2v_unit m)); [apply MAIN|].
  intros [= <-]. apply ID.
Qed.

(** ** The first call *)

(** What the market looks like after writing the groups [W] and making the groups
    [X] elastic, compared with the market before. *)
Record since (W X : string -> Prop) (n v : nat) (m0 m : market) : Prop := {
  si_plain : plain m m0;
  si_nc : exists a, m_nc m = Some a /\ (n <= a)%nat;
  si_nv : (v <= m_nv m)%nat;
  si_reg : forall k g, dget k (m_mrhs m) = Some g -> In k regional_keys;
  si_tables : forall k, same_tables k m m0 \/ (W k /\ exists g r, group m k = Some g /\ In r g /\ (n <= cr_id r)%nat);
  si_deficits : forall key, same_deficits key m m0
    \/ (exists k ds d0, X k /\ key = deficit_key k /\ dget key (m_deficits m) = Some ds /\ In d0 ds /\ (v <= df_id d0)%nat);
  si_others : forall k, same_others k m m0 }.

Lemma since_write W X n v m0 m w m2 : since W X n v m0 m -> regular w -> do_write w m = (m2, None) ->
  since (fun k => W k \/ k = wkey w) X n v m0 m2.
Proof.
  intros [P [a [N L]] NV RG T D OT] R H. destruct (write_frame w m m2 a R N H) as [P' [V' [[b [N' L']] [T' [D' [[g [r [G [Hr Lr]]]] [RG' OT']]]]]]].
  constructor.
  - eapply plain_trans; eauto.
  - exists b. split; [auto|lia].
  - lia.
  - intros k g' Hg. destruct (RG' k g' Hg) as [X1|X1]; eauto.
  - intros k. destruct (String.eqb_spec k (wkey w)) as [->|NE].
    + right. split; [now right|]. exists g, r. split; [|split; [auto|lia]]. unfold group. destruct G as [G|[NR [G1 G2]]].
      * now rewrite G.
      * destruct (dget (wkey w) (m_mrhs m2)) as [g'|] eqn:E; [|exact G2]. exfalso. apply NR. rewrite G1 in E. eauto.
    + destruct (T' k NE) as [A1 [A2 [A3 [A4 A5]]]]. destruct (T k) as [[B1 [B2 [B3 [B4 B5]]]]|[HW [g' [r' [G' [Hr' Lr']]]]]].
      * left. unfold same_tables. repeat split; try congruence. intros E. rewrite A5, B5; auto.
      * right. split; [now left|]. exists g', r'. split; [|auto]. unfold group in *. now rewrite A1, A2.
  - intros key. destruct (D' key) as [A1 [A2 A3]]. destruct (D key) as [[B1 [B2 B3]]|[k [ds [d0 [HX [E [Gk Hd]]]]]]].
    + left. unfold same_deficits. repeat split; try congruence. intros E. rewrite A3, B3; auto.
    + right. exists k, ds, d0. rewrite A1. auto.
  - intros k. destruct (OT k) as [A1 [A2 A3]], (OT' k) as [B1 [B2 B3]]. split; [|split]; intros Hk.
    + rewrite B1; auto.
    + destruct (A2 Hk), (B2 Hk). split; congruence.
    + rewrite B3; auto.
Qed.

Lemma since_flex W X n v m0 m f m2 : since W X n v m0 m -> do_flex f m = (m2, None) ->
  since W (fun k => X k \/ k = fl_key f) n v m0 m2.
Proof.
  intros [P [a [N L]] NV RG T D OT] H. destruct (flex_frame f m m2 H) as [P' [N' [V' [E1 [E2 [T' [D' F']]]]]]].
  constructor.
  - eapply plain_trans; eauto.
  - exists a. rewrite N'. auto.
  - lia.
  - intros k g' Hg. rewrite E2 in Hg. eauto.
  - intros k. destruct (T' k) as [A1 [A2 [A3 [A4 A5]]]]. destruct (T k) as [[B1 [B2 [B3 [B4 B5]]]]|[HW [g' [r' [G' [Hr' Lr']]]]]].
    + left. unfold same_tables. repeat split; try congruence. intros E. rewrite A5, B5; auto.
    + right. split; [auto|]. exists g', r'. split; [|auto]. unfold group in *. now rewrite A1, A2.
  - intros key.
    assert (KEEP : same_deficits key m2 m -> same_deficits key m2 m0 \/ (exists k ds d0, (X k \/ k = fl_key f) /\ key = deficit_key k /\ dget key (m_deficits m2) = Some ds /\ In d0 ds /\ (v <= df_id d0)%nat)).
    { intros [A1 [A2 A3]]. destruct (D key) as [[B1 [B2 B3]]|[k [ds [d0 [HX [E [Gk Hd]]]]]]].
      - left. unfold same_deficits. repeat split; try congruence. intros E. rewrite A3, B3; auto.
      - right. exists k, ds, d0. rewrite A1. auto. }
    destruct F' as [F'|[ds [d0 [G [Hd Ld]]]]]; [apply KEEP; auto|].
    destruct (String.eqb_spec key (deficit_key (fl_key f))) as [->|NE]; [|apply KEEP; auto].
    right. exists (fl_key f), ds, d0. repeat split; auto. lia.
  - intros k. destruct (OT k) as [A1 [A2 A3]], (T' k) as [B1 [B2 [B3 [B4 _]]]]. split; [|split]; intros Hk; rewrite ?B1, ?B2, ?B3, ?B4; auto.
Qed.

Lemma since_mono (W X W' X' : string -> Prop) n v m0 m : (forall k, W k -> W' k) -> (forall k, X k -> X' k) -> since W X n v m0 m -> since W' X' n v m0 m.
Proof.
  intros HW HX [P N NV RG T D OT]. constructor; auto.
  - intros k. destruct (T k) as [|[]]; [now left|right; auto].
  - intros key. destruct (D key) as [|[k [ds [d0 [A B]]]]]; [now left|right; exists k, ds, d0; auto].
Qed.

Lemma andthen_none r f m2 : andthen r f = (m2, None) -> exists m1, r = (m1, None) /\ f m1 = (m2, None).
Proof. destruct r as [m1 [e|]]; cbn; [discriminate|]. eauto. Qed.

Lemma since_writes ws : forall W X n v m0 m m2, since W X n v m0 m -> Forall regular ws -> do_writes ws m = (m2, None) ->
  since (fun k => W k \/ In k (map wkey ws)) X n v m0 m2.
Proof.
  induction ws as [|w t IH]; intros W X n v m0 m m2 S R H; cbn [do_writes] in H.
  - injection H as <-. eapply since_mono; [| |exact S]; auto.
  - apply andthen_none in H. destruct H as [m1 [H1 H2]]. inversion R; subst. eapply since_mono; [| |eapply IH; [eapply since_write; eauto|auto|eauto]]; cbn; intuition.
Qed.

Lemma since_flexes fs : forall W X n v m0 m m2, since W X n v m0 m -> do_flexes fs m = (m2, None) ->
  since W (fun k => X k \/ In k (map fl_key fs)) n v m0 m2.
Proof.
  induction fs as [|f t IH]; intros W X n v m0 m m2 S H; cbn [do_flexes] in H.
  - injection H as <-. eapply since_mono; [| |exact S]; auto.
  - apply andthen_none in H. destruct H as [m1 [H1 H2]]. eapply since_mono; [| |eapply IH; [eapply since_flex; eauto|eauto]]; cbn; intuition.
Qed.

(** ** The second call, in lockstep *)

Section Lockstep.
  Variables (rho sigma : nat -> nat) (n d v e : nat).
  Hypothesis RH : forall i, (n <= i)%nat -> rho i = (d + i)%nat.
  Hypothesis SH : forall i, (v <= i)%nat -> sigma i = (e + i)%nat.

  Definition agree_tables (k : string) (m' m : market) : Prop :=
    dget k (m_rhs m') = option_map (map (ren_c rho)) (dget k (m_rhs m))
    /\ dget k (m_mrhs m') = option_map (map (ren_c rho)) (dget k (m_mrhs m))
    /\ dget k (m_c2v_unit m') = option_map (map (ren_uc rho)) (dget k (m_c2v_unit m))
    /\ dget k (m_c2v_reg m') = option_map (map (ren_rc rho)) (dget k (m_c2v_reg m))
    /\ (k = "tie_break" -> dget k (m_lhs m') = option_map (map (ren_l rho sigma)) (dget k (m_lhs m))).
  Definition agree_deficits (key : string) (m' m : market) : Prop :=
    dget key (m_deficits m') = option_map (map (ren_d sigma)) (dget key (m_deficits m))
    /\ dget key (m_obj_def m') = option_map (map (ren_k sigma)) (dget key (m_obj_def m))
    /\ (key <> "tie_break" -> dget key (m_lhs m') = option_map (map (ren_l rho sigma)) (dget key (m_lhs m))).

  Definition agree_others (k : string) (m' m : market) : Prop :=
    (In k regional_keys -> dget k (m_rhs m') = option_map (map (ren_c rho)) (dget k (m_rhs m)))
    /\ (~ In k regional_keys -> dget k (m_mrhs m') = option_map (map (ren_c rho)) (dget k (m_mrhs m)) /\ dget k (m_c2v_reg m') = option_map (map (ren_rc rho)) (dget k (m_c2v_reg m)))
    /\ (~ In k unit_keys -> dget k (m_c2v_unit m') = option_map (map (ren_uc rho)) (dget k (m_c2v_unit m))).

  Record lock (D E : string -> Prop) (m0 m' m : market) : Prop := {
    lk_plain : plain m' m;
    lk_nc : exists a, m_nc m = Some a /\ m_nc m' = Some (a + d)%nat /\ (n <= a)%nat;
    lk_nv : m_nv m' = (m_nv m + e)%nat /\ (v <= m_nv m)%nat;
    lk_tables : forall k, agree_tables k m' m \/ (D k /\ group m k = group m0 k);
    lk_deficits : forall key, agree_deficits key m' m \/ (E key /\ dget key (m_deficits m) = dget key (m_deficits m0));
    lk_others : forall k, agree_others k m' m }.

  (** The variables that a tie break write mentions keep their numbers. *)
  Definition low (w : write) : Prop :=
    match w with WTie ps => forall p, In p ps -> sigma (ti_var (fst p)) = ti_var (fst p) /\ sigma (ti_var (snd p)) = ti_var (snd p) | _ => True end.

  Lemma tie_lhs_low ps a : low (WTie ps) -> (n <= a)%nat -> tie_lhs ps (a + d) = map (ren_l rho sigma) (tie_lhs ps a).
  Proof.
    intros L H. rewrite tie_lhs_moves. apply map_ext_in. intros r Hr. unfold mv_l, ren_l.
    unfold tie_lhs in Hr. apply in_app_or in Hr. destruct Hr as [Hr|Hr]; apply in_map_iff in Hr; destruct Hr as [[i [x y]] [<- Hr]];
      apply in_save_index in Hr; destruct Hr as [B Hi]; cbn [fst snd] in B, Hi; cbn [l_con l_var l_coef]; specialize (L _ Hi); cbn [fst snd] in L;
      rewrite RH by lia; rewrite ?(proj1 L), ?(proj2 L); reflexivity.
  Qed.

  Lemma lock_write D E m0 m' m w m2 : regular w -> low w -> lock D E m0 m' m -> do_write w m = (m2, None) ->
    exists m2', do_write w m' = (m2', None) /\ lock D E m0 m2' m2.
  Proof.
    intros R L [P [a [N [N' La]]] NV T DF OT] H.
    assert (KEEP : forall k x' x y' y, same_tables k x' y' -> same_tables k x y -> agree_tables k y' y -> agree_tables k x' x).
    { intros k x' x y' y [A1 [A2 [A3 [A4 A5]]]] [B1 [B2 [B3 [B4 B5]]]] [C1 [C2 [C3 [C4 C5]]]]. unfold agree_tables.
      rewrite A1, A2, A3, A4, B1, B2, B3, B4. repeat split; auto. intros E1. rewrite A5, B5; auto. }
    assert (KEEPD : forall key x' x y' y, same_deficits key x' y' -> same_deficits key x y -> agree_deficits key y' y -> agree_deficits key x' x).
    { intros key x' x y' y [A1 [A2 A3]] [B1 [B2 B3]] [C1 [C2 C3]]. unfold agree_deficits.
      rewrite A1, A2, B1, B2. repeat split; auto. intros E1. rewrite A3, B3; auto. }
    pose proof (write_frame w m m2 a R N H) as [P2 [V2 [[b [N2 L2]] [T2 [D2 [_ [_ OT2]]]]]]].
    assert (EX : exists m2', do_write w m' = (m2', None) /\ m_nc m2' = Some (b + d)%nat /\
       (agree_others (wkey w) m2' m2 -> agree_tables (wkey w) m2' m2)).
    { destruct w as [k mr mm|k mr mm|l|ps]; cbn [do_write wkey regular] in *.
      - destruct R as [Hk [O [M1 M2]]]. unfold new_unit_group in *. rewrite N in H. rewrite N'.
        rewrite (next_id_moves mr a d M1). destruct (next_id (map cr_id (mr a))) as [b'|]; [|discriminate H]. cbn [option_map]. injection H as <-.
        rewrite (market_eta m) in N2. cbn in N2. assert (b' = b) by congruence. subst b'. eexists. split; [reflexivity|]. split; [reflexivity|].
        assert (NR : ~ In k regional_keys). { cbn in Hk |- *. intuition (subst; discriminate). }
        assert (NT : k <> "tie_break"). { cbn in Hk |- *. intuition (subst; discriminate). }
        intros [_ [X _]]. destruct (X NR) as [X1 X2]. unfold agree_tables. split; [|split; [exact X1|split; [|split; [exact X2|intros E1; contradiction]]]].
        + unfold put_unit. rewrite (market_eta m), (market_eta m'). fields. rewrite !dget_dset_same. cbn [option_map]. f_equal. eapply moves_c; [exact RH|apply O|auto|auto].
        + unfold put_unit. rewrite (market_eta m), (market_eta m'). fields. rewrite !dget_dset_same. cbn [option_map]. f_equal. eapply moves_uc; [exact RH|eauto..].
      - destruct R as [Hk [O [M1 M2]]]. unfold new_regional_group in *. rewrite N in H. rewrite N'.
        rewrite (next_id_moves mr a d M1). destruct (next_id (map cr_id (mr a))) as [b'|]; [|discriminate H]. cbn [option_map]. injection H as <-.
        rewrite (market_eta m) in N2. cbn in N2. assert (b' = b) by congruence. subst b'. eexists. split; [reflexivity|]. split; [reflexivity|].
        assert (NU : ~ In k unit_keys). { cbn in Hk |- *. intuition (subst; discriminate). }
        assert (NT : k <> "tie_break"). { cbn in Hk |- *. intuition (subst; discriminate). }
        intros [X1 [_ X2]]. unfold agree_tables. split; [auto|split; [|split; [auto|split; [|intros E1; contradiction]]]].
        + unfold put_regional. rewrite (market_eta m), (market_eta m'). fields. rewrite !dget_dset_same. cbn [option_map]. f_equal. eapply moves_c; [exact RH|apply O|auto|auto].
        + unfold put_regional. rewrite (market_eta m), (market_eta m'). fields. rewrite !dget_dset_same. cbn [option_map]. f_equal. eapply moves_rc; [exact RH|eauto..].
      - injection H as <-. unfold put_generic in *. rewrite N in *. rewrite N'. eexists. split; [reflexivity|].
        assert (O : ids_ok (generic_rhs l)) by (eapply ids_ok_seq; intros; apply generic_rhs_ids).
        split.
        + rewrite (market_eta m'). fields. rewrite (next_id_moves _ a d (generic_moves l)). rewrite (market_eta m) in N2. cbn [set_m_nc m_nc set_m_rhs] in N2. now rewrite N2.
        + intros [_ [X X2]]. destruct X as [X1 X3]; [cbn; intuition discriminate|]. unfold agree_tables.
          split; [|split; [exact X1|split; [apply X2; cbn; intuition discriminate|split; [exact X3|intros E1; discriminate]]]].
          rewrite (market_eta m), (market_eta m'). fields. rewrite !dget_dset_same. cbn [option_map]. f_equal. eapply moves_c; [exact RH|exact O|apply generic_moves|auto].
      - injection H as <-. unfold put_tie in *. rewrite N in *. rewrite N'. eexists. split; [reflexivity|].
        assert (O : ids_ok (tie_rhs ps)) by (eapply ids_ok_seq; intros; apply tie_rhs_ids).
        split.
        + rewrite (market_eta m'). fields. rewrite (next_id_moves _ a d (tie_rhs_moves ps)). rewrite (market_eta m) in N2. cbn [set_m_nc m_nc set_m_rhs set_m_lhs] in N2. now rewrite N2.
        + intros [_ [X X2]]. destruct X as [X1 X3]; [cbn; intuition discriminate|]. unfold agree_tables.
          split; [|split; [exact X1|split; [apply X2; cbn; intuition discriminate|split; [exact X3|intros _]]]].
          * rewrite (market_eta m), (market_eta m'). fields. rewrite !dget_dset_same. cbn [option_map]. f_equal. eapply moves_c; [exact RH|exact O|apply tie_rhs_moves|auto].
          * rewrite (market_eta m), (market_eta m'). fields. rewrite !dget_dset_same. cbn [option_map]. f_equal. now apply tie_lhs_low. }
    destruct EX as [m2' [H' [N2' AG]]].
    pose proof (write_frame w m' m2' (a + d) R N' H') as [P2' [V2' [_ [T2' [D2' [_ [_ OT2']]]]]]]. exists m2'. split; [exact H'|].
    assert (OTH : forall k, agree_others k m2' m2).
    { intros k. destruct (OT k) as [A1 [A2 A3]], (OT2 k) as [B1 [B2 B3]], (OT2' k) as [C1 [C2 C3]]. split; [|split]; intros Hk.
      - rewrite B1, C1 by auto. auto.
      - destruct (A2 Hk), (B2 Hk), (C2 Hk). split; congruence.
      - rewrite B3, C3 by auto. auto. }
    constructor.
    - eapply plain_trans; [exact P2'|]. eapply plain_trans; [exact P|]. now apply plain_sym.
    - exists b. repeat split; auto. lia.
    - rewrite V2, V2'. exact NV.
    - intros k. destruct (String.eqb_spec k (wkey w)) as [->|NE].
      + left. apply AG. apply OTH.
      + destruct (T k) as [A|[HD G]]; [left; eapply KEEP; eauto|]. right. split; [auto|]. rewrite <- G. destruct (T2 k NE) as [A1 [A2 _]]. unfold group. now rewrite A1, A2.
    - intros key. destruct (DF key) as [A|[HE G]]; [left; eapply KEEPD; eauto|]. right. split; [auto|]. rewrite <- G. apply D2.
    - exact OTH.
  Qed.

  Lemma lock_writes D E m0 ws : forall m' m m2, Forall regular ws -> Forall low ws -> lock D E m0 m' m -> do_writes ws m = (m2, None) ->
    exists m2', do_writes ws m' = (m2', None) /\ lock D E m0 m2' m2.
  Proof.
    induction ws as [|w t IH]; intros m' m m2 R L K H; cbn [do_writes] in *.
    - injection H as <-. exists m'. auto.
    - apply andthen_none in H. destruct H as [m1 [H1 H2]]. inversion R; inversion L; subst.
      destruct (lock_write D E m0 m' m w m1) as [m1' [H1' K1]]; auto. rewrite H1'. cbn [andthen]. eapply IH; eauto.
  Qed.

  (** Elastic. *)
  Definition ren_p (p : crow * Q) : crow * Q := (ren_c rho (fst p), snd p).
  Definition ren_row (p : nat * (crow * Q) * Q) : nat * (crow * Q) * Q := ((e + fst (fst p), ren_p (snd (fst p)))%nat, snd p).

  Lemma save_map {A B} (f : A -> B) a l : save_index a (map f l) = map (fun p => (fst p, f (snd p))) (save_index a l).
  Proof. revert a. induction l as [|x t IH]; intros a; cbn; [reflexivity|]. f_equal. apply IH. Qed.

  Lemma deficit_rows_ren cr a : deficit_rows (map ren_p cr) (a + e) = map ren_row (deficit_rows cr a).
  Proof.
    unfold deficit_rows, inequalities, equalities.
    assert (F : forall g l, filter (fun p => g (cr_type (fst p))) (map ren_p l) = map ren_p (filter (fun p => g (cr_type (fst p))) l)).
    { intros g l. induction l as [|x t IH]; cbn; [reflexivity|]. destruct (g (cr_type (fst x))); cbn; now rewrite IH. }
    rewrite (F (fun s => String.eqb s ">=" || String.eqb s "<=")), (F (fun s => String.eqb s "=")). rewrite !map_length, !save_map.
    rewrite !map_app, !map_map.
    replace (a + e + length (filter (fun p : crow * Q => String.eqb (cr_type (fst p)) ">=" || String.eqb (cr_type (fst p)) "<=") cr))%nat
      with (a + length (filter (fun p : crow * Q => String.eqb (cr_type (fst p)) ">=" || String.eqb (cr_type (fst p)) "<=") cr) + e)%nat by lia.
    replace (a + length (filter (fun p : crow * Q => String.eqb (cr_type (fst p)) ">=" || String.eqb (cr_type (fst p)) "<=") cr) + e + length (filter (fun p : crow * Q => String.eqb (cr_type (fst p)) "=") cr))%nat
      with (a + length (filter (fun p : crow * Q => String.eqb (cr_type (fst p)) ">=" || String.eqb (cr_type (fst p)) "<=") cr) + length (filter (fun p : crow * Q => String.eqb (cr_type (fst p)) "=") cr) + e)%nat by lia.
    rewrite !save_mv, !map_map. reflexivity.
  Qed.

  Lemma deficit_row_ge cr a p : In p (deficit_rows cr a) -> (a <= fst (fst p))%nat.
  Proof.
    intros H. apply (deficit_ids_ge cr). unfold deficit_variables. rewrite map_map. apply in_map_iff. exists p. split; [|auto]. destruct p as [[i [r q]] c]. reflexivity.
  Qed.

  Lemma deficit_tables_ren cr a : (v <= a)%nat ->
    deficit_variables (map ren_p cr) (a + e) = map (ren_d sigma) (deficit_variables cr a)
    /\ deficit_costs (map ren_p cr) (a + e) = map (ren_k sigma) (deficit_costs cr a)
    /\ deficit_lhs (map ren_p cr) (a + e) = map (ren_l rho sigma) (deficit_lhs cr a).
  Proof.
    intros L. unfold deficit_variables, deficit_costs, deficit_lhs. rewrite deficit_rows_ren, !map_map.
    repeat split; apply map_ext_in; intros [[i [r q]] c] Hp; apply deficit_row_ge in Hp; cbn [fst] in Hp; cbn;
      unfold ren_d, ren_k, ren_l; cbn; rewrite SH by lia; reflexivity.
  Qed.

  Lemma costed_ren k c rows : costed_rows k c (map (ren_c rho) rows) = option_map (map ren_p) (costed_rows k c rows).
  Proof.
    destruct c as [q|t|]; cbn; [|destruct (has_set_column k); cbn; [|reflexivity]|reflexivity].
    - rewrite !map_map. reflexivity.
    - rewrite merge_ren by reflexivity. rewrite !map_map. reflexivity.
  Qed.

  Lemma next_deficit cr a b : (v <= a)%nat -> next_id (map df_id (deficit_variables cr a)) = Some b ->
    next_id (map df_id (deficit_variables (map ren_p cr) (a + e))) = Some (b + e)%nat.
  Proof.
    intros L H. rewrite (proj1 (deficit_tables_ren cr a L)), map_map. cbn [ren_d df_id].
    assert (GE : forall x, In x (deficit_variables cr a) -> (v <= df_id x)%nat).
    { intros x Hx. apply (in_map df_id) in Hx. apply deficit_ids_ge in Hx. lia. }
    destruct (deficit_variables cr a) as [|x t]; [discriminate H|]. cbn [map next_id] in *. injection H as <-. f_equal.
    assert (X : forall l, (forall y, In y (x :: l) -> (v <= df_id y)%nat) -> list_max (map (fun y => sigma (df_id y)) (x :: l)) = (e + list_max (map df_id (x :: l)))%nat).
    { clear - SH. intros l. induction l as [|y l IH]; intros G.
      - cbn. rewrite SH by (apply G; now left). lia.
      - assert (IH' := IH (fun z Hz => G z ltac:(cbn in *; tauto))). cbn [map list_max fold_right] in *. unfold list_max in *.
        assert (E1 : sigma (df_id y) = (e + df_id y)%nat) by (apply SH; apply G; cbn; auto).
        assert (E2 : sigma (df_id x) = (e + df_id x)%nat) by (apply SH; apply G; cbn; auto). cbn [fold_right] in *. lia. }
    specialize (X t GE). cbn [map] in X. unfold ren_d. cbn [df_id]. rewrite X. unfold list_max. cbn [fold_right]. lia.
  Qed.

  (** With the group in agreement, making it elastic stays in lockstep. *)
  Lemma lock_elastic D E m0 m' m k c m2 : ~ D k -> lock D E m0 m' m -> make_elastic k c m = (m2, None) ->
    exists m2', make_elastic k c m' = (m2', None) /\ lock D E m0 m2' m2.
  Proof.
    intros ND K H. pose proof K as [P [a [N [N' La]]] [NV LV] T DF OT].
    assert (G : group m' k = option_map (map (ren_c rho)) (group m k)).
    { destruct (T k) as [[A1 [A2 _]]|[HD _]]; [|contradiction]. unfold group. rewrite A1, A2. destruct (dget k (m_mrhs m)), (dget k (m_rhs m)); reflexivity. }
    apply make_elastic_accepted in H. destruct H as [rows [GR H]]. unfold make_elastic. change (group_rows k m') with (group m' k). rewrite G, GR. cbn [option_map].
    destruct H as [[-> [-> ->]]|[cr [CR [H CK]]]].
    - cbn. exists m'. auto.
    - assert (X : exists m2', add_deficits k (map ren_p cr) m' = (m2', None) /\ lock D E m0 m2' m2).
      { apply add_deficits_accepted in H. destruct H as [[-> ->]|[b [EN ->]]]; [exists m'; auto|].
        pose proof (next_deficit cr (m_nv m) b LV EN) as EN'. destruct (deficit_tables_ren cr (m_nv m) LV) as [E1 [E2 E3]].
        destruct cr as [|c0 ct]; [discriminate EN|]. unfold add_deficits. cbn [map]. change (ren_p c0 :: map ren_p ct) with (map ren_p (c0 :: ct)).
        rewrite NV. rewrite EN'. eexists. split; [reflexivity|]. rewrite E1, E2, E3. set (cr := c0 :: ct) in *. clear K.
        assert (LB : (m_nv m <= b)%nat). { destruct (deficit_variables cr (m_nv m)) as [|x t] eqn:ED; [discriminate EN|]. assert (L : (m_nv m <= df_id x)%nat) by (apply (deficit_ids_ge cr); rewrite ED; now left). cbn [map next_id] in EN. injection EN as <-. unfold list_max. cbn [fold_right]. lia. }
        rewrite (market_eta m), (market_eta m') in *. cbn [m_cfg m_bids m_inter m_loss m_weights m_deficits m_reg_bids m_reg_inter m_reg_loss m_unit_bids m_c2v_reg m_c2v_unit m_lhs m_gen_unit m_gen_region m_gen_inter m_rhs m_mrhs m_dyn m_obj_bids m_obj_def m_directions m_shares m_nv m_nc] in *.
        constructor; fields.
        - destruct P. constructor; fields; assumption.
        - exists a. auto.
        - split; [reflexivity|lia].
        - intros k0. destruct (T k0) as [[A1 [A2 [A3 [A4 A5]]]]|HD]; [|right; exact HD]. left. unfold agree_tables; fields. repeat split; auto. intros ->.
          rewrite !dget_dset_other; [auto|intros E4; exact (no_tie_deficit _ (eq_sym E4))|intros E4; exact (no_tie_deficit _ (eq_sym E4))].
        - intros key. unfold agree_deficits; fields. rewrite !dget_dset_cases. destruct (String.eqb key (deficit_key k)) eqn:EK; [left; auto|]. exact (DF key).
        - exact OT. }
      destruct X as [m2' [X1 X2]]. exists m2'. split; [|exact X2]. rewrite <- X1.
      pose proof (costed_ren k c rows) as CR'. rewrite CR in CR'. cbn [option_map] in CR'.
      destruct c as [q|t|]; cbn [costed_rows] in CR', CR.
      + injection CR' as ->. reflexivity.
      + rewrite CK. cbn [guard]. destruct (has_set_column k); [|discriminate CR]. injection CR' as ->. reflexivity.
      + discriminate CR.
  Qed.

  Lemma lock_flex D E m0 m' m f m2 : ~ D (fl_key f) -> lock D E m0 m' m -> do_flex f m = (m2, None) ->
    exists m2', do_flex f m' = (m2', None) /\ lock D E m0 m2' m2.
  Proof.
    intros ND K H. unfold do_flex in *. destruct (fl_if f); [|eapply lock_elastic; eauto]. unfold elastic_if_present in *.
    assert (E1 : dhas (fl_key f) (m_c2v_unit m') = dhas (fl_key f) (m_c2v_unit m)).
    { destruct (lk_tables _ _ _ _ _ K (fl_key f)) as [[_ [_ [A _]]]|[HD _]]; [|contradiction]. unfold dhas. rewrite A. now destruct (dget (fl_key f) (m_c2v_unit m)). }
    rewrite E1. destruct (dhas _ _); [eapply lock_elastic; eauto|]. injection H as <-. exists m'. auto.
  Qed.

  Lemma lock_flexes D E m0 fs : forall m' m m2, (forall f, In f fs -> ~ D (fl_key f)) -> lock D E m0 m' m -> do_flexes fs m = (m2, None) ->
    exists m2', do_flexes fs m' = (m2', None) /\ lock D E m0 m2' m2.
  Proof.
    induction fs as [|f t IH]; intros m' m m2 ND K H; cbn [do_flexes] in *.
    - injection H as <-. exists m'. auto.
    - apply andthen_none in H. destruct H as [m1 [H1 H2]]. destruct (lock_flex D E m0 m' m f m1 (ND f (or_introl eq_refl)) K H1) as [m1' [H1' K1]].
      rewrite H1'. cbn [andthen]. eapply IH; eauto. intros g Hg. apply ND. now right.
  Qed.
End Lockstep.
