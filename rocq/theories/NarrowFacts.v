(** Lemmas: a call that sets constraints changes the constraints of its own groups and
    nothing else in the problem. *)

From Coq Require Import QArith Lqa String List Bool Arith Lia.
Import ListNotations.
From Verif Require Import PandasModel TablesModel VariableIdsModel MarketConstraintsModel UnitConstraintsModel RampModel FcasModel InterModel ElasticModel MarketModel SolverModel DispatchModel
  SpecLp SpecHistory SpecElastic SpecDual SpecSolver SpecReplace SpecNarrow
  PandasFacts StepFacts InvariantFacts SolverFacts OwnerFacts PlanFacts LimitFacts ReplaceFacts DispatchFacts DemandPriceFacts.
Open Scope string_scope.
Open Scope list_scope.

(** ** Dictionaries that agree off some keys *)

Definition off {A} (keys : list string) (d : dict A) : dict A := filter (fun e => negb (mem_str (fst e) keys)) d.

Lemma mem_str_true s l : mem_str s l = true <-> In s l.
Proof.
  unfold mem_str. rewrite existsb_exists. split.
  - intros [x [H E]]. apply String.eqb_eq in E. now subst.
  - intros H. exists s. split; [exact H|apply String.eqb_refl].
Qed.

Lemma off_dset {A} keys k (v : A) d : In k keys -> off keys (dset k v d) = off keys d.
Proof.
  intros H. assert (M : mem_str k keys = true) by now apply mem_str_true. unfold off.
  induction d as [|[k' v'] t IH]; cbn [dset filter fst]; [rewrite M; reflexivity|].
  destruct (String.eqb k k') eqn:E; cbn [filter fst].
  - apply String.eqb_eq in E. subst k'. rewrite M. reflexivity.
  - destruct (mem_str k' keys); cbn [negb]; [exact IH|]. now rewrite IH.
Qed.

Lemma off_in {A} keys k (v : A) d : In (k, v) (off keys d) <-> In (k, v) d /\ ~ In k keys.
Proof.
  unfold off. rewrite filter_In. cbn [fst]. rewrite negb_true_iff, <- mem_str_true. destruct (mem_str k keys); intuition congruence.
Qed.

Lemma off_dget {A} keys k (d : dict A) : ~ In k keys -> dget k (off keys d) = dget k d.
Proof.
  intros N. assert (M : mem_str k keys = false) by (destruct (mem_str k keys) eqn:E; [apply mem_str_true in E; contradiction|reflexivity]).
  unfold off. induction d as [|[k' v'] t IH]; cbn [filter fst]; [reflexivity|].
  destruct (mem_str k' keys) eqn:E; cbn [negb dget].
  - destruct (String.eqb k k') eqn:E2; [|exact IH]. apply String.eqb_eq in E2. subst k'. congruence.
  - destruct (String.eqb k k'); [reflexivity|exact IH].
Qed.

(** Entries that contribute nothing can be left out. *)
Lemma off_concat {A B} keys (g : list A -> list B) (q : B -> bool) (d : dict (list A)) :
  (forall a b, g (a ++ b) = g a ++ g b) -> g [] = [] ->
  (forall k l, In k keys -> In (k, l) d -> filter q (g l) = []) -> filter q (g (dconcat d)) = filter q (g (dconcat (off keys d))).
Proof.
  intros G G0 H. unfold off, dconcat. induction d as [|[k l] t IH]; cbn [filter flat_map fst snd]; [reflexivity|].
  rewrite G, filter_app, IH; [|intros k' l' Hk Hl; apply (H k' l' Hk); now right].
  destruct (mem_str k keys) eqn:E; cbn [negb].
  - rewrite (H k l); [reflexivity| |now left]. now apply mem_str_true.
  - cbn [flat_map snd]. now rewrite G, filter_app.
Qed.

(** ** Markets that differ in some groups only *)

Record only_groups (keys : list string) (m m2 : market) : Prop := {
  og_vars : all_vars m2 = all_vars m; og_costs : all_costs m2 = all_costs m;
  og_weights : m_weights m2 = m_weights m; og_inter : m_inter m2 = m_inter m; og_dyn : m_dyn m2 = m_dyn m; og_lhs : m_lhs m2 = m_lhs m;
  og_gu : m_gen_unit m2 = m_gen_unit m; og_gr : m_gen_region m2 = m_gen_region m; og_gi : m_gen_inter m2 = m_gen_inter m;
  og_ub : m_unit_bids m2 = m_unit_bids m; og_rb : m_reg_bids m2 = m_reg_bids m; og_rv : regional_vars m2 = regional_vars m;
  og_rhs : off keys (m_rhs m2) = off keys (m_rhs m); og_mrhs : off keys (m_mrhs m2) = off keys (m_mrhs m);
  og_cu : off keys (m_c2v_unit m2) = off keys (m_c2v_unit m); og_cr : off keys (m_c2v_reg m2) = off keys (m_c2v_reg m) }.

Lemma only_groups_refl keys m : only_groups keys m m.
Proof. constructor; reflexivity. Qed.
Lemma only_groups_trans keys a b c : only_groups keys a b -> only_groups keys b c -> only_groups keys a c.
Proof. intros [] []. constructor; congruence. Qed.

Lemma write_only keys w m m2 : In (wkey w) keys -> (forall ps, w <> WTie ps) -> do_write w m = (m2, None) -> only_groups keys m m2.
Proof.
  intros K T H. destruct w as [k mr mm|k mr mm|l|ps]; cbn [do_write wkey] in *.
  - unfold new_unit_group in H. destruct (m_nc m) as [n|].
    + destruct (next_id _); [|discriminate H]. injection H as <-. constructor; try reflexivity; cbn; now apply off_dset.
    + destruct (mr 0%nat); [discriminate H|]. injection H as <-. constructor; try reflexivity; cbn; now apply off_dset.
  - unfold new_regional_group in H. destruct (m_nc m) as [n|].
    + destruct (next_id _); [|discriminate H]. injection H as <-. constructor; try reflexivity; cbn; now apply off_dset.
    + destruct (mr 0%nat); [discriminate H|]. injection H as <-. constructor; try reflexivity; cbn; now apply off_dset.
  - injection H as <-. unfold put_generic. destruct (m_nc m); constructor; try reflexivity; cbn; now apply off_dset.
  - now destruct (T ps).
Qed.

Lemma writes_only keys ws m m2 : (forall w, In w ws -> In (wkey w) keys /\ forall ps, w <> WTie ps) -> do_writes ws m = (m2, None) -> only_groups keys m m2.
Proof.
  revert m. induction ws as [|w t IH]; intros m K H; cbn [do_writes] in H.
  - injection H as <-. apply only_groups_refl.
  - destruct (do_write w m) as [m1 [e|]] eqn:E; cbn [andthen] in H; [discriminate H|].
    destruct (K w (or_introl eq_refl)) as [K1 K2]. apply (only_groups_trans keys m m1 m2); [exact (write_only keys w m m1 K1 K2 E)|].
    apply IH; [|exact H]. intros w' Hw. apply K. now right.
Qed.

Lemma plan_hard o m ws fs : cost_arg o = None -> plan o m = Some (ws, fs) -> fs = [] /\ forall w, In w ws -> forall ps, w <> WTie ps.
Proof.
  intros C H.
  assert (WI : forall A (l : list A) w w', In w (w_if l w') -> w = w').
  { intros A l w w' Hw. destruct l; cbn in Hw; [destruct Hw|]. destruct Hw as [<-|[]]. reflexivity. }
  destruct o; cbn [plan cost_arg] in *; try discriminate H; try discriminate C; subst; cbn [flex_opt ramp_flex joint_flex] in H.
  all: try (injection H as <- <-; split; [reflexivity|]; intros w [<-|[]] ps; discriminate).
  - destruct (ramp_step _ _ _ _ _ _); [|discriminate H]. injection H as <- <-. split; [reflexivity|].
    intros w [<-|[<-|Hw]] ps; [discriminate..|]. apply in_app_or in Hw. destruct Hw as [Hw|Hw]; apply WI in Hw; subst; discriminate.
  - destruct (fast_start_rhs _ 0); injection H as <- <-; (split; [reflexivity|]); [intros w []|]. intros w [<-|[]] ps; discriminate.
  - destruct (m_bids m); [|discriminate H]. destruct (fast_start_adjust _ _ _ _); [|discriminate H]. injection H as <- <-. split; [reflexivity|].
    intros w Hw ps. repeat (apply in_app_or in Hw; destruct Hw as [Hw|Hw]); apply WI in Hw; subst; discriminate.
Qed.

Lemma call_only o m m2 : planned o -> sane_op o m -> cost_arg o = None -> step o m = (m2, None) -> only_groups (touches o) m m2.
Proof.
  intros P S C H. destruct (accepted_plan o m P S ltac:(now rewrite H)) as [ws [fs [E [_ F]]]].
  destruct (plan_hard o m ws fs C E) as [-> T]. destruct (plan_keys o m ws [] E) as [K _].
  rewrite (F m ltac:(repeat split)) in H. cbn [do_flexes] in H.
  assert (D : do_writes ws m = (m2, None)) by (destruct (do_writes ws m) as [m1 [e|]]; cbn [andthen done] in H; [discriminate H|exact H]).
  apply (writes_only _ ws); [|exact D]. intros w Hw. split; [now apply K|now apply T].
Qed.

(** ** Left-hand sides of other groups *)

Definition foreign (keys : list string) (g : grp) : Prop := forall k, In k keys -> g <> GRhs k /\ g <> GMkt k.

Lemma filter_map_comm {A B} (h : A -> B) (q : B -> bool) l : filter q (map h l) = map h (filter (fun a => q (h a)) l).
Proof. induction l as [|a t IH]; cbn; [reflexivity|]. destruct (q (h a)); cbn; now rewrite IH. Qed.

Lemma merge_filter_right {A B} (on : A -> B -> bool) (q : B -> bool) l r :
  filter (fun p => q (snd p)) (merge on l r) = merge on l (filter q r).
Proof.
  unfold merge. induction l as [|a t IH]; cbn [flat_map]; [reflexivity|]. rewrite filter_app, IH. f_equal.
  rewrite filter_map_comm. cbn [snd]. f_equal. clear.
  induction r as [|b t IH]; cbn [filter]; [reflexivity|]. destruct (on a b) eqn:E1, (q b) eqn:E2; cbn [filter]; rewrite ?E1, ?E2, IH; reflexivity.
Qed.

Definition own_rows (i : nat) (ids : list crow) : list crow := filter (fun r => Nat.eqb (cr_id r) i) ids.
Lemma generic_unit_rows gs ids vs i : filter (fun l => Nat.eqb (l_con l) i) (generic_unit_lhs gs ids vs) = generic_unit_lhs gs (own_rows i ids) vs.
Proof.
  unfold generic_unit_lhs, own_rows. rewrite filter_map_comm, <- merge_filter_right. f_equal. apply filter_ext. intros [[g v] r]. reflexivity.
Qed.
Lemma generic_region_rows gs ids vs i : filter (fun l => Nat.eqb (l_con l) i) (generic_region_lhs gs ids vs) = generic_region_lhs gs (own_rows i ids) vs.
Proof.
  unfold generic_region_lhs, own_rows. rewrite filter_map_comm, <- merge_filter_right. f_equal. apply filter_ext. intros [[g v] r]. reflexivity.
Qed.
Lemma generic_inter_rows gs ids vs i : filter (fun l => Nat.eqb (l_con l) i) (generic_inter_lhs gs ids vs) = generic_inter_lhs gs (own_rows i ids) vs.
Proof.
  unfold generic_inter_lhs, own_rows. rewrite filter_map_comm, <- merge_filter_right. f_equal. apply filter_ext. intros [[g v] r]. reflexivity.
Qed.

Definition named_rows (m : market) : list crow := rows_or_nil (dget "generic" (m_rhs m)) ++ rows_or_nil (dget "fcas" (m_mrhs m)).
Definition generic_rows (m : market) (ids : list crow) : list lrow :=
  match m_gen_unit m, m_unit_bids m with Some gs, Some vs => generic_unit_lhs gs ids vs | _, _ => [] end
  ++ match m_gen_region m, m_reg_bids m with Some gs, Some vs => generic_region_lhs gs ids vs | _, _ => [] end
  ++ match m_gen_inter m, m_inter m with Some gs, Some vs => generic_inter_lhs gs ids vs | _, _ => [] end.

Lemma merge_nil_right {A B} (on : A -> B -> bool) l : merge on l [] = [].
Proof. unfold merge. induction l; cbn; auto. Qed.

Lemma generic_lhs_rows m : generic_lhs m = generic_rows m (named_rows m).
Proof.
  unfold generic_lhs, generic_ids, generic_rows, named_rows.
  destruct (dget "generic" (m_rhs m)), (dget "fcas" (m_mrhs m)); try reflexivity. cbn [rows_or_nil app].
  destruct (m_gen_unit m), (m_unit_bids m), (m_gen_region m), (m_reg_bids m), (m_gen_inter m), (m_inter m);
    unfold generic_unit_lhs, generic_region_lhs, generic_inter_lhs; rewrite ?merge_nil_right; reflexivity.
Qed.

Lemma generic_own_rows m i : filter (fun l => Nat.eqb (l_con l) i) (generic_lhs m) = generic_rows m (own_rows i (named_rows m)).
Proof.
  rewrite generic_lhs_rows. unfold generic_rows.
  destruct (m_gen_unit m), (m_unit_bids m), (m_gen_region m), (m_reg_bids m), (m_gen_inter m), (m_inter m);
    rewrite ?filter_app, ?generic_unit_rows, ?generic_region_rows, ?generic_inter_rows; reflexivity.
Qed.

Lemma unit_lhs_app a b vs : unit_lhs (a ++ b) vs = unit_lhs a vs ++ unit_lhs b vs.
Proof. unfold unit_lhs, merge. now rewrite flat_map_app, map_app. Qed.
Lemma unit_lhs_id cs vs l : In l (unit_lhs cs vs) -> exists c, In c cs /\ l_con l = uc_con c.
Proof.
  unfold unit_lhs. intros H. apply in_map_iff in H. destruct H as [[c v] [<- H]]. apply in_merge in H.
  exists c. split; [tauto|reflexivity].
Qed.

Lemma named_own f n m keys i : own f n m -> foreign keys (f i) ->
  own_rows i (named_rows m) = own_rows i (rows_or_nil (dget "generic" (off keys (m_rhs m))) ++ rows_or_nil (dget "fcas" (off keys (m_mrhs m)))).
Proof.
  intros O F. unfold named_rows, own_rows. rewrite !filter_app. f_equal.
  - destruct (in_dec string_dec "generic" keys) as [K|K]; [|now rewrite (off_dget keys _ _ K)].
    assert (Z : dget "generic" (off keys (m_rhs m)) = None).
    { destruct (dget "generic" (off keys (m_rhs m))) eqn:E; [|reflexivity]. apply PandasFacts.dget_in, off_in in E. tauto. }
    rewrite Z. cbn [rows_or_nil filter]. apply filter_none. intros r Hr. apply Nat.eqb_neq. intros E.
    destruct (dget "generic" (m_rhs m)) as [l|] eqn:D; [|destruct Hr]. apply PandasFacts.dget_in in D.
    destruct (ow_rhs _ _ _ O _ _ r D Hr) as [E2 _]. rewrite E in E2. apply (proj1 (F _ K)). exact E2.
  - destruct (in_dec string_dec "fcas" keys) as [K|K]; [|now rewrite (off_dget keys _ _ K)].
    assert (Z : dget "fcas" (off keys (m_mrhs m)) = None).
    { destruct (dget "fcas" (off keys (m_mrhs m))) eqn:E; [|reflexivity]. apply PandasFacts.dget_in, off_in in E. tauto. }
    rewrite Z. cbn [rows_or_nil filter]. apply filter_none. intros r Hr. apply Nat.eqb_neq. intros E.
    destruct (dget "fcas" (m_mrhs m)) as [l|] eqn:D; [|destruct Hr]. apply PandasFacts.dget_in in D.
    destruct (ow_mrhs _ _ _ O _ _ r D Hr) as [E2 _]. rewrite E in E2. apply (proj2 (F _ K)). exact E2.
Qed.

Lemma unit_own f n m keys vs i : own f n m -> foreign keys (f i) ->
  filter (fun l => Nat.eqb (l_con l) i) (unit_lhs (dconcat (m_c2v_unit m)) vs)
  = filter (fun l => Nat.eqb (l_con l) i) (unit_lhs (dconcat (off keys (m_c2v_unit m))) vs).
Proof.
  intros O F. apply (off_concat keys (fun cs => unit_lhs cs vs)); [intros; apply unit_lhs_app|reflexivity|].
  intros k l K Hl. apply filter_none. intros r Hr. apply unit_lhs_id in Hr. destruct Hr as [cr [Hc ->]]. apply Nat.eqb_neq. intros E.
  destruct (ow_unit _ _ _ O k l cr Hl Hc) as [E2 _]. rewrite E in E2. apply (proj1 (F _ K)). exact E2.
Qed.
Lemma reg_own f n m keys vs i : own f n m -> foreign keys (f i) ->
  filter (fun l => Nat.eqb (l_con l) i) (regional_lhs (dconcat (m_c2v_reg m)) vs)
  = filter (fun l => Nat.eqb (l_con l) i) (regional_lhs (dconcat (off keys (m_c2v_reg m))) vs).
Proof.
  intros O F. apply (off_concat keys (fun cs => regional_lhs cs vs)); [intros; apply regional_lhs_app|reflexivity|].
  intros k l K Hl. apply filter_none. intros r Hr. apply regional_lhs_id in Hr. destruct Hr as [cr [Hc ->]]. apply Nat.eqb_neq. intros E.
  destruct (ow_reg _ _ _ O k l cr Hl Hc) as [E2 _]. rewrite E in E2. apply (proj2 (F _ K)). exact E2.
Qed.

Lemma foreign_lhs keys m m2 f n f2 n2 i : own f n m -> own f2 n2 m2 -> only_groups keys m m2 -> foreign keys (f i) -> foreign keys (f2 i) ->
  filter (fun l => Nat.eqb (l_con l) i) (all_lhs m2) = filter (fun l => Nat.eqb (l_con l) i) (all_lhs m).
Proof.
  intros O O2 [] F F2. unfold all_lhs. rewrite !filter_app. rewrite og_lhs0. f_equal.
  rewrite !generic_own_rows. rewrite (named_own f n m keys i O F), (named_own f2 n2 m2 keys i O2 F2), og_rhs0, og_mrhs0.
  unfold generic_rows. rewrite og_gu0, og_gr0, og_gi0, og_ub0, og_rb0, og_inter0. f_equal.
  rewrite og_rv0. rewrite (reg_own f n m keys _ i O F), (reg_own f2 n2 m2 keys _ i O2 F2), og_cr0. f_equal.
  rewrite (unit_own f n m keys _ i O F), (unit_own f2 n2 m2 keys _ i O2 F2), og_cu0. reflexivity.
Qed.

(** ** Right-hand sides of other groups *)

Definition of_keys (keys : list string) (m : market) (i : nat) : Prop :=
  exists k g row, In k keys /\ (dget k (m_rhs m) = Some g \/ dget k (m_mrhs m) = Some g) /\ In row g /\ i = cr_id row.

Lemma row_cases keys f n m r : own f n m -> In r (all_rhs m) -> of_keys keys m (r_id r) \/
  (foreign keys (f (r_id r)) /\ In r (static_rrows (dconcat (off keys (m_rhs m))) ++ static_rrows (dconcat (off keys (m_mrhs m))) ++ dyn_rrows (rows_or_nil (m_dyn m)))).
Proof.
  intros O H. unfold all_rhs in H. rewrite !in_app_iff in H. destruct H as [H|[H|H]].
  - unfold static_rrows in H. apply in_map_iff in H. destruct H as [row [<- H]]. apply in_dconcat in H. destruct H as [k [l [Hk Hl]]].
    destruct (in_dec string_dec k keys) as [K|K].
    + left. exists k, l, row. split; [exact K|]. split; [left; apply in_dget; [apply (ow_keys _ _ _ O)|exact Hk]|]. split; [exact Hl|reflexivity].
    + right. split.
      * cbn [r_id]. destruct (ow_rhs _ _ _ O k l row Hk Hl) as [E _]. intros k' K'. rewrite E. split; [intros [= ->]; contradiction|discriminate].
      * apply in_app_iff. left. unfold static_rrows. apply in_map_iff. exists row. split; [reflexivity|]. apply in_dconcat. exists k, l. split; [now apply off_in|exact Hl].
  - unfold static_rrows in H. apply in_map_iff in H. destruct H as [row [<- H]]. apply in_dconcat in H. destruct H as [k [l [Hk Hl]]].
    destruct (in_dec string_dec k keys) as [K|K].
    + left. exists k, l, row. split; [exact K|]. split; [right; apply in_dget; [apply (ow_keys _ _ _ O)|exact Hk]|]. split; [exact Hl|reflexivity].
    + right. split.
      * cbn [r_id]. destruct (ow_mrhs _ _ _ O k l row Hk Hl) as [E _]. intros k' K'. rewrite E. split; [discriminate|intros [= ->]; contradiction].
      * apply in_app_iff. right. apply in_app_iff. left. unfold static_rrows. apply in_map_iff. exists row. split; [reflexivity|]. apply in_dconcat. exists k, l. split; [now apply off_in|exact Hl].
  - right. split.
    + unfold dyn_rrows in H. apply in_map_iff in H. destruct H as [d [<- H]]. destruct (ow_dyn _ _ _ O d H) as [E _]. cbn [r_id].
      intros k' K'. rewrite E. split; discriminate.
    + apply in_app_iff. right. apply in_app_iff. now right.
Qed.

Lemma off_rows keys m r :
  In r (static_rrows (dconcat (off keys (m_rhs m))) ++ static_rrows (dconcat (off keys (m_mrhs m))) ++ dyn_rrows (rows_or_nil (m_dyn m))) -> In r (all_rhs m).
Proof.
  assert (K : forall d, In r (static_rrows (dconcat (off keys d))) -> In r (static_rrows (dconcat d))).
  { intros d H. unfold static_rrows in *. apply in_map_iff in H. destruct H as [row [<- H]]. apply in_map_iff. exists row. split; [reflexivity|].
    apply in_dconcat in H. destruct H as [k [l [Hk Hl]]]. apply off_in in Hk. apply in_dconcat. exists k, l. tauto. }
  unfold all_rhs. rewrite !in_app_iff. intros [H|[H|H]]; auto.
Qed.

Definition off_rhs (keys : list string) (m : market) : list rrow :=
  static_rrows (dconcat (off keys (m_rhs m))) ++ static_rrows (dconcat (off keys (m_mrhs m))) ++ dyn_rrows (rows_or_nil (m_dyn m)).

Lemma off_foreign keys f n m r : own f n m -> In r (off_rhs keys m) -> foreign keys (f (r_id r)).
Proof.
  intros O Y. unfold off_rhs in Y. rewrite !in_app_iff in Y. destruct Y as [Y|[Y|Y]].
  - unfold static_rrows in Y. apply in_map_iff in Y. destruct Y as [row [<- Y]]. apply in_dconcat in Y. destruct Y as [k [l [Hk Hl]]]. apply off_in in Hk. destruct Hk as [Hk K].
    destruct (ow_rhs _ _ _ O k l row Hk Hl) as [E _]. cbn. intros k' K'. rewrite E. split; [intros [= ->]; contradiction|discriminate].
  - unfold static_rrows in Y. apply in_map_iff in Y. destruct Y as [row [<- Y]]. apply in_dconcat in Y. destruct Y as [k [l [Hk Hl]]]. apply off_in in Hk. destruct Hk as [Hk K].
    destruct (ow_mrhs _ _ _ O k l row Hk Hl) as [E _]. cbn. intros k' K'. rewrite E. split; [discriminate|intros [= ->]; contradiction].
  - unfold dyn_rrows in Y. apply in_map_iff in Y. destruct Y as [d [<- Y]]. destruct (ow_dyn _ _ _ O d Y) as [E _]. cbn. intros k' K'. rewrite E. split; discriminate.
Qed.

Lemma foreign_not_of keys f n m i : own f n m -> foreign keys (f i) -> ~ of_keys keys m i.
Proof.
  intros O FF [k [g [row [K [D [Hg E]]]]]]. rewrite E in FF. destruct D as [D|D]; apply PandasFacts.dget_in in D.
  - destruct (ow_rhs _ _ _ O k g row D Hg) as [E2 _]. rewrite E2 in FF. now apply (proj1 (FF k K)).
  - destruct (ow_mrhs _ _ _ O k g row D Hg) as [E2 _]. rewrite E2 in FF. now apply (proj2 (FF k K)).
Qed.

Lemma only_groups_sym keys m m2 : only_groups keys m m2 -> only_groups keys m2 m.
Proof. intros []. constructor; congruence. Qed.

(** A row is of one of the groups, or in both markets, with the same left-hand side. *)
Lemma shared_row keys m m2 r : owned m -> owned m2 -> only_groups keys m m2 -> In r (all_rhs m) -> of_keys keys m (r_id r) \/
  (In r (all_rhs m2) /\ ~ of_keys keys m (r_id r) /\ ~ of_keys keys m2 (r_id r)
   /\ filter (fun l => Nat.eqb (l_con l) (r_id r)) (all_lhs m2) = filter (fun l => Nat.eqb (l_con l) (r_id r)) (all_lhs m)).
Proof.
  intros [W [f [n O]]] [W2 [f2 [n2 O2]]] G Hr. destruct (row_cases keys f n m r O Hr) as [X|[F X]]; [now left|right].
  fold (off_rhs keys m) in X. assert (Y : In r (off_rhs keys m2)).
  { unfold off_rhs in *. now rewrite (og_rhs _ _ _ G), (og_mrhs _ _ _ G), (og_dyn _ _ _ G). }
  pose proof (off_foreign keys f2 n2 m2 r O2 Y) as F2. split; [now apply (off_rows keys)|].
  split; [exact (foreign_not_of keys f n m _ O F)|]. split; [exact (foreign_not_of keys f2 n2 m2 _ O2 F2)|].
  exact (foreign_lhs keys m m2 f n f2 n2 (r_id r) O O2 G F F2).
Qed.

Lemma shared_con keys m m2 p p2 y con : owned m -> owned m2 -> only_groups keys m m2 -> assemble m = Ok p -> assemble m2 = Ok p2 ->
  In con (p_cons p) -> of_keys keys m (pc_id con) \/
  (exists con2, In con2 (p_cons p2) /\ pc_id con2 = pc_id con /\ ~ of_keys keys m (pc_id con) /\ ~ of_keys keys m2 (pc_id con) /\ (con_holds y con2 -> con_holds y con)).
Proof.
  intros O O2 G A A2 Hc. destruct (con_present m p con (proj1 O) A Hc) as [r [Hr [Er [l [Hl El]]]]].
  destruct (shared_row keys m m2 r O O2 G Hr) as [X|[H2 [N [N2 E]]]]; rewrite Er in *; [now left|right].
  assert (Y : In l (all_lhs m2)).
  { assert (Z : In l (filter (fun l => Nat.eqb (l_con l) (pc_id con)) (all_lhs m))) by (apply filter_In; split; [exact Hl|now apply Nat.eqb_eq]).
    rewrite <- E in Z. apply filter_In in Z. tauto. }
  destruct (ElasticTheoremFacts.lhs_con m2 p2 l A2 Y (ex_intro _ r H2)) as [con2 [Hc2 E2]]. rewrite El in E2.
  exists con2. split; [exact Hc2|]. split; [exact E2|]. split; [exact N|]. split; [exact N2|]. intros H.
  apply (con_row m2 p2 y con2 r (proj1 O2) A2 Hc2 H2) in H; [|congruence].
  apply (con_row m p y con r (proj1 O) A Hc Hr (eq_sym Er)). rewrite Er in *.
  assert (V : row_value (all_lhs m2) y (pc_id con) = row_value (all_lhs m) y (pc_id con)) by (unfold row_value; now rewrite E).
  now rewrite V in H.
Qed.

(** ** The problem after the call *)

Section Call.
  Variables (c : config) (o : op) (m m2 : market) (p p2 : problem).
  Hypothesis H_reached : reached c m.
  Hypothesis H_planned : same_method o o.
  Hypothesis H_sane : sane_op o m.
  Hypothesis H_hard : cost_arg o = None.
  Hypothesis H_step : step o m = (m2, None).
  Hypothesis H_assemble : assemble m = Ok p.
  Hypothesis H_assemble2 : assemble m2 = Ok p2.

  Lemma call_owned : owned m /\ owned m2 /\ only_groups (touches o) m m2.
  Proof.
    destruct (reached_owned c m H_reached) as [O _].
    assert (R2 : reached c m2). { pose proof (reached_next c m o H_reached H_sane) as X. now rewrite H_step in X. }
    destruct (reached_owned c m2 R2) as [O2 _]. split; [exact O|]. split; [exact O2|]. exact (call_only o m m2 H_planned H_sane H_hard H_step).
  Qed.

  Lemma set_by_of mm con : set_by o mm con <-> of_keys (touches o) mm (pc_id con).
  Proof.
    clear. unfold set_by, of_keys. split.
    - intros [k [g [r [K [D [Hr E]]]]]]. exists k, g, r. auto.
    - intros [k [g [r [K [D [Hr E]]]]]]. exists k, g, r. auto.
  Qed.

  Lemma same_rest : p_vars p2 = p_vars p /\ p_obj p2 = p_obj p /\ p_sos2 p2 = p_sos2 p /\ p_sos1 p2 = p_sos1 p.
  Proof.
    destruct call_owned as [_ [_ G]]. apply assemble_parts in H_assemble. apply assemble_parts in H_assemble2.
    destruct H_assemble as [A1 [A2 [A3 [A4 _]]]], H_assemble2 as [B1 [B2 [B3 [B4 _]]]].
    rewrite A1, A2, A3, A4, B1, B2, B3, B4, (og_vars _ _ _ G), (og_costs _ _ _ G), (og_weights _ _ _ G), (og_inter _ _ _ G). auto.
  Qed.

  Lemma call_feasible y : feasible p2 y <-> boxed p y /\ sets_hold p y
    /\ (forall con, In con (p_cons p) -> ~ set_by o m con -> con_holds y con)
    /\ (forall con, In con (p_cons p2) -> set_by o m2 con -> con_holds y con).
  Proof.
    destruct call_owned as [O [O2 G]]. destruct same_rest as [E1 [E2 [E3 E4]]]. unfold feasible, boxed, sets_hold. rewrite E1, E3, E4. split.
    - intros [F1 [F2 [F3 F4]]]. split; [exact F1|]. split; [auto|]. split; [|auto]. intros con Hc N. rewrite set_by_of in N.
      destruct (shared_con (touches o) m m2 p p2 y con O O2 G H_assemble H_assemble2 Hc) as [X|[con2 [Hc2 [_ [_ [_ K]]]]]]; [contradiction|]. auto.
    - intros [F1 [[F3 F4] [F2 F5]]]. split; [exact F1|]. split; [|auto]. intros con Hc.
      destruct (shared_con (touches o) m2 m p2 p y con O2 O (only_groups_sym _ _ _ G) H_assemble2 H_assemble Hc) as [X|[con2 [Hc2 [Ei [_ [N K]]]]]].
      + apply F5; [exact Hc|]. now apply set_by_of.
      + apply K, F2; [exact Hc2|]. rewrite set_by_of, Ei. exact N.
  Qed.

  Lemma new_not_set con : all_new o m -> ~ set_by o m con.
  Proof. clear. intros N [k [g [r [K [[D|D] _]]]]]; destruct (N k K) as [A B]; congruence. Qed.

  Lemma call_narrows y : all_new o m -> feasible p2 y -> feasible p y.
  Proof.
    intros N F. apply call_feasible in F. destruct F as [F1 [[F2 F3] [F4 _]]]. unfold feasible. split; [exact F1|]. split; [|auto].
    intros con Hc. apply F4; [exact Hc|]. now apply new_not_set.
  Qed.

  Lemma call_objective y : objective p2 y = objective p y.
  Proof. destruct same_rest as [_ [E _]]. unfold objective. now rewrite E. Qed.

  Lemma call_never_cheaper x y : all_new o m -> optimal p x -> optimal p2 y -> objective p x <= objective p2 y.
  Proof. intros N [_ X] [Y _]. rewrite call_objective. apply X. now apply call_narrows. Qed.

  Lemma call_keeps_optimum x : all_new o m -> optimal p x -> (forall con, In con (p_cons p2) -> set_by o m2 con -> con_holds x con) -> optimal p2 x.
  Proof.
    intros N [X1 X2] H. split.
    - apply call_feasible. destruct X1 as [F1 [F2 [F3 F4]]]. split; [exact F1|]. split; [now split|]. split; auto.
    - intros y Y. rewrite !call_objective. apply X2. now apply call_narrows.
  Qed.
End Call.

(** ** What dispatch records *)

Lemma recorded_never_cheaper c o m m2 s s2 a a2 old old2 new new2 :
  reached c m -> same_method o o -> sane_op o m -> cost_arg o = None -> all_new o m -> step o m = (m2, None) ->
  sound s -> dispatch_market s a m old = (new, None) -> sound s2 -> dispatch_market s2 a2 m2 old2 = (new2, None) ->
  exists p p2 x x2, assemble m = Ok p /\ assemble m2 = Ok p2 /\ d_value new = Some x /\ d_value new2 = Some x2
    /\ p_obj p2 = p_obj p /\ objective p x <= objective p2 x2.
Proof.
  intros R P Sn C N H S D S2 D2.
  assert (R2 : reached c m2). { pose proof (reached_next c m o R Sn) as X. now rewrite H in X. }
  destruct (dispatch_records c s a m old new R S D) as [p [x [_ [_ [_ [A [O [V _]]]]]]]].
  destruct (dispatch_records c s2 a2 m2 old2 new2 R2 S2 D2) as [p2 [x2 [_ [_ [_ [A2 [O2 [V2 _]]]]]]]].
  exists p, p2, x, x2. repeat (split; [assumption|]). split; [apply (same_rest c o m m2 p p2 R P Sn C H A A2)|].
  exact (call_never_cheaper c o m m2 p p2 R P Sn C H A A2 x x2 N O O2).
Qed.
