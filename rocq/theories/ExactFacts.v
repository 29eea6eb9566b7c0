(** What the calls of a history mean for dispatch, row by row. *)

From Coq Require Import QArith Qminmax Lqa String List Bool Arith Lia ZArith Permutation.
Import ListNotations.
From Verif Require Import PandasModel TablesModel VariableIdsModel MarketConstraintsModel
  UnitConstraintsModel RampModel FcasModel InterModel ElasticModel MarketModel SolverModel
  SpecLp SpecHistory SpecDispatch SpecRamp SpecFastStart SpecElastic SpecNetwork SpecTrap SpecOrder SpecExact
  PandasFacts StepFacts InvariantFacts OwnerFacts SolverFacts MeaningFacts LimitFacts CompositeFacts RampFacts TableFacts
  BidFacts TrapFacts JointRampFacts BalanceFacts GenericFacts PlanFacts BookFacts.
Open Scope string_scope.
Open Scope list_scope.

(** A row of the right-hand sides holds if it has a left-hand side. *)
Definition has_lhs (m : market) (r : crow) : Prop := exists l, In l (all_lhs m) /\ l_con l = cr_id r.
Definition row_ok (m : market) (x : assignment) (r : crow) : Prop :=
  has_lhs m r -> relation (cr_type r) (row_value (all_lhs m) x (cr_id r)) (cr_rhs r).
Definition rows_ok (m : market) (x : assignment) (rows : list crow) : Prop := forall r, In r rows -> row_ok m x r.

Lemma uv_offers m v : wf m -> In v (rows_or_nil (m_unit_bids m)) ->
  registered (m_cfg m) (uv_unit v) (uv_dt v) /\ offers m (uv_unit v) (uv_service v) (uv_dt v).
Proof.
  intros W H. split; [now apply uv_registered|]. destruct (bids_tables m W) as [vs [E1 [_ E]]]. rewrite E in H.
  unfold bid_unit_map in H. apply in_map_iff in H. destruct H as [[b u] [<- H]]. apply in_merge in H. destruct H as [H _].
  exists b. rewrite E1. cbn. auto.
Qed.

Lemma relation_iff ty a b r r' : a == b -> r == r' -> (relation ty a r <-> relation ty b r').
Proof. intros E F. unfold relation. now rewrite E, F. Qed.

(** A group without violation variables, and one that stands without them. *)
Definition quiet (m : market) (k : string) : Prop := dget (deficit_key k) (m_lhs m) = None.
Definition hard_unit (m : market) (k : string) : Prop := In k unit_keys /\ quiet m k.
Definition hard_regional (m : market) (k : string) : Prop := In k regional_keys /\ quiet m k.
Definition firm (m : market) (w : write) : Prop := standing m w /\ quiet m (wkey w).

(** The left-hand sides that are stored as such belong to other groups. *)
Lemma quiet_lhs m f n k l : own f n m -> quiet m k -> k <> "tie_break" -> k <> "interpolation_weights" ->
  (f (l_con l) = GRhs k \/ f (l_con l) = GMkt k) -> ~ In l (dconcat (m_lhs m)).
Proof.
  intros O Q N1 N2 F H. apply in_dconcat in H. destruct H as [key [ls [H1 H2]]].
  destruct (ow_lhs _ _ _ O _ _ _ H1 H2) as [Ow _]. destruct Ow as [[k2 [E1 E2]]|[[E1 E2]|[E1 E2]]].
  - assert (k2 = k) by (destruct E2 as [E2|E2], F as [F|F]; congruence). subst k2 key.
    apply in_dget in H1; [|apply (ow_keys _ _ _ O)]. unfold quiet in Q. congruence.
  - destruct F as [F|F]; congruence.
  - destruct E2 as [E2|E2], F as [F|F]; congruence.
Qed.

Section Exact.
Variable c : config.
Variable ops : list op.
Variable m : market.
Variable x : assignment.
Hypothesis HO : owned m.
Hypothesis HC : m_cfg m = c.
Hypothesis HU : unit_map_keys m.
Hypothesis HE : energy_only m.
Hypothesis HN : forall u s d, 0 <= dispatch m x u s d.

Lemma no_silent k rows : quiet m k -> silent k rows m x.
Proof. unfold silent. intros ->. cbn. intros l r []. Qed.

Lemma unit_row_has k rows cs r l : hard_unit m k -> dget k (m_rhs m) = Some rows -> dget k (m_c2v_unit m) = Some cs ->
  In r rows -> In l (all_lhs m) -> l_con l = cr_id r ->
  exists a, In a (at_con (cr_id r) cs) /\ registered (m_cfg m) (uc_unit a) (uc_dt a) /\ offers m (uc_unit a) (uc_service a) (uc_dt a).
Proof.
  clear HE HN. intros Hk G1 G2 Hr Hl El. destruct HO as [W [f [n O]]]. destruct Hk as [Hk Qk]. pose proof (unit_key_ok k Hk) as [K1 [K2 K3]].
  assert (Fr : f (cr_id r) = GRhs k) by (apply dget_in in G1; apply (ow_rhs _ _ _ O _ _ _ G1 Hr)).
  unfold all_lhs in Hl. apply in_app_or in Hl. destruct Hl as [Hl|Hl].
  { exfalso. apply (quiet_lhs m f n k l O Qk K1 K2); [left; congruence|exact Hl]. }
  apply in_app_or in Hl. destruct Hl as [Hl|Hl].
  { apply (own_generic f n) in Hl; auto. rewrite El, Fr in Hl. destruct Hl as [Hl|Hl]; inversion Hl. congruence. }
  apply in_app_or in Hl. destruct Hl as [Hl|Hl].
  { apply in_regional_lhs in Hl. destruct Hl as [a [v [H1 [_ [_ [_ ->]]]]]]. cbn in El. apply in_dconcat in H1.
    destruct H1 as [k' [cs' [H1 H2]]]. destruct (ow_reg _ _ _ O _ _ _ H1 H2). congruence. }
  apply in_unit_lhs in Hl. destruct Hl as [a [v [H1 [Hv [E1 [E2 [E3 ->]]]]]]]. cbn in El. apply in_dconcat in H1.
  destruct H1 as [k' [cs' [H1 H2]]]. destruct (ow_unit _ _ _ O _ _ _ H1 H2) as [E _]. rewrite El, Fr in E.
  inversion E; subst k'. apply in_dget in H1; [|apply (ow_keys _ _ _ O)]. rewrite G2 in H1. inversion H1; subst cs'.
  exists a. split; [unfold at_con; apply filter_In; split; [exact H2|now apply Nat.eqb_eq]|].
  rewrite E1, E2, E3. now apply uv_offers.
Qed.

(** A row about one side of a unit. *)
Lemma side_row k rows cs r l u d : hard_unit m k -> dget k (m_rhs m) = Some rows -> dget k (m_c2v_unit m) = Some cs ->
  In r rows -> at_con (cr_id r) cs = l -> Forall (fun a => uc_unit a = u /\ uc_dt a = d) l ->
  (row_ok m x r <->
   (listed_offer m u d (map uc_service l) ->
    relation (cr_type r) (sumQ (fun a => uc_coef a * (load_sign m u (uc_service a) d * dispatch m x u (uc_service a) d)) l) (cr_rhs r))).
Proof.
  clear HE HN. intros Hk G1 G2 Hr E F. rewrite Forall_forall in F.
  assert (V : registered (m_cfg m) u d -> row_value (all_lhs m) x (cr_id r)
     == sumQ (fun a => uc_coef a * (load_sign m u (uc_service a) d * dispatch m x u (uc_service a) d)) l).
  { intros R. rewrite (unit_row_value m k rows cs r x HO (proj1 Hk) (conj G1 (conj G2 (no_silent _ _ (proj2 Hk)))) Hr).
    unfold unit_value. fold (at_con (cr_id r) cs). rewrite E. apply sumQ_ext_in. intros a Ha.
    destruct (F a Ha) as [-> ->]. rewrite unit_term_dispatch; [reflexivity|apply HO|exact R]. }
  split.
  - intros H [R [s [Hs Of]]]. eapply relation_iff; [symmetry; apply (V R)|reflexivity|]. apply H.
    apply in_map_iff in Hs. destruct Hs as [a [<- Ha]]. destruct (F a Ha) as [Eu Ed].
    destruct (offers_uv m _ _ _ (proj1 HO) R Of) as [v [Hv [V1 [V2 V3]]]].
    rewrite <- E in Ha. unfold at_con in Ha. apply filter_In in Ha. destruct Ha as [Ha Ei]. apply Nat.eqb_eq in Ei.
    eapply unit_row_lhs; eauto; congruence.
  - intros H [lr [Hlr El]]. destruct (unit_row_has k rows cs r lr Hk G1 G2 Hr Hlr El) as [a [Ha [R Of]]].
    rewrite E in Ha. destruct (F a Ha) as [Eu Ed]. rewrite Eu, Ed in *.
    eapply relation_iff; [apply (V R)|reflexivity|]. apply H. split; [exact R|]. exists (uc_service a). split; [now apply in_map|exact Of].
Qed.

(** ** Single rows *)

Lemma create_rows l n d r : In r (create_constraints_rhs l n d) <->
  exists u, In (cr_id r, u) (save_index n l) /\ r = CRow (cr_id r) d (ul_rhs u) (KUnit (ul_unit u) (ul_service u) (ul_dt u)).
Proof.
  unfold create_constraints_rhs. rewrite in_map_iff. split.
  - intros [[i u] [<- H]]. exists u. auto.
  - intros [u [H E]]. exists (cr_id r, u). auto.
Qed.

Lemma create_at l n i u : In (i, u) (save_index n l) ->
  at_con i (create_constraints_map l n) = [UC i (ul_unit u) (ul_service u) (ul_dt u) 1].
Proof.
  intros H. unfold create_constraints_map.
  exact (rows_at (fun p : nat * ulimit => let '(i, u) := p in UC i (ul_unit u) (ul_service u) (ul_dt u) 1) n l i u ltac:(now intros [? ?]) H).
Qed.

(** Groups of one limit per row. *)
Lemma limits_exact k ty l n coef : hard_unit m k ->
  dget k (m_rhs m) = Some (create_constraints_rhs l n ty) ->
  dget k (m_c2v_unit m) = Some (map (fun a => UC (uc_con a) (uc_unit a) (uc_service a) (uc_dt a) (coef a)) (create_constraints_map l n)) ->
  (forall a b, uc_unit a = uc_unit b -> uc_dt a = uc_dt b -> coef a = coef b) ->
  (rows_ok m x (create_constraints_rhs l n ty) <->
   forall u, In u l -> listed_offer m (ul_unit u) (ul_dt u) [ul_service u] ->
     relation ty (coef (UC 0 (ul_unit u) (ul_service u) (ul_dt u) 1)
        * (load_sign m (ul_unit u) (ul_service u) (ul_dt u) * dispatch m x (ul_unit u) (ul_service u) (ul_dt u))) (ul_rhs u)).
Proof.
  clear HE HN. intros Hk G1 G2 Co.
  assert (P : forall i u, In (i, u) (save_index n l) ->
    (row_ok m x (CRow i ty (ul_rhs u) (KUnit (ul_unit u) (ul_service u) (ul_dt u))) <->
     (listed_offer m (ul_unit u) (ul_dt u) [ul_service u] ->
     relation ty (coef (UC 0 (ul_unit u) (ul_service u) (ul_dt u) 1)
        * (load_sign m (ul_unit u) (ul_service u) (ul_dt u) * dispatch m x (ul_unit u) (ul_service u) (ul_dt u))) (ul_rhs u)))).
  { intros i u H. set (r := CRow i ty (ul_rhs u) (KUnit (ul_unit u) (ul_service u) (ul_dt u))).
    set (a := UC i (ul_unit u) (ul_service u) (ul_dt u) 1).
    set (a' := UC i (ul_unit u) (ul_service u) (ul_dt u) (coef a)).
    assert (Hr : In r (create_constraints_rhs l n ty)) by (apply create_rows; exists u; auto).
    assert (E : at_con (cr_id r) (map (fun a => UC (uc_con a) (uc_unit a) (uc_service a) (uc_dt a) (coef a)) (create_constraints_map l n)) = [a']).
    { unfold at_con. rewrite LimitFacts.filter_map_comm. cbn [uc_con cr_id r].
      change (filter (fun a0 => Nat.eqb (uc_con a0) i) (create_constraints_map l n)) with (at_con i (create_constraints_map l n)).
      rewrite (create_at l n i u H). reflexivity. }
    rewrite (side_row k _ _ r [a'] (ul_unit u) (ul_dt u) Hk G1 G2 Hr E) by (repeat constructor).
    cbn [map uc_service a' cr_type cr_rhs r].
    assert (Eq : sumQ (fun b => uc_coef b * (load_sign m (ul_unit u) (uc_service b) (ul_dt u) * dispatch m x (ul_unit u) (uc_service b) (ul_dt u))) [a']
      == coef (UC 0 (ul_unit u) (ul_service u) (ul_dt u) 1)
        * (load_sign m (ul_unit u) (ul_service u) (ul_dt u) * dispatch m x (ul_unit u) (ul_service u) (ul_dt u))).
    { rewrite sumQ_cons, sumQ_nil. cbn [uc_coef uc_service a']. rewrite (Co (UC 0 _ _ _ _) a) by reflexivity. ring. }
    split; intros Q Lo; (eapply relation_iff; [|reflexivity|exact (Q Lo)]); [symmetry|]; exact Eq. }
  split.
  - intros H u Hu. destruct (save_index_in n l u Hu) as [i Hi]. apply (P i u Hi). apply H. apply create_rows. exists u. auto.
  - intros H r Hr. apply create_rows in Hr. destruct Hr as [u [Hi ->]]. apply (P _ u Hi). apply H. now apply in_save_index in Hi.
Qed.

Lemma map_same l n : map (fun a => UC (uc_con a) (uc_unit a) (uc_service a) (uc_dt a) 1) (create_constraints_map l n) = create_constraints_map l n.
Proof. unfold create_constraints_map. rewrite map_map. apply map_ext. now intros [i u]. Qed.

(** The same with factor one, for limits whose sign is positive. *)
Lemma plain_exact k ty l n : hard_unit m k ->
  dget k (m_rhs m) = Some (create_constraints_rhs l n ty) -> dget k (m_c2v_unit m) = Some (create_constraints_map l n) ->
  (forall u, In u l -> load_sign m (ul_unit u) (ul_service u) (ul_dt u) = 1) ->
  (rows_ok m x (create_constraints_rhs l n ty) <->
   forall u, In u l -> listed_offer m (ul_unit u) (ul_dt u) [ul_service u] ->
     relation ty (dispatch m x (ul_unit u) (ul_service u) (ul_dt u)) (ul_rhs u)).
Proof.
  clear HE HN. intros Hk G1 G2 S. rewrite <- (map_same l n) in G2.
  rewrite (limits_exact k ty l n (fun _ => 1) Hk G1 G2) by reflexivity.
  split; intros H u Hu Lo; (eapply relation_iff; [|reflexivity|exact (H u Hu Lo)]); rewrite (S u Hu); ring.
Qed.

Lemma listed_one u d s : listed_offer m u d [s] <-> registered (m_cfg m) u d /\ offers m u s d.
Proof.
  unfold listed_offer. split; intros [R H]; (split; [exact R|]).
  - destruct H as [s' [[<-|[]] H]]. exact H.
  - exists s. split; [now left|exact H].
Qed.

Definition write_ok (w : write) : Prop :=
  match w with
  | WReg k _ _ => forall rows, dget k (m_mrhs m) = Some rows -> rows_ok m x rows
  | _ => forall rows, dget (wkey w) (m_rhs m) = Some rows -> rows_ok m x rows
  end.

Lemma unit_write k mr mm : firm m (WUnit k mr mm) -> exists n, hard_unit m k
  /\ dget k (m_rhs m) = Some (mr n) /\ dget k (m_c2v_unit m) = Some (mm n)
  /\ (write_ok (WUnit k mr mm) <-> rows_ok m x (mr n)).
Proof.
  clear HE HN HU. intros [[Hk [n [G1 G2]]] Qk]. exists n. split; [split; [exact Hk|exact Qk]|]. split; [exact G1|]. split; [exact G2|]. cbn [write_ok wkey]. split.
  - intros H. now apply H.
  - intros H rows E. rewrite G1 in E. now inversion E; subst.
Qed.

Lemma all_one {A} (P : A -> Prop) a : (forall w, In w [a] -> P w) <-> P a.
Proof. split; [intros H; apply H; now left|intros H w [<-|[]]; exact H]. Qed.

(** ** Calls *)

Lemma capacity_exact l : firm m (WUnit "unit_bid_capacity" (capacity_rhs l) (fun n => capacity_map l n (m_bdu m))) ->
  (write_ok (WUnit "unit_bid_capacity" (capacity_rhs l) (fun n => capacity_map l n (m_bdu m))) <-> obeys ops m x (OpCapacity l None)).
Proof.
  clear HE HN. intros S. destruct (unit_write _ _ _ S) as [n [Hk [G1 [G2 E]]]]. rewrite E. unfold capacity_rhs in *.
  rewrite (limits_exact _ _ _ n (fun a => if String.eqb (uc_dt a) "load" && mem_str (uc_unit a) (m_bdu m) then -(1) else 1) Hk G1 G2)
    by (intros a b -> ->; reflexivity).
  cbn [obeys uc_dt uc_unit].
  assert (Q : forall r : limit_row, (if String.eqb (li_dt r) "load" && mem_str (li_unit r) (m_bdu m) then -(1) else 1)
     * (load_sign m (li_unit r) "energy" (li_dt r) * dispatch m x (li_unit r) "energy" (li_dt r)) == dispatch m x (li_unit r) "energy" (li_dt r)).
  { intros r. unfold load_sign. change (String.eqb "energy" "energy") with true. rewrite andb_true_r.
    destruct (String.eqb (li_dt r) "load"), (mem_str (li_unit r) (m_bdu m)); cbn [andb]; ring. }
  split.
  - intros H r Hr Lo. specialize (H (ULimit (li_unit r) "energy" (li_dt r) (li_cap r))). cbn [ul_unit ul_service ul_dt ul_rhs] in H.
    rewrite <- Q. apply relation_le, H; [|exact Lo]. unfold capacity_limits. apply in_map_iff. exists r. auto.
  - intros H u Hu. unfold capacity_limits in Hu. apply in_map_iff in Hu. destruct Hu as [r [<- Hr]]. cbn [ul_unit ul_service ul_dt ul_rhs].
    intros Lo. apply relation_le. rewrite Q. now apply H.
Qed.

Lemma uigf_exact l : firm m (WUnit "uigf_capacity" (uigf_rhs l) (uigf_map l)) ->
  (write_ok (WUnit "uigf_capacity" (uigf_rhs l) (uigf_map l)) <-> obeys ops m x (OpUigf l None)).
Proof.
  clear HE HN. intros S. destruct (unit_write _ _ _ S) as [n [Hk [G1 [G2 E]]]]. rewrite E. unfold uigf_rhs, uigf_map in *.
  rewrite (plain_exact _ _ _ n Hk G1 G2).
  2:{ intros u Hu. apply in_map_iff in Hu. destruct Hu as [r [<- _]]. apply sign_gen. }
  cbn [obeys]. split.
  - intros H r Hr Lo. specialize (H (ULimit (ug_unit r) "energy" "generator" (ug_cap r))). cbn [ul_unit ul_service ul_dt ul_rhs] in H.
    apply relation_le, H; [|exact Lo]. unfold uigf_limits. apply in_map_iff. exists r. auto.
  - intros H u Hu. unfold uigf_limits in Hu. apply in_map_iff in Hu. destruct Hu as [r [<- Hr]]. cbn [ul_unit ul_service ul_dt ul_rhs].
    intros Lo. apply relation_le. now apply H.
Qed.

Lemma max_avail_exact l : (forall r, In r l -> ma_service r <> "energy") ->
  firm m (WUnit "fcas_max_availability" (max_avail_rhs l) (max_avail_map l)) ->
  (write_ok (WUnit "fcas_max_availability" (max_avail_rhs l) (max_avail_map l)) <-> obeys ops m x (OpMaxAvail l None)).
Proof.
  clear HE HN. intros NE S. destruct (unit_write _ _ _ S) as [n [Hk [G1 [G2 E]]]]. rewrite E. unfold max_avail_rhs, max_avail_map in *.
  rewrite (plain_exact _ _ _ n Hk G1 G2).
  2:{ intros u Hu. apply in_map_iff in Hu. destruct Hu as [r [<- Hr]]. cbn. apply sign_fcas. now apply NE. }
  cbn [obeys]. split.
  - intros H r Hr Lo. specialize (H (ULimit (ma_unit r) (ma_service r) (ma_dt r) (ma_max r))). cbn [ul_unit ul_service ul_dt ul_rhs] in H.
    apply relation_le, H; [|exact Lo]. unfold max_avail_limits. apply in_map_iff. exists r. auto.
  - intros H u Hu. unfold max_avail_limits in Hu. apply in_map_iff in Hu. destruct Hu as [r [<- Hr]]. cbn [ul_unit ul_service ul_dt ul_rhs].
    intros Lo. apply relation_le. now apply H.
Qed.

(** Rows with several terms: the relation in the reader's form. *)
Lemma side_rule k rows cs r l u d services ty a b : hard_unit m k -> dget k (m_rhs m) = Some rows -> dget k (m_c2v_unit m) = Some cs ->
  In r rows -> at_con (cr_id r) cs = l -> Forall (fun t => uc_unit t = u /\ uc_dt t = d) l ->
  map uc_service l = services -> cr_type r = ty ->
  sumQ (fun t => uc_coef t * (load_sign m u (uc_service t) d * dispatch m x u (uc_service t) d)) l == a -> cr_rhs r == b ->
  (row_ok m x r <-> (listed_offer m u d services -> relation ty a b)).
Proof.
  clear HE HN. intros Hk G1 G2 Hr E F S T V R. rewrite (side_row k rows cs r l u d Hk G1 G2 Hr E F), S, T.
  split; intros H Lo; (eapply relation_iff; [| |exact (H Lo)]); first [exact V|exact R|now symmetry].
Qed.

Lemma energy_reg_exact l : (forall t, In t l -> tz_service t <> "energy") ->
  (forall t, In t l -> load_sign m (tz_unit t) "energy" (tz_dt t) = 1) ->
  firm m (WUnit "energy_and_regulation_capacity" (trap_rhs l) (energy_reg_map l)) ->
  (write_ok (WUnit "energy_and_regulation_capacity" (trap_rhs l) (energy_reg_map l)) <-> obeys ops m x (OpEnergyReg l None)).
Proof.
  clear HE HN. intros NE LS S. destruct (unit_write _ _ _ S) as [n [Hk [G1 [G2 E]]]]. rewrite E. clear E. cbn [obeys].
  assert (U : forall i t, In (i, t) (save_index n l) ->
    (row_ok m x (CRow i "<=" (tz_emax t) (KUnit (tz_unit t) (tz_service t) (tz_dt t))) <->
     (listed_offer m (tz_unit t) (tz_dt t) ["energy"; tz_service t] ->
      relation "<=" (dispatch m x (tz_unit t) "energy" (tz_dt t) + (tz_emax t - tz_hbp t) / tz_max t * dispatch m x (tz_unit t) (tz_service t) (tz_dt t)) (tz_emax t)))).
  { intros i t Hi. pose proof (in_save_index _ _ _ Hi) as [Li Ht]. cbn [fst snd] in Ht, Li.
    eapply (side_rule _ _ _ _ _ _ _ _ _ _ _ Hk G1 G2); cbn [cr_id cr_type cr_rhs].
    - unfold trap_rhs. apply in_or_app. left. apply in_map_iff. exists (i, t). auto.
    - apply (energy_reg_upper l n i t Hi Li).
    - repeat constructor.
    - reflexivity.
    - reflexivity.
    - rewrite !sumQ_cons, sumQ_nil. cbn [uc_coef uc_service]. rewrite (LS t Ht), sign_fcas by auto. unfold upper_slope. ring.
    - reflexivity. }
  assert (D : forall i t, In (i, t) (save_index (n + length l) l) ->
    (row_ok m x (CRow i ">=" (tz_emin t) (KUnit (tz_unit t) (tz_service t) (tz_dt t))) <->
     (listed_offer m (tz_unit t) (tz_dt t) ["energy"; tz_service t] ->
      relation ">=" (dispatch m x (tz_unit t) "energy" (tz_dt t) - (tz_lbp t - tz_emin t) / tz_max t * dispatch m x (tz_unit t) (tz_service t) (tz_dt t)) (tz_emin t)))).
  { intros i t Hi. pose proof (in_save_index _ _ _ Hi) as [Li Ht]. cbn [fst snd] in Ht, Li.
    eapply (side_rule _ _ _ _ _ _ _ _ _ _ _ Hk G1 G2); cbn [cr_id cr_type cr_rhs].
    - unfold trap_rhs. apply in_or_app. right. apply in_map_iff. exists (i, t). auto.
    - apply (energy_reg_lower l n i t Hi ltac:(lia)).
    - repeat constructor.
    - reflexivity.
    - reflexivity.
    - rewrite !sumQ_cons, sumQ_nil. cbn [uc_coef uc_service]. rewrite (LS t Ht), sign_fcas by auto. unfold lower_slope. ring.
    - reflexivity. }
  split.
  - intros H t Ht Lo. cbv zeta. split.
    + destruct (trap_upper_row l n t Ht) as [i [Hi [_ Hr]]]. apply relation_le. now apply (U i t Hi); [apply H|].
    + destruct (trap_lower_row l n t Ht) as [i [Hi [_ Hr]]]. apply relation_ge. now apply (D i t Hi); [apply H|].
  - intros H r Hr. unfold trap_rhs in Hr. apply in_app_or in Hr. destruct Hr as [Hr|Hr]; apply in_map_iff in Hr; destruct Hr as [[i t] [<- Hi]].
    + apply (U i t Hi). intros Lo. apply relation_le. apply H; [now apply in_save_index in Hi|exact Lo].
    + apply (D i t Hi). intros Lo. apply relation_ge. apply H; [now apply in_save_index in Hi|exact Lo].
Qed.

Lemma joint_capacity_exact l : (forall t, In t l -> mem_str (tz_unit t) (m_bdu m) = false) ->
  firm m (WUnit "joint_capacity" (trap_rhs l) (fun n => joint_capacity_map l (m_bdu m) n)) ->
  (write_ok (WUnit "joint_capacity" (trap_rhs l) (fun n => joint_capacity_map l (m_bdu m) n)) <-> obeys ops m x (OpJointCapacity l None)).
Proof.
  clear HE HN. intros NB S. destruct (unit_write _ _ _ S) as [n [Hk [G1 [G2 E]]]]. rewrite E. clear E. cbn [obeys].
  assert (U : forall i t, In (i, t) (save_index n l) ->
    (row_ok m x (CRow i "<=" (tz_emax t) (KUnit (tz_unit t) (tz_service t) (tz_dt t))) <->
     (listed_offer m (tz_unit t) (tz_dt t) ["energy"; tz_service t; reg_up t] ->
      relation "<=" (dispatch m x (tz_unit t) "energy" (tz_dt t) + (tz_emax t - tz_hbp t) / tz_max t * dispatch m x (tz_unit t) (tz_service t) (tz_dt t)
                      + dispatch m x (tz_unit t) (reg_up t) (tz_dt t)) (tz_emax t)))).
  { intros i t Hi. pose proof (in_save_index _ _ _ Hi) as [Li Ht]. cbn [fst snd] in Ht, Li.
    eapply (side_rule _ _ _ _ _ _ _ _ _ _ _ Hk G1 G2); cbn [cr_id cr_type cr_rhs].
    - unfold trap_rhs. apply in_or_app. left. apply in_map_iff. exists (i, t). auto.
    - unfold joint_capacity_map. rewrite at_con_app, (jc_upper_at l _ n i t Hi), jc_lower_off by lia.
      rewrite (NB t Ht). reflexivity.
    - repeat constructor.
    - reflexivity.
    - reflexivity.
    - cbn [app]. rewrite !sumQ_cons, sumQ_nil. cbn [uc_coef uc_service]. rewrite !sign_ordinary by auto. unfold upper_slope. ring.
    - reflexivity. }
  assert (D : forall i t, In (i, t) (save_index (n + length l) l) ->
    (row_ok m x (CRow i ">=" (tz_emin t) (KUnit (tz_unit t) (tz_service t) (tz_dt t))) <->
     (listed_offer m (tz_unit t) (tz_dt t) ["energy"; tz_service t; reg_down t] ->
      relation ">=" (dispatch m x (tz_unit t) "energy" (tz_dt t) - (tz_lbp t - tz_emin t) / tz_max t * dispatch m x (tz_unit t) (tz_service t) (tz_dt t)
                      - dispatch m x (tz_unit t) (reg_down t) (tz_dt t)) (tz_emin t)))).
  { intros i t Hi. pose proof (in_save_index _ _ _ Hi) as [Li Ht]. cbn [fst snd] in Ht, Li.
    eapply (side_rule _ _ _ _ _ _ _ _ _ _ _ Hk G1 G2); cbn [cr_id cr_type cr_rhs].
    - unfold trap_rhs. apply in_or_app. right. apply in_map_iff. exists (i, t). auto.
    - unfold joint_capacity_map. rewrite at_con_app, jc_upper_off by lia. rewrite (jc_lower_at l _ (n + length l) i t Hi).
      rewrite (NB t Ht). reflexivity.
    - repeat constructor.
    - reflexivity.
    - reflexivity.
    - cbn [app]. rewrite !sumQ_cons, sumQ_nil. cbn [uc_coef uc_service]. rewrite !sign_ordinary by auto. unfold lower_slope. ring.
    - reflexivity. }
  split.
  - intros H t Ht. cbv zeta. fold (reg_up t) (reg_down t). split; intros Lo.
    + destruct (trap_upper_row l n t Ht) as [i [Hi [_ Hr]]]. apply relation_le. now apply (U i t Hi); [apply H|].
    + destruct (trap_lower_row l n t Ht) as [i [Hi [_ Hr]]]. apply relation_ge. now apply (D i t Hi); [apply H|].
  - intros H r Hr. unfold trap_rhs in Hr. apply in_app_or in Hr. destruct Hr as [Hr|Hr]; apply in_map_iff in Hr; destruct Hr as [[i t] [<- Hi]];
      (assert (Ht : In t l) by (now apply in_save_index in Hi)); specialize (H t Ht); cbv zeta in H; fold (reg_up t) (reg_down t) in H.
    + apply (U i t Hi). intros Lo. apply relation_le. now apply H.
    + apply (D i t Hi). intros Lo. apply relation_ge. now apply H.
Qed.

(** ** Ramp rates *)

Lemma smaller_rate_unique bid s a b : smaller_rate bid s a -> smaller_rate bid s b -> a == b.
Proof.
  destruct s as [q|]; cbn.
  - intros [A1 [A2 A3]] [B1 [B2 B3]]. destruct A3, B3; lra.
  - intros A B. lra.
Qed.

Lemma scada_step_from m' t bdu s q :
  (match s with Some s => check_scada m' s | None => None end) = None ->
  rt_has_up t = false -> rt_has_down t = false -> In q (scada_step t bdu s) ->
  exists r, In r (rt_rows t) /\ rr_unit q = rr_unit (ri_row r) /\ rr_dt q = rr_dt (ri_row r) /\ rr_init q = rr_init (ri_row r)
    /\ smaller_rate (rr_up (ri_row r)) (scada_up s (rr_unit (ri_row r))) (rr_up q)
    /\ smaller_rate (rr_down (ri_row r)) (scada_down s (rr_unit (ri_row r))) (rr_down q).
Proof.
  clear. intros Ck U D Hq. unfold scada_step in Hq. destruct s as [s|].
  - rewrite U, D in Hq. unfold scada_adjust in Hq. apply in_map_iff in Hq. destruct Hq as [[r o] [<- Hq]].
    unfold merge_left in Hq. apply in_flat_map in Hq. destruct Hq as [r' [Hr' Hq]].
    pose proof (scada_found m' s Ck (rr_unit (ri_row r'))) as F. cbn in F. rewrite app_nil_r in F.
    assert (X : r = r' /\ o = find (fun sc => String.eqb (sc_unit sc) (rr_unit (ri_row r'))) (st_rows s)).
    { destruct (filter (fun sc => String.eqb (rr_unit (ri_row r')) (sc_unit sc)) (st_rows s)) as [|b t'] eqn:E.
      - inversion F as [F1]. destruct Hq as [Hq|[]]. now inversion Hq.
      - inversion F as [[F1 F2]]. destruct t' as [|? ?]; [|discriminate F2]. cbn in Hq. destruct Hq as [Hq|[]]. now inversion Hq. }
    destruct X as [-> ->]. exists r'. unfold ordinary_ramps in Hr'. apply filter_In in Hr'.
    split; [apply Hr'|]. cbn [rr_unit rr_dt rr_init rr_up rr_down]. repeat split.
    + unfold merged_scada, scada_value. cbn [scada_up]. destruct (st_has_up s); apply fmin_smaller.
    + unfold merged_scada, scada_value. cbn [scada_down]. destruct (st_has_down s); apply fmin_smaller.
  - apply in_map_iff in Hq. destruct Hq as [r [<- Hr]]. unfold ordinary_ramps in Hr. apply filter_In in Hr.
    exists r. split; [apply Hr|]. repeat split; reflexivity.
Qed.

Lemma ramp_exact m' t s h :
  (match s with Some s => check_scada m' s | None => None end) = None ->
  rt_has_up t = false -> rt_has_down t = false -> h = c_interval (m_cfg m) ->
  let l := scada_step t (m_bdu m) s in
  let up := WUnit "ramp_up" (fun n => ramp_up_rhs l n h) (fun n => ramp_up_map l n h) in
  let down := WUnit "ramp_down" (fun n => ramp_down_rhs l n h) (fun n => ramp_down_map l n h) in
  firm m up -> firm m down ->
  (write_ok up /\ write_ok down <-> forall r, In r (map ri_row (rt_rows t)) -> ~ two_sided (m_cfg m) (rr_unit r) ->
     listed_offer m (rr_unit r) (rr_dt r) ["energy"] -> usual_limits (m_cfg m) m x s r).
Proof.
  clear HE HN. intros Ck HU' HD Eh l up down S1 S2.
  destruct (unit_write _ _ _ S1) as [n1 [K1 [G1 [G2 E1]]]]. destruct (unit_write _ _ _ S2) as [n2 [K2 [G3 [G4 E2]]]].
  fold up in E1. fold down in E2. rewrite E1, E2. clear E1 E2 S1 S2. subst up down. cbn beta in *. unfold ramp_up_rhs, ramp_up_map, ramp_down_rhs, ramp_down_map in *.
  assert (LS : forall q, In q l -> load_sign m (rr_unit q) "energy" (rr_dt q) = 1).
  { intros q Hq. apply sign_ordinary. eapply scada_step_ordinary; exact Hq. }
  rewrite (plain_exact _ _ _ n1 K1 G1 G2) by (intros u Hu; apply in_map_iff in Hu; destruct Hu as [q [<- Hq]]; now apply LS).
  rewrite (plain_exact _ _ _ n2 K2 G3 G4) by (intros u Hu; apply in_map_iff in Hu; destruct Hu as [q [<- Hq]]; now apply LS).
  split.
  - intros [Hu Hd] r0 Hr0 Nt Lo. apply in_map_iff in Hr0. destruct Hr0 as [r [<- Hr]].
    destruct (scada_step_row m' t (m_bdu m) s r Ck HU' HD Hr (bdu_false _ _ m (proj1 HO) eq_refl Nt)) as [q [Hq [Q1 [Q2 [Q3 [Q4 Q5]]]]]].
    exists (rr_up q), (rr_down q). split; [exact Q4|]. split; [exact Q5|]. rewrite <- Q1, <- Q2, <- Q3 in *.
    specialize (Hu (ULimit (rr_unit q) "energy" (rr_dt q) (rr_init q + rr_up q * (h / 60)))).
    specialize (Hd (ULimit (rr_unit q) "energy" (rr_dt q) (rr_init q - rr_down q * (h / 60)))).
    cbn [ul_unit ul_service ul_dt ul_rhs] in Hu, Hd.
    assert (U : relation "<=" (dispatch m x (rr_unit q) "energy" (rr_dt q)) (rr_init q + rr_up q * (h / 60))).
    { apply Hu; [|exact Lo]. apply in_map_iff. exists q. auto. }
    assert (D : relation ">=" (dispatch m x (rr_unit q) "energy" (rr_dt q)) (rr_init q - rr_down q * (h / 60))).
    { apply Hd; [|exact Lo]. apply in_map_iff. exists q. auto. }
    apply relation_le in U. apply relation_ge in D. rewrite Eh in U, D. unfold Qdiv in *. rewrite !Qmult_assoc in U, D. auto.
  - intros H. split; intros u Hu; apply in_map_iff in Hu; destruct Hu as [q [<- Hq]]; cbn [ul_unit ul_service ul_dt ul_rhs]; intros Lo;
      destruct (scada_step_from m' t (m_bdu m) s q Ck HU' HD Hq) as [r [Hr [Q1 [Q2 [Q3 [Q4 Q5]]]]]];
      assert (Nt : ~ two_sided (m_cfg m) (rr_unit (ri_row r)))
        by (rewrite <- Q1; intros T; apply (bdu_true _ _ m (proj1 HO) eq_refl) in T; rewrite (scada_step_ordinary _ _ _ _ Hq) in T; discriminate T);
      rewrite Q1, Q2 in Lo; destruct (H (ri_row r) (in_map ri_row _ _ Hr) Nt Lo) as [up' [down' [A1 [A2 [A3 A4]]]]];
      rewrite Q1, Q2, Q3, Eh.
    + apply relation_le. rewrite (smaller_rate_unique _ _ _ _ Q4 A1). eapply Qle_trans; [exact A4|].
      apply Qle_lteq. right. field.
    + apply relation_ge. rewrite (smaller_rate_unique _ _ _ _ Q5 A2). eapply Qle_trans; [|exact A3].
      apply Qle_lteq. right. field.
Qed.

(** ** Both sides of a bidirectional unit *)

(** A row about both sides of a bidirectional unit. *)
Lemma net_row k rows cs r l u : hard_unit m k -> dget k (m_rhs m) = Some rows -> dget k (m_c2v_unit m) = Some cs ->
  In r rows -> Permutation (at_con (cr_id r) cs) l -> (forall a, In a l -> uc_unit a = u /\ (uc_dt a = "generator" \/ uc_dt a = "load")) ->
  two_sided (m_cfg m) u ->
  (row_ok m x r <->
   ((exists a, In a l /\ offers m u (uc_service a) (uc_dt a)) ->
    relation (cr_type r) (sumQ (fun a => uc_coef a * (load_sign m u (uc_service a) (uc_dt a) * dispatch m x u (uc_service a) (uc_dt a))) l) (cr_rhs r))).
Proof.
  clear HE HN. intros Hk G1 G2 Hr E F [Tg Tl].
  assert (Rg : forall a, In a l -> registered (m_cfg m) u (uc_dt a)) by (intros a Ha; destruct (F a Ha) as [_ [-> | ->]]; assumption).
  assert (V : row_value (all_lhs m) x (cr_id r)
     == sumQ (fun a => uc_coef a * (load_sign m u (uc_service a) (uc_dt a) * dispatch m x u (uc_service a) (uc_dt a))) l).
  { rewrite (unit_row_value m k rows cs r x HO (proj1 Hk) (conj G1 (conj G2 (no_silent _ _ (proj2 Hk)))) Hr).
    unfold unit_value. fold (at_con (cr_id r) cs). rewrite (sumQ_permutation _ _ _ E). apply sumQ_ext_in. intros a Ha.
    destruct (F a Ha) as [-> _]. rewrite unit_term_dispatch; [reflexivity|apply HO|now apply Rg]. }
  split.
  - intros H [a [Ha Of]]. eapply relation_iff; [symmetry; exact V|reflexivity|]. apply H.
    destruct (F a Ha) as [Eu _]. destruct (offers_uv m _ _ _ (proj1 HO) (Rg a Ha) Of) as [v [Hv [V1 [V2 V3]]]].
    apply (Permutation_in _ (Permutation_sym E)) in Ha. unfold at_con in Ha. apply filter_In in Ha. destruct Ha as [Ha Ei]. apply Nat.eqb_eq in Ei.
    eapply unit_row_lhs; eauto; congruence.
  - intros H [lr [Hlr El]]. destruct (unit_row_has k rows cs r lr Hk G1 G2 Hr Hlr El) as [a [Ha [R Of]]].
    apply (Permutation_in _ E) in Ha. destruct (F a Ha) as [Eu _]. rewrite Eu in *.
    eapply relation_iff; [exact V|reflexivity|]. apply H. exists a. split; [exact Ha|exact Of].
Qed.

Lemma bdu_rows_from l up n h q : In q (bdu_ramp_rhs l up n h) -> exists r, In r l
  /\ q = CRow (cr_id q) (if up : bool then "<=" else ">=")
          (if up then bd_init r + bd_up r * (h / 60) else bd_init r - bd_down r * (h / 60))
          (KUnit (bd_unit r) "energy" "bidirectional")
  /\ (filter (fun b => String.eqb (bd_unit b) (bd_unit r)) l = [r] ->
      at_con (cr_id q) (bdu_ramp_map l n) = [UC (cr_id q) (bd_unit r) "energy" "load" 1; UC (cr_id q) (bd_unit r) "energy" "generator" 1]).
Proof.
  clear. intros H. unfold bdu_ramp_rhs in H. apply in_map_iff in H. destruct H as [[i r] [<- Hi]]. exists r.
  pose proof (in_save_index _ _ _ Hi) as [_ Hr]. apply drop_duplicates_incl in Hr. split; [exact Hr|]. split; [reflexivity|].
  intros F. cbn [cr_id]. unfold at_con, bdu_ramp_map. rewrite filter_app, !filter_map_comm. cbn [uc_con].
  rewrite (merge_filter_r (fun q : nat * bdu_ramp_row => Nat.eqb (fst q) i)).
  unfold bdu_ids in *. rewrite (filter_save_index n _ i r Hi), merge_one_r. cbn [snd]. rewrite F. reflexivity.
Qed.

Lemma bdu_step_from t bdu s h r : In r (bdu_ramp_step t bdu s h) -> exists g ld,
  In g (map ri_row (rt_rows t)) /\ In ld (map ri_row (rt_rows t)) /\ rr_unit ld = rr_unit g
  /\ rr_dt g = "generator" /\ rr_dt ld = "load" /\ rr_unit g = bd_unit r /\ mem_str (rr_unit g) bdu = true.
Proof.
  clear. intros H.
  assert (K : exists r', In r' (bdu_ramps (map ri_row (rt_rows t)) bdu h) /\ bd_unit r' = bd_unit r).
  { unfold bdu_ramp_step in H. destruct s as [s|]; [|eauto]. unfold scada_adjust_bdu in H. apply in_map_iff in H.
    destruct H as [[r' o] [<- H]]. apply in_merge_left in H. exists r'. split; [apply H|reflexivity]. }
  destruct K as [r' [K E]]. rewrite <- E. clear H E r. unfold bdu_ramps in K. apply in_map_iff in K.
  destruct K as [[[u d] [[u' up] init]] [<- K]]. apply in_merge in K. destruct K as [K _]. unfold bdu_down in K.
  apply in_map_iff in K. destruct K as [[ld g] [E K]]. inversion E; subst u d. apply in_merge in K. destruct K as [K1 [K2 K3]].
  unfold bdu_load in K1. unfold bdu_gen in K2. repeat (apply filter_In in K1; destruct K1 as [K1 ?]). repeat (apply filter_In in K2; destruct K2 as [K2 ?]).
  rewrite String.eqb_eq in *. exists g, ld. cbn [bd_unit]. repeat split; auto.
Qed.

Lemma smaller_rate_comp a b s q : a == b -> smaller_rate a s q -> smaller_rate b s q.
Proof. clear. intros E. unfold smaller_rate. destruct s; now rewrite E. Qed.

Lemma bdu_ramp_exact m' t s h :
  check_ramp m' t = None -> (match s with Some s => check_scada m' s | None => None end) = None ->
  h = c_interval (m_cfg m) ->
  (forall g ld, two_rows (m_cfg m) t g ld -> 0 < h /\ rr_init g == rr_init ld
      /\ 0 <= rr_up g /\ 0 <= rr_down g /\ 0 <= rr_up ld /\ 0 <= rr_down ld) ->
  let b := bdu_ramp_step t (m_bdu m) s h in
  let up := WUnit "bidirectional_ramp_up" (fun n => bdu_ramp_rhs b true n h) (fun n => bdu_ramp_map b n) in
  let down := WUnit "bidirectional_ramp_down" (fun n => bdu_ramp_rhs b false n h) (fun n => bdu_ramp_map b n) in
  (firm m up /\ firm m down) \/ b = [] ->
  ((b <> [] -> write_ok up /\ write_ok down) <-> forall g ld, two_rows (m_cfg m) t g ld ->
     offers m (rr_unit g) "energy" "generator" \/ offers m (rr_unit g) "energy" "load" -> net_limits (m_cfg m) m x s g ld).
Proof.
  clear HE HN. intros Ck1 Ck2 Eh Sc b up down S.
  assert (Row : forall g ld, two_rows (m_cfg m) t g ld -> exists r, filter (fun a => String.eqb (bd_unit a) (rr_unit g)) b = [r]
     /\ bd_unit r = rr_unit g /\ bd_init r = rr_init ld
     /\ smaller_rate (composite_up (h / 60) (rr_init ld) (rr_up g) (rr_down ld)) (scada_up s (rr_unit g)) (bd_up r)
     /\ smaller_rate (composite_down (h / 60) (rr_init g) (rr_up ld) (rr_down g)) (scada_down s (rr_unit g)) (bd_down r)).
  { intros g ld [Hg [Hl [E [Dg [Dl T]]]]]. apply (bdu_true _ _ m (proj1 HO) eq_refl) in T.
    destruct (bdu_step_row m' t (m_bdu m) s h g ld Ck1 Ck2 Hg Hl Dg Dl E T) as [u [d [F [Su Sd]]]].
    exists (BduRamp (rr_unit g) (rr_init ld) u d). auto. }
  (* the limits in terms of the rates of the row *)
  assert (Net : forall g ld r, two_rows (m_cfg m) t g ld -> bd_init r = rr_init ld ->
     smaller_rate (composite_up (h / 60) (rr_init ld) (rr_up g) (rr_down ld)) (scada_up s (rr_unit g)) (bd_up r) ->
     smaller_rate (composite_down (h / 60) (rr_init g) (rr_up ld) (rr_down g)) (scada_down s (rr_unit g)) (bd_down r) ->
     (net_limits (m_cfg m) m x s g ld <-> bd_init r - bd_down r * (h / 60) <= net_energy m x (rr_unit g)
        /\ net_energy m x (rr_unit g) <= bd_init r + bd_up r * (h / 60))).
  { intros g ld r T Ei Su Sd. destruct (Sc g ld T) as [Hh [Eg [P1 [P2 [P3 P4]]]]]. rewrite Ei.
    assert (Hp : 0 < h / 60) by (unfold Qdiv; apply Qmult_lt_0_compat; [exact Hh|reflexivity]).
    assert (RU : rises_to (h / 60) (rr_init g) (rr_down ld) (rr_up g) (rr_init ld + composite_up (h / 60) (rr_init ld) (rr_up g) (rr_down ld) * (h / 60))).
    { apply (rises_to_Proper (h / 60) (h / 60) (rr_init ld) (rr_init g) (rr_down ld) (rr_down ld) (rr_up g) (rr_up g)
            (rr_init ld + composite_up (h / 60) (rr_init ld) (rr_up g) (rr_down ld) * (h / 60))); try reflexivity; [symmetry; exact Eg|].
      now apply composite_up_reaches. }
    assert (RD : falls_to (h / 60) (rr_init g) (rr_up ld) (rr_down g) (rr_init g - composite_down (h / 60) (rr_init g) (rr_up ld) (rr_down g) * (h / 60))) by now apply composite_down_reaches.
    assert (XU : forall top, top == rr_init ld + composite_up (h / 60) (rr_init ld) (rr_up g) (rr_down ld) * (h / 60) ->
       (top - rr_init g) / (h / 60) == composite_up (h / 60) (rr_init ld) (rr_up g) (rr_down ld)).
    { intros top ->. rewrite Eg. field. lra. }
    assert (XD : forall bottom, bottom == rr_init g - composite_down (h / 60) (rr_init g) (rr_up ld) (rr_down g) * (h / 60) ->
       (rr_init g - bottom) / (h / 60) == composite_down (h / 60) (rr_init g) (rr_up ld) (rr_down g)).
    { intros bottom ->. field. lra. }
    unfold net_limits. cbv zeta. rewrite <- Eh. split.
    - intros [top [bottom [u [d [A1 [A2 [A3 [A4 [A5 A6]]]]]]]]].
      pose proof (rises_to_unique _ _ _ _ _ _ P4 P1 A1 RU) as ET.
      assert (EB : bottom == rr_init g - composite_down (h / 60) (rr_init g) (rr_up ld) (rr_down g) * (h / 60)).
      { pose proof (rises_to_unique _ _ _ _ _ _ P2 P3 A2 RD) as X. lra. }
      apply (smaller_rate_comp _ _ _ _ (XU _ ET)) in A3. apply (smaller_rate_comp _ _ _ _ (XD _ EB)) in A4.
      pose proof (smaller_rate_unique _ _ _ _ A3 Su) as Eu. pose proof (smaller_rate_unique _ _ _ _ A4 Sd) as Ed.
      rewrite <- Eg, <- Eu, <- Ed. now split.
    - intros [L1 L2]. eexists. eexists. exists (bd_up r), (bd_down r). split; [exact RU|]. split; [exact RD|].
      split; [exact (smaller_rate_comp _ _ _ _ (Qeq_sym _ _ (XU _ (Qeq_refl _))) Su)|].
      split; [exact (smaller_rate_comp _ _ _ _ (Qeq_sym _ _ (XD _ (Qeq_refl _))) Sd)|]. rewrite Eg. now split. }
  assert (From : forall r, In r b -> exists g ld, two_rows (m_cfg m) t g ld /\ rr_unit g = bd_unit r).
  { intros r Hr. destruct (bdu_step_from _ _ _ _ _ Hr) as [g [ld [A1 [A2 [A3 [A4 [A5 [A6 A7]]]]]]]]. exists g, ld. split; [|exact A6].
    repeat split; auto; apply (bidirectional_iff (m_cfg m)); try apply HO; now apply mem_str_in. }
  assert (L : b = [] \/ b <> []) by (destruct b; [now left|right; discriminate]).
  destruct L as [Z|Ne].
  { split; [|intros _ N; now elim N]. intros _ g ld T. destruct (Row g ld T) as [r [F _]]. rewrite Z in F. discriminate F. }
  destruct S as [[S1 S2]|S]; [|now elim Ne].
  destruct (unit_write _ _ _ S1) as [n1 [K1 [G1 [G2 E1]]]]. destruct (unit_write _ _ _ S2) as [n2 [K2 [G3 [G4 E2]]]].
  fold up in E1. fold down in E2.
  assert (W : (b <> [] -> write_ok up /\ write_ok down) <-> (b <> [] -> rows_ok m x (bdu_ramp_rhs b true n1 h) /\ rows_ok m x (bdu_ramp_rhs b false n2 h))) by (rewrite E1, E2; tauto).
  rewrite W. clear W E1 E2 S1 S2.
  (* one row *)
  assert (One : forall k u n q r, hard_unit m k -> dget k (m_rhs m) = Some (bdu_ramp_rhs b u n h) -> dget k (m_c2v_unit m) = Some (bdu_ramp_map b n) ->
     In q (bdu_ramp_rhs b u n h) -> at_con (cr_id q) (bdu_ramp_map b n) = [UC (cr_id q) (bd_unit r) "energy" "load" 1; UC (cr_id q) (bd_unit r) "energy" "generator" 1] ->
     two_sided (m_cfg m) (bd_unit r) ->
     (row_ok m x q <-> (offers m (bd_unit r) "energy" "generator" \/ offers m (bd_unit r) "energy" "load" -> relation (cr_type q) (net_energy m x (bd_unit r)) (cr_rhs q)))).
  { intros k u n q r Hk D1 D2 Hq A T.
    assert (P : Permutation (at_con (cr_id q) (bdu_ramp_map b n))
        [UC (cr_id q) (bd_unit r) "energy" "load" 1; UC (cr_id q) (bd_unit r) "energy" "generator" 1]) by (rewrite A; reflexivity).
    rewrite (net_row k _ _ q _ (bd_unit r) Hk D1 D2 Hq P); [|intros a [<-|[<-|[]]]; cbn; auto|exact T].
    assert (V : sumQ (fun a => uc_coef a * (load_sign m (bd_unit r) (uc_service a) (uc_dt a) * dispatch m x (bd_unit r) (uc_service a) (uc_dt a)))
        [UC (cr_id q) (bd_unit r) "energy" "load" 1; UC (cr_id q) (bd_unit r) "energy" "generator" 1] == net_energy m x (bd_unit r)).
    { apply (bdu_true _ _ m (proj1 HO) eq_refl) in T. rewrite !sumQ_cons, sumQ_nil. cbn [uc_coef uc_service uc_dt].
      rewrite sign_gen, (sign_load m _ T). unfold net_energy. ring. }
    split; intros H O; [apply (relation_iff _ _ _ _ _ V (Qeq_refl _))|apply (relation_iff _ _ _ _ _ V (Qeq_refl _))]; apply H.
    - destruct O as [O|O]; [exists (UC (cr_id q) (bd_unit r) "energy" "generator" 1)|exists (UC (cr_id q) (bd_unit r) "energy" "load" 1)]; cbn; auto.
    - destruct O as [a [[<-|[<-|[]]] O]]; cbn in O; auto. }
  split.
  - intros H g ld T O. destruct (Row g ld T) as [r [F [Eu [Ei [Su Sd]]]]]. apply (Net g ld r T Ei Su Sd).
    assert (Nb : b <> []) by (intros Z; rewrite Z in F; discriminate F). destruct (H Nb) as [Hu Hd]. rewrite <- Eu in F.
    assert (Tr : two_sided (m_cfg m) (bd_unit r)) by (rewrite Eu; apply T). rewrite <- Eu in O |- *.
    destruct (bdu_group_row b r F n1 true h) as [i [R1 A1]]. destruct (bdu_group_row b r F n2 false h) as [j [R2 A2]].
    pose proof (proj1 (One _ true n1 _ r K1 G1 G2 R1 A1 Tr) (Hu _ R1) O) as U.
    pose proof (proj1 (One _ false n2 _ r K2 G3 G4 R2 A2 Tr) (Hd _ R2) O) as D.
    cbn [cr_type cr_rhs] in U, D. apply relation_le in U. apply relation_ge in D. now split.
  - intros H _.
    assert (Any : forall k u n, hard_unit m k -> dget k (m_rhs m) = Some (bdu_ramp_rhs b u n h) -> dget k (m_c2v_unit m) = Some (bdu_ramp_map b n) ->
       rows_ok m x (bdu_ramp_rhs b u n h)).
    { intros k u n Hk D1 D2 q Hq. destruct (bdu_rows_from _ _ _ _ _ Hq) as [r [Hr [Eq A]]].
      destruct (From r Hr) as [g [ld [T Eg]]]. destruct (Row g ld T) as [r' [F [Eu [Ei [Su Sd]]]]].
      assert (r = r') as <-.
      { assert (X : In r [r']) by (rewrite <- F; apply filter_In; split; [exact Hr|]; now rewrite Eg, String.eqb_refl). destruct X as [X|[]]; congruence. }
      rewrite <- Eu in F. assert (Tr : two_sided (m_cfg m) (bd_unit r)) by (rewrite Eu; apply T).
      apply (One k u n q r Hk D1 D2 Hq (A F) Tr). intros O. rewrite Eu in O. pose proof (proj1 (Net g ld r T Ei Su Sd) (H g ld T O)) as [L1 L2].
      rewrite Eq, Eu. cbn [cr_type cr_rhs]. destruct u; [apply relation_le|apply relation_ge]; assumption. }
    split; [exact (Any _ true n1 K1 G1 G2)|exact (Any _ false n2 K2 G3 G4)].
Qed.

(** ** Fast start *)

Lemma blocks_in bs : forall n r, In r (blocks_rhs bs n) -> exists ls dr u,
  In (ls, dr) bs /\ In u ls /\ r = CRow (cr_id r) dr (ul_rhs u) (KUnit (ul_unit u) (ul_service u) (ul_dt u))
  /\ at_con (cr_id r) (blocks_map bs n) = [UC (cr_id r) (ul_unit u) (ul_service u) (ul_dt u) 1].
Proof.
  clear. induction bs as [|[l d] t IH]; intros n r H; cbn [blocks_rhs] in H; [destruct H|].
  assert (Low : forall bs n i, (i < n)%nat -> at_con i (blocks_map bs n) = []).
  { clear. induction bs as [|[l d] t IH]; intros n i L; [reflexivity|]. cbn [blocks_map]. rewrite at_con_app, IH by lia.
    rewrite app_nil_r. unfold create_constraints_map. apply map_off; [now intros [? ?]|lia]. }
  apply in_app_or in H. destruct H as [H|H].
  - apply create_rows in H. destruct H as [u [Hi E]]. exists l, d, u. pose proof (in_save_index _ _ _ Hi) as [L Hu]. cbn [fst snd] in Hu, L.
    split; [now left|]. split; [exact Hu|]. split; [exact E|]. cbn [blocks_map]. rewrite at_con_app, (create_at _ _ _ _ Hi), Low by lia. reflexivity.
  - destruct (IH _ _ H) as [ls [dr [u [A [B [C D]]]]]]. exists ls, dr, u. split; [now right|]. split; [exact B|]. split; [exact C|].
    cbn [blocks_map]. rewrite at_con_app, D. unfold create_constraints_map at 1. rewrite map_off; [reflexivity|now intros [? ?]|].
    assert (Ge : forall bs n r, In r (blocks_rhs bs n) -> (n <= cr_id r)%nat).
    { clear. induction bs as [|[l d] t IH]; intros n r H; [destruct H|]. cbn [blocks_rhs] in H. apply in_app_or in H. destruct H as [H|H].
      - apply create_rows in H. destruct H as [u [Hi _]]. apply in_save_index in Hi. cbn [fst] in Hi. lia.
      - apply IH in H. lia. }
    apply Ge in H. lia.
Qed.

Lemma blocks_exact k bs n : hard_unit m k -> dget k (m_rhs m) = Some (blocks_rhs bs n) -> dget k (m_c2v_unit m) = Some (blocks_map bs n) ->
  (forall ls dr u, In (ls, dr) bs -> In u ls -> load_sign m (ul_unit u) (ul_service u) (ul_dt u) = 1) ->
  (rows_ok m x (blocks_rhs bs n) <->
   forall ls dr u, In (ls, dr) bs -> In u ls -> listed_offer m (ul_unit u) (ul_dt u) [ul_service u] ->
     relation dr (dispatch m x (ul_unit u) (ul_service u) (ul_dt u)) (ul_rhs u)).
Proof.
  clear HE HN. intros Hk G1 G2 LS. split.
  - intros H ls dr u Hb Hu. destruct (blocks_row _ n _ _ _ Hb Hu) as [i [Hr E]].
    pose proof (H _ Hr) as Ok. revert Ok.
    eapply (side_rule _ _ _ _ _ _ _ _ _ _ _ Hk G1 G2 Hr).
    + exact E.
    + repeat constructor.
    + reflexivity.
    + reflexivity.
    + rewrite sumQ_cons, sumQ_nil. cbn [uc_coef uc_service]. rewrite (LS _ _ _ Hb Hu). ring.
    + reflexivity.
  - intros H r Hr. destruct (blocks_in bs n r Hr) as [ls [dr [u [Hb [Hu [E A]]]]]].
    eapply (side_rule k _ _ r _ (ul_unit u) (ul_dt u) [ul_service u] dr _ (ul_rhs u) Hk G1 G2 Hr A).
    + repeat constructor.
    + reflexivity.
    + rewrite E. reflexivity.
    + rewrite sumQ_cons, sumQ_nil. cbn [uc_coef uc_service]. rewrite (LS _ _ _ Hb Hu).
      instantiate (1 := dispatch m x (ul_unit u) (ul_service u) (ul_dt u)). ring.
    + rewrite E. reflexivity.
    + exact (H _ _ _ Hb Hu).
Qed.

Lemma fast_start_exact l : (forall f, In f l -> mem_str (fs_unit f) (m_bdu m) = false
     /\ (fs_end_mode f = 2%Z -> 0 < fs_mode_two_length f) /\ (fs_end_mode f = 4%Z -> 0 < fs_mode_four_length f)) ->
  let p := fs_with_dt (c_ui (m_cfg m)) l in
  firm m (WUnit "fast_start" (fast_start_rhs p) (fast_start_map p)) \/ fast_start_rhs p 0 = [] ->
  ((fast_start_rhs p 0 <> [] -> write_ok (WUnit "fast_start" (fast_start_rhs p) (fast_start_map p))) <-> obeys ops m x (OpFastStart l None)).
Proof.
  clear HE. intros Sc p S. cbn [obeys].
  assert (Hp : forall d f, In (d, f) p <-> In f l /\ registered (m_cfg m) (fs_unit f) d).
  { intros d f. unfold p, fs_with_dt. rewrite in_map_iff. split.
    - intros [[u f'] [E H]]. apply in_merge in H. destruct H as [H1 [H2 H3]]. apply String.eqb_eq in H3. inversion E; subst.
      split; [exact H2|]. exists u. auto.
    - intros [Hf [u [Hu [E1 E2]]]]. exists (u, f). cbn. split; [congruence|]. apply in_merge. split; [exact Hu|]. split; [exact Hf|]. now apply String.eqb_eq. }
  set (rule := forall ls dr u, In (ls, dr) (fast_start_blocks p) -> In u ls -> listed_offer m (ul_unit u) (ul_dt u) [ul_service u] ->
     relation dr (dispatch m x (ul_unit u) (ul_service u) (ul_dt u)) (ul_rhs u)).
  assert (W : (fast_start_rhs p 0 <> [] -> write_ok (WUnit "fast_start" (fast_start_rhs p) (fast_start_map p))) <-> rule).
  { destruct (fast_start_rhs p 0) eqn:E0.
    - split; [|congruence]. intros _ ls dr u Hb Hu. exfalso.
      destruct (blocks_row _ 0 _ _ _ Hb Hu) as [i [Hr _]]. unfold fast_start_rhs in E0. rewrite E0 in Hr. destruct Hr.
    - destruct S as [S|S]; [|discriminate S]. destruct (unit_write _ _ _ S) as [n [Hk [G1 [G2 E]]]].
      rewrite E. unfold fast_start_rhs, fast_start_map in *.
      rewrite (blocks_exact _ _ n Hk G1 G2).
      + fold rule. split; [intros H; apply H; discriminate|auto].
      + intros ls dr u Hb Hu. apply sign_ordinary.
        assert (X : exists d f, In (d, f) p /\ ul_unit u = fs_unit f).
        { cbn in Hb. repeat (destruct Hb as [Hb|Hb]; [inversion Hb; subst ls dr;
            apply in_map_iff in Hu; destruct Hu as [[d f] [<- Hu]]; apply filter_In in Hu; exists d, f; split; [apply Hu|reflexivity]|]). destruct Hb. }
        destruct X as [d [f [Hf ->]]]. apply Hp in Hf. now apply Sc. }
  rewrite W. clear W S. unfold rule. clear rule. split.
  - intros H f d Hf Lo. assert (R : In (d, f) p) by (apply Hp; split; [exact Hf|apply Lo]).
    destruct (Sc f Hf) as [_ [L2 L4]]. set (e := dispatch m x (fs_unit f) "energy" d).
    assert (E0 : 0 <= e) by apply HN.
    assert (Row : forall ls dr lim, In (ls, dr) (fast_start_blocks p) -> In (ULimit (fs_unit f) "energy" d lim) ls -> relation dr e lim).
    { intros ls dr lim Hb Hu. apply (H ls dr _ Hb Hu). exact Lo. }
    unfold follows_profile, start_level. split.
    + intros [M|[M|M]]; rewrite M; cbn [Z.eqb Pos.eqb].
      * assert (Q : relation "<=" e 0).
        { apply (Row (fs_mode_one p)); [cbn; auto|]. apply in_map_iff. exists (d, f). split; [reflexivity|].
          apply filter_In. split; [exact R|]. cbn. now rewrite M. }
        apply relation_le in Q. lra.
      * assert (Q : relation "<=" e 0).
        { apply (Row (fs_mode_one p)); [cbn; auto|]. apply in_map_iff. exists (d, f). split; [reflexivity|].
          apply filter_In. split; [exact R|]. cbn. now rewrite M. }
        apply relation_le in Q. lra.
      * set (q := fs_time_in_end_mode f / fs_mode_two_length f * fs_min_loading f).
        assert (Hl : In (ULimit (fs_unit f) "energy" d q) (fs_mode_two p)).
        { apply in_map_iff. exists (d, f). split; [reflexivity|]. apply filter_In. split; [exact R|]. cbn. now rewrite M. }
        assert (H1 : relation "<=" e q) by (apply (Row (fs_mode_two p)); [cbn; auto|exact Hl]).
        assert (H2 : relation ">=" e q) by (apply (Row (fs_mode_two p)); [cbn; auto|exact Hl]).
        apply relation_le in H1. apply relation_ge in H2. specialize (L2 M).
        assert (Eq : e == q) by lra. rewrite Eq. unfold q. field. lra.
    + intros [M|M]; rewrite M; cbn [Z.eqb Pos.eqb].
      * assert (Q : relation ">=" e (fs_min_loading f)).
        { apply (Row (fs_mode_three p)); [cbn; auto|]. apply in_map_iff. exists (d, f). split; [reflexivity|].
          apply filter_In. split; [exact R|]. cbn. now rewrite M. }
        apply relation_ge in Q. exact Q.
      * set (q := fs_min_loading f - fs_time_in_end_mode f / fs_mode_four_length f * fs_min_loading f).
        assert (Q : relation ">=" e q).
        { apply (Row (fs_mode_four p)); [cbn; auto 10|]. apply in_map_iff. exists (d, f). split; [reflexivity|].
          apply filter_In. split; [exact R|]. cbn. now rewrite M. }
        apply relation_ge in Q. specialize (L4 M).
        eapply Qle_trans; [|exact Q]. apply Qle_lteq. right. unfold q. field. lra.
  - intros H ls dr u Hb Hu.
    assert (F : forall d f, In (d, f) p -> listed_offer m (fs_unit f) d ["energy"] ->
        In f l /\ follows_profile f (dispatch m x (fs_unit f) "energy" d)).
    { intros d f Hf Lo. apply Hp in Hf. split; [apply Hf|]. now apply H. }
    unfold follows_profile, start_level in F.
    cbn in Hb. destruct Hb as [Hb|[Hb|[Hb|[Hb|[Hb|[]]]]]]; inversion Hb; subst ls dr;
      apply in_map_iff in Hu; destruct Hu as [[d f] [<- Hu]]; apply filter_In in Hu; destruct Hu as [Hu M]; cbn [fst snd] in *;
      cbn [ul_unit ul_service ul_dt ul_rhs]; intros Lo; destruct (F d f Hu Lo) as [Hf [F1 F2]].
    + apply relation_le. apply orb_true_iff in M. rewrite !Z.eqb_eq in M. destruct M as [M|M]; rewrite M in F1; cbn in F1; rewrite F1 by auto; lra.
    + apply Z.eqb_eq in M. apply relation_ge. rewrite M in F1. cbn [Z.eqb Pos.eqb] in F1. rewrite F1 by auto.
      destruct (Sc f Hf) as [_ [L2 _]]. specialize (L2 M). apply Qle_lteq. right. field. lra.
    + apply Z.eqb_eq in M. apply relation_le. rewrite M in F1. cbn [Z.eqb Pos.eqb] in F1. rewrite F1 by auto.
      destruct (Sc f Hf) as [_ [L2 _]]. specialize (L2 M). apply Qle_lteq. right. field. lra.
    + apply Z.eqb_eq in M. apply relation_ge. rewrite M in F2. cbn [Z.eqb Pos.eqb] in F2. now apply F2; auto.
    + apply Z.eqb_eq in M. apply relation_ge. rewrite M in F2. cbn [Z.eqb Pos.eqb] in F2. eapply Qle_trans; [|apply F2; auto].
      destruct (Sc f Hf) as [_ [_ L4]]. specialize (L4 M). apply Qle_lteq. right. field. lra.
Qed.

(** ** Joint ramping *)

Lemma jr_rows sg sl l h n r : In r (joint_ramping_rhs sg sl l h n) -> exists a, In a l /\ (rl_dt a = "generator" \/ rl_dt a = "load")
  /\ let s := if String.eqb (rl_dt a) "generator" then sg else sl in
     r = CRow (cr_id r) (rs_type s) (rl_init a + rs_dir s * (rl_rate a * h / 60)) (KUnitOnly (rl_unit a))
     /\ at_con (cr_id r) (joint_ramping_map sg sl l n)
        = [UC (cr_id r) (rl_unit a) (rs_service s) (rl_dt a) (rs_coef s); UC (cr_id r) (rl_unit a) "energy" (rl_dt a) 1].
Proof.
  clear. intros H. unfold joint_ramping_rhs, reg_rhs, side in H.
  assert (X : exists i a, In (i, a) (save_index n l) /\ (rl_dt a = "generator" \/ rl_dt a = "load")
    /\ r = CRow i (rs_type (if String.eqb (rl_dt a) "generator" then sg else sl))
             (rl_init a + rs_dir (if String.eqb (rl_dt a) "generator" then sg else sl) * (rl_rate a * h / 60)) (KUnitOnly (rl_unit a))).
  { apply in_app_or in H. destruct H as [H|H]; apply in_map_iff in H; destruct H as [[i a] [<- H]]; apply filter_In in H; destruct H as [H D];
      cbn [snd] in D; apply String.eqb_eq in D; exists i, a; (split; [exact H|]); rewrite D; auto. }
  destruct X as [i [a [Hi [D ->]]]]. exists a. pose proof (in_save_index _ _ _ Hi) as [_ Ha]. cbn [snd] in Ha.
  split; [exact Ha|]. split; [exact D|]. cbn [cr_id]. split; [reflexivity|].
  unfold joint_ramping_map, reg_map, side. rewrite !at_con_app.
  rewrite !(rows_at_some _ (fun r => String.eqb (rl_dt r) "generator") n l i a) by (auto; now intros [? ?]).
  rewrite !(rows_at_some _ (fun r => String.eqb (rl_dt r) "load") n l i a) by (auto; now intros [? ?]).
  destruct D as [D|D]; rewrite D; reflexivity.
Qed.

Lemma jr_exact k sg sl l h : (forall a, In a l -> mem_str (rl_unit a) (m_bdu m) = false) ->
  (forall a, In a l -> rl_dt a = "generator" \/ rl_dt a = "load") ->
  rs_service sg <> "energy" -> rs_service sl = rs_service sg ->
  firm m (WUnit k (joint_ramping_rhs sg sl l h) (joint_ramping_map sg sl l)) \/ l = [] ->
  ((l <> [] -> write_ok (WUnit k (joint_ramping_rhs sg sl l h) (joint_ramping_map sg sl l))) <->
   forall a, In a l -> let s := if String.eqb (rl_dt a) "generator" then sg else sl in
     listed_offer m (rl_unit a) (rl_dt a) [rs_service sg; "energy"] ->
     relation (rs_type s) (dispatch m x (rl_unit a) "energy" (rl_dt a) + rs_coef s * dispatch m x (rl_unit a) (rs_service sg) (rl_dt a))
       (rl_init a + rs_dir s * (rl_rate a * h / 60))).
Proof.
  clear HE HN. intros NB DT NE SE S. destruct S as [S|E0].
  2:{ subst l. split; [intros _ a []|intros _ N; congruence]. }
  destruct (unit_write _ _ _ S) as [n [Hk [G1 [G2 E]]]].
  assert (SS : forall d, rs_service (if String.eqb d "generator" then sg else sl) = rs_service sg) by (intros d; destruct (String.eqb d _); auto).
  assert (L : l = [] \/ l <> []) by (destruct l; [left; reflexivity|right; discriminate]).
  destruct L as [E0|Ne]; [subst l; split; [intros _ a []|intros _ N; congruence]|].
  assert (W : (l <> [] -> write_ok (WUnit k (joint_ramping_rhs sg sl l h) (joint_ramping_map sg sl l))) <-> rows_ok m x (joint_ramping_rhs sg sl l h n)) by (rewrite E; tauto).
  rewrite W. clear W E. split.
  - intros H a Ha s. destruct (jr_row sg sl l h n a Ha (DT a Ha)) as [i Hi]. cbv zeta in Hi. fold s in Hi. destruct Hi as [H1 H2].
    pose proof (H _ H1) as Ok. revert Ok.
    eapply (side_rule _ _ _ _ _ _ _ _ _ _ _ Hk G1 G2 H1).
    + exact H2.
    + repeat constructor.
    + cbn [map uc_service]. unfold s. now rewrite SS.
    + reflexivity.
    + rewrite !sumQ_cons, sumQ_nil. cbn [uc_coef uc_service]. rewrite !sign_ordinary by auto. unfold s at 2. rewrite SS. ring.
    + reflexivity.
  - intros H r Hr. destruct (jr_rows sg sl l h n r Hr) as [a [Ha [D X]]]. cbv zeta in X. destruct X as [Er A].
    specialize (H a Ha). cbv zeta in H.
    set (s := if String.eqb (rl_dt a) "generator" then sg else sl) in *.
    eapply (side_rule k _ _ r _ (rl_unit a) (rl_dt a) [rs_service sg; "energy"] (rs_type s) _ _ Hk G1 G2 Hr A).
    + repeat constructor.
    + cbn [map uc_service]. unfold s. now rewrite SS.
    + rewrite Er. reflexivity.
    + rewrite !sumQ_cons, sumQ_nil. cbn [uc_coef uc_service]. rewrite !sign_ordinary by auto. unfold s at 2. rewrite SS.
      instantiate (1 := dispatch m x (rl_unit a) "energy" (rl_dt a) + rs_coef s * dispatch m x (rl_unit a) (rs_service sg) (rl_dt a)). ring.
    + rewrite Er. cbn [cr_rhs]. reflexivity.
    + exact H.
Qed.

Lemma reg_bdu_from b l h n q : In q (reg_bdu_rhs b l h n) -> exists r, In r l
  /\ q = CRow (cr_id q) (if b : bool then "<=" else ">=")
         (if b then rl_init r + (rl_rate r * h / 60) else rl_init r - (rl_rate r * h / 60)) (KUnitOnly (rl_unit r))
  /\ forall s rate init, Permutation (filter (fun a => String.eqb (rl_unit a) (rl_unit r)) l)
       [RegLimit (rl_unit r) "generator" s rate init; RegLimit (rl_unit r) "load" s rate init] ->
     Permutation (at_con (cr_id q) (reg_bdu_map b l n))
       [UC (cr_id q) (rl_unit r) s "generator" (if b then 1 else -(1)); UC (cr_id q) (rl_unit r) s "load" (if b then 1 else -(1));
        UC (cr_id q) (rl_unit r) "energy" "generator" 1; UC (cr_id q) (rl_unit r) "energy" "load" 1].
Proof.
  clear. intros H. unfold reg_bdu_rhs in H. apply in_map_iff in H. destruct H as [[i r] [<- Hi]]. exists r.
  pose proof (in_save_index _ _ _ Hi) as [_ Hr]. apply drop_duplicates_incl in Hr. split; [exact Hr|]. split; [reflexivity|].
  intros s rate init P. cbn [cr_id]. set (u := rl_unit r) in *.
  unfold reg_bdu_map. rewrite at_con_app. unfold at_con. rewrite !filter_map_comm. cbn [uc_con].
  rewrite (merge_filter_l (fun q : nat * reg_limit => Nat.eqb (fst q) i)).
  unfold reg_bdu_ids in *. rewrite (filter_save_index n _ i r Hi), merge_one_l. cbn [snd]. fold u.
  rewrite (filter_ext _ (fun a => String.eqb (rl_unit a) u)) by (intros; apply String.eqb_sym).
  rewrite !map_map. cbn [fst snd]. fold u.
  change [UC i u s "generator" (if b then 1 else - (1)); UC i u s "load" (if b then 1 else - (1)); 
       UC i u "energy" "generator" 1; UC i u "energy" "load" 1]
    with ([UC i u s "generator" (if b then 1 else - (1)); UC i u s "load" (if b then 1 else - (1))] ++ 
       [UC i u "energy" "generator" 1; UC i u "energy" "load" 1]).
  apply Permutation_app.
  - exact (Permutation_map (fun a => UC i u (rl_service a) (rl_dt a) (if b then 1 else -(1))) P).
  - exact (Permutation_map (fun a => UC i u "energy" (rl_dt a) 1) P).
Qed.

Lemma jrb_exact k (b : bool) l h s : s <> "energy" -> (forall a, In a l -> two_sided (m_cfg m) (rl_unit a)
     /\ Permutation (filter (fun r => String.eqb (rl_unit r) (rl_unit a)) l)
          [RegLimit (rl_unit a) "generator" s (rl_rate a) (rl_init a); RegLimit (rl_unit a) "load" s (rl_rate a) (rl_init a)]) ->
  firm m (WUnit k (reg_bdu_rhs b l h) (reg_bdu_map b l)) \/ l = [] ->
  ((l <> [] -> write_ok (WUnit k (reg_bdu_rhs b l h) (reg_bdu_map b l))) <->
   forall a, In a l -> (exists s' d, (s' = s \/ s' = "energy") /\ (d = "generator" \/ d = "load") /\ offers m (rl_unit a) s' d) ->
     let reg := dispatch m x (rl_unit a) s "generator" + dispatch m x (rl_unit a) s "load" in
     if b then net_energy m x (rl_unit a) + reg <= rl_init a + rl_rate a * h / 60
     else rl_init a - rl_rate a * h / 60 <= net_energy m x (rl_unit a) - reg).
Proof.
  clear HE HN. intros NE Two S.
  assert (L : l = [] \/ l <> []) by (destruct l; [now left|right; discriminate]).
  destruct L as [E0|Ne]; [subst l; split; [intros _ a []|intros _ N; now elim N]|].
  destruct S as [S|E0]; [|now elim Ne]. destruct (unit_write _ _ _ S) as [n [Hk [G1 [G2 E]]]].
  assert (W : (l <> [] -> write_ok (WUnit k (reg_bdu_rhs b l h) (reg_bdu_map b l))) <-> rows_ok m x (reg_bdu_rhs b l h n)) by (rewrite E; tauto).
  rewrite W. clear W E S.
  assert (One : forall q u rate init, In q (reg_bdu_rhs b l h n) -> two_sided (m_cfg m) u ->
     cr_type q = (if b then "<=" else ">=") -> cr_rhs q = (if b then init + (rate * h / 60) else init - (rate * h / 60)) ->
     Permutation (at_con (cr_id q) (reg_bdu_map b l n))
       [UC (cr_id q) u s "generator" (if b then 1 else -(1)); UC (cr_id q) u s "load" (if b then 1 else -(1));
        UC (cr_id q) u "energy" "generator" 1; UC (cr_id q) u "energy" "load" 1] ->
     (row_ok m x q <-> ((exists s' d, (s' = s \/ s' = "energy") /\ (d = "generator" \/ d = "load") /\ offers m u s' d) ->
        let reg := dispatch m x u s "generator" + dispatch m x u s "load" in
        if b then net_energy m x u + reg <= init + rate * h / 60 else init - rate * h / 60 <= net_energy m x u - reg))).
  { intros q u rate init Hq T Et Er P.
    rewrite (net_row k _ _ q _ u Hk G1 G2 Hq P); [|intros a [<-|[<-|[<-|[<-|[]]]]]; cbn; auto|exact T].
    apply (bdu_true _ _ m (proj1 HO) eq_refl) in T.
    match goal with |- context [relation _ (sumQ ?f ?l) _] => assert (V : sumQ f l ==
      net_energy m x u + (if b then 1 else -(1)) * (dispatch m x u s "generator" + dispatch m x u s "load")) end.
    { rewrite !sumQ_cons, sumQ_nil. cbn [uc_coef uc_service uc_dt]. rewrite !sign_gen, (sign_load m u T), (sign_fcas m u s) by exact NE.
      unfold net_energy. destruct b; ring. }
    assert (Ex : (exists a, In a [UC (cr_id q) u s "generator" (if b then 1 else -(1)); UC (cr_id q) u s "load" (if b then 1 else -(1));
        UC (cr_id q) u "energy" "generator" 1; UC (cr_id q) u "energy" "load" 1] /\ offers m u (uc_service a) (uc_dt a))
      <-> exists s' d, (s' = s \/ s' = "energy") /\ (d = "generator" \/ d = "load") /\ offers m u s' d).
    { split.
      - intros [a [[<-|[<-|[<-|[<-|[]]]]] O]]; cbn [uc_service uc_dt] in O; eauto 10.
      - intros [s' [d [[-> | ->] [[-> | ->] O]]]];
        [exists (UC (cr_id q) u s "generator" (if b then 1 else -(1)))|exists (UC (cr_id q) u s "load" (if b then 1 else -(1)))
        |exists (UC (cr_id q) u "energy" "generator" 1)|exists (UC (cr_id q) u "energy" "load" 1)]; (split; [cbn; auto|exact O]). }
    rewrite Ex, Et, Er. clear Ex. cbv zeta. rewrite (relation_iff _ _ _ _ _ V (Qeq_refl _)). clear.
    destruct b; [rewrite relation_le|rewrite relation_ge]; split; intros H O; specialize (H O); lra. }
  split.
  - intros H a Ha O. destruct (Two a Ha) as [T P]. destruct (reg_bdu_row b l h n _ _ _ _ P) as [i [R A]].
    exact (proj1 (One _ _ _ _ R T eq_refl eq_refl A) (H _ R) O).
  - intros H q Hq. destruct (reg_bdu_from _ _ _ _ _ Hq) as [r [Hr [Eq A]]]. destruct (Two r Hr) as [T P].
    apply (One q (rl_unit r) (rl_rate r) (rl_init r) Hq T); [rewrite Eq; reflexivity|rewrite Eq; reflexivity|exact (A _ _ _ P)|].
    exact (H r Hr).
Qed.

Lemma joint_ramping_exact m' l p : check_reg_ramp m' l = None ->
  (forall r, In r l -> two_sided (m_cfg m) (rg_unit r) -> forall s, In s ["raise_reg"; "lower_reg"] ->
     (offers m (rg_unit r) s "generator" <-> offers m (rg_unit r) s "load")) ->
  let h := c_interval (m_cfg m) in
  let rates := map (fun r => Ramp (rg_unit r) "" (rg_init r) (rg_up r) (rg_down r)) l in
  let vs := rows_or_nil (m_bids m) in
  let ro := jr_ordinary m (reg_limits vs "raise_reg" rr_up rates) in
  let rb := jr_bdu m (reg_limits vs "raise_reg" rr_up rates) in
  let lo := jr_ordinary m (reg_limits vs "lower_reg" rr_down rates) in
  let lb := jr_bdu m (reg_limits vs "lower_reg" rr_down rates) in
  let wr := WUnit "joint_ramping_raise_reg" (joint_ramping_rhs raise_gen raise_load ro h) (joint_ramping_map raise_gen raise_load ro) in
  let wrb := WUnit "joint_ramping_raise_reg_bdu" (reg_bdu_rhs true rb h) (reg_bdu_map true rb) in
  let wl := WUnit "joint_ramping_lower_reg" (joint_ramping_rhs lower_gen lower_load lo h) (joint_ramping_map lower_gen lower_load lo) in
  let wlb := WUnit "joint_ramping_lower_reg_bdu" (reg_bdu_rhs false lb h) (reg_bdu_map false lb) in
  firm m wr \/ ro = [] -> firm m wrb \/ rb = [] -> firm m wl \/ lo = [] -> firm m wlb \/ lb = [] ->
  ((ro <> [] -> write_ok wr) /\ (rb <> [] -> write_ok wrb) /\ (lo <> [] -> write_ok wl) /\ (lb <> [] -> write_ok wlb)
   <-> obeys ops m x (OpJointRamping l p "no_fast_start_units" None)).
Proof.
  clear HE HN. intros Ck Both h rates vs ro rb lo lb wr wrb wl wlb S1 S2 S3 S4.
  assert (Bi : forall u, mem_str u (m_bdu m) = true <-> two_sided (m_cfg m) u).
  { intros u. split; [intros B; apply (bidirectional_iff (m_cfg m)); [apply HO|now apply mem_str_in]|apply (bdu_true _ _ m (proj1 HO) eq_refl)]. }
  assert (Inv : forall s rate a, In a (reg_limits vs s rate rates) -> (rl_dt a = "generator" \/ rl_dt a = "load")
     /\ exists r, In r l /\ rl_unit a = rg_unit r /\ rl_rate a = rate (Ramp (rg_unit r) "" (rg_init r) (rg_up r) (rg_down r))
        /\ rl_init a = rg_init r /\ offers m (rl_unit a) s (rl_dt a)).
  { intros s rate a Ha. apply reg_limits_inv in Ha. destruct Ha as [_ [v [r [Hv [Sv [Hr [Er [Ev [Ed [R1 R2]]]]]]]]]].
    unfold rates in Hr. apply in_map_iff in Hr. destruct Hr as [g [<- Hg]]. cbn [rr_unit rr_init] in *.
    split; [rewrite <- Ed; apply (bid_dt m v (proj1 HO) Hv)|].
    exists g. repeat split; auto. exists v. auto. }
  assert (Has : forall s rate r d, In r l -> offers m (rg_unit r) s d ->
     In (RegLimit (rg_unit r) d s (rate (Ramp (rg_unit r) "" (rg_init r) (rg_up r) (rg_down r))) (rg_init r)) (reg_limits vs s rate rates)).
  { intros s rate r d Hr [v [Hv [E1 [E2 E3]]]].
    pose proof (reg_limits_has vs s rate rates v (Ramp (rg_unit r) "" (rg_init r) (rg_up r) (rg_down r)) Hv E2) as X.
    rewrite E1, E3 in X. cbn [rr_init rr_unit] in X. apply X; [|reflexivity]. unfold rates. apply in_map_iff. exists r. auto. }
  assert (Ord : forall L a, In a (jr_ordinary m L) <-> In a L /\ ~ two_sided (m_cfg m) (rl_unit a)).
  { intros L a. unfold jr_ordinary. rewrite filter_In, negb_true_iff, <- Bi. destruct (mem_str (rl_unit a) (m_bdu m)); intuition congruence. }
  assert (Bdu : forall L a, In a (jr_bdu m L) <-> In a L /\ two_sided (m_cfg m) (rl_unit a)).
  { intros L a. unfold jr_bdu. rewrite filter_In, <- Bi. reflexivity. }
  assert (NBo : forall L a, In a (jr_ordinary m L) -> mem_str (rl_unit a) (m_bdu m) = false).
  { intros L a H. unfold jr_ordinary in H. apply filter_In in H. now apply negb_true_iff. }
  assert (Two : forall s rate, In s ["raise_reg"; "lower_reg"] -> forall a, In a (jr_bdu m (reg_limits vs s rate rates)) -> two_sided (m_cfg m) (rl_unit a)
     /\ Permutation (filter (fun r => String.eqb (rl_unit r) (rl_unit a)) (jr_bdu m (reg_limits vs s rate rates)))
          [RegLimit (rl_unit a) "generator" s (rl_rate a) (rl_init a); RegLimit (rl_unit a) "load" s (rl_rate a) (rl_init a)]).
  { intros s rate Hs a Ha. apply Bdu in Ha. destruct Ha as [Ha T]. split; [exact T|]. rewrite filter_jr_bdu by now apply Bi.
    destruct (Inv _ _ _ Ha) as [Dt [r [Hr [Eu [Er [Ei Of]]]]]]. rewrite Er, Ei, Eu in *.
    specialize (Both r Hr T s Hs).
    assert (OO : offers m (rg_unit r) s "generator" /\ offers m (rg_unit r) s "load") by (destruct Dt as [D|D]; rewrite D in Of; tauto).
    exact (reg_limits_unit m s rate rates _ (rg_unit r) (proj1 HO) (rate_rows m' l r Ck Hr) (proj1 OO) (proj2 OO)). }
  unfold wr, wl, wrb, wlb in *.
  rewrite (jr_exact "joint_ramping_raise_reg" raise_gen raise_load ro h); try discriminate; try reflexivity; try assumption;
    [|intros a Ha; now apply NBo in Ha|intros a Ha; apply Ord in Ha; now apply (Inv "raise_reg" rr_up)].
  rewrite (jr_exact "joint_ramping_lower_reg" lower_gen lower_load lo h); try discriminate; try reflexivity; try assumption;
    [|intros a Ha; now apply NBo in Ha|intros a Ha; apply Ord in Ha; now apply (Inv "lower_reg" rr_down)].
  rewrite (jrb_exact "joint_ramping_raise_reg_bdu" true rb h "raise_reg"); [|discriminate|apply Two; cbn; auto|assumption].
  rewrite (jrb_exact "joint_ramping_lower_reg_bdu" false lb h "lower_reg"); [|discriminate|apply Two; cbn; auto|assumption].
  cbn [obeys rs_service raise_gen lower_gen]. fold h. split.
  - intros [Hr [Hrb [Hl Hlb]]]. split.
    + intros r d Hd Nt. cbv zeta. split; intros [R [s [[<-|[]] Of]]].
      * pose proof (Has "raise_reg" rr_up r d Hd Of) as Ha. specialize (Hr _ (proj2 (Ord _ _) (conj Ha Nt))). cbn [rl_unit rl_dt rl_rate rl_init rr_up] in Hr.
        assert (Lo : listed_offer m (rg_unit r) d ["raise_reg"; "energy"]) by (split; [exact R|]; exists "raise_reg"; cbn; auto).
        specialize (Hr Lo). destruct (String.eqb d "generator"); cbn [rs_type rs_coef rs_dir raise_gen raise_load] in Hr.
        -- apply relation_le in Hr. lra.
        -- apply relation_ge in Hr. lra.
      * pose proof (Has "lower_reg" rr_down r d Hd Of) as Ha. specialize (Hl _ (proj2 (Ord _ _) (conj Ha Nt))). cbn [rl_unit rl_dt rl_rate rl_init rr_down] in Hl.
        assert (Lo : listed_offer m (rg_unit r) d ["lower_reg"; "energy"]) by (split; [exact R|]; exists "lower_reg"; cbn; auto).
        specialize (Hl Lo). destruct (String.eqb d "generator"); cbn [rs_type rs_coef rs_dir lower_gen lower_load] in Hl.
        -- apply relation_ge in Hl. lra.
        -- apply relation_le in Hl. lra.
    + intros r Hd T. cbv zeta. split; intros O.
      * assert (O' : exists d, (d = "generator" \/ d = "load") /\ offers m (rg_unit r) "raise_reg" d) by (destruct O as [O|O]; eauto).
        destruct O' as [d [Dd Of]]. pose proof (Has "raise_reg" rr_up r d Hd Of) as Ha.
        specialize (Hrb _ (proj2 (Bdu _ _) (conj Ha T))). cbn [rl_unit rl_dt rl_rate rl_init rr_up] in Hrb. apply Hrb. exists "raise_reg", d. auto.
      * assert (O' : exists d, (d = "generator" \/ d = "load") /\ offers m (rg_unit r) "lower_reg" d) by (destruct O as [O|O]; eauto).
        destruct O' as [d [Dd Of]]. pose proof (Has "lower_reg" rr_down r d Hd Of) as Ha.
        specialize (Hlb _ (proj2 (Bdu _ _) (conj Ha T))). cbn [rl_unit rl_dt rl_rate rl_init rr_down] in Hlb. apply Hlb. exists "lower_reg", d. auto.
  - intros [H HB]. split; [|split; [|split]].
    + intros a Ha Lo. apply Ord in Ha. destruct Ha as [Ha Nt]. apply Inv in Ha. destruct Ha as [_ [r [Hr [Eu [Er [Ei Of]]]]]]. rewrite Eu in Nt.
      destruct (H r (rl_dt a) Hr Nt) as [H1 _]; cbv zeta in H1. rewrite <- Eu in *; cbn [rr_up rr_down] in Er; rewrite Er, Ei.
      assert (Lo' : listed_offer m (rl_unit a) (rl_dt a) ["raise_reg"]) by (split; [apply Lo|]; exists "raise_reg"; cbn; auto).
      specialize (H1 Lo'). destruct (String.eqb (rl_dt a) "generator"); cbn [rs_type rs_coef rs_dir raise_gen raise_load].
      * apply relation_le. lra.
      * apply relation_ge. lra.
    + intros a Ha O. apply Bdu in Ha. destruct Ha as [Ha T]. apply Inv in Ha. destruct Ha as [Dt [r [Hr [Eu [Er [Ei Of]]]]]]. rewrite Eu in T.
      destruct (HB r Hr T) as [H1 _]; cbv zeta in H1 |- *. cbn [rr_up] in Er. rewrite Er, Ei, Eu in *. apply H1. destruct Dt as [D|D]; rewrite D in Of; auto.
    + intros a Ha Lo. apply Ord in Ha. destruct Ha as [Ha Nt]. apply Inv in Ha. destruct Ha as [_ [r [Hr [Eu [Er [Ei Of]]]]]]. rewrite Eu in Nt.
      destruct (H r (rl_dt a) Hr Nt) as [_ H2]; cbv zeta in H2. rewrite <- Eu in *; cbn [rr_up rr_down] in Er; rewrite Er, Ei.
      assert (Lo' : listed_offer m (rl_unit a) (rl_dt a) ["lower_reg"]) by (split; [apply Lo|]; exists "lower_reg"; cbn; auto).
      specialize (H2 Lo'). destruct (String.eqb (rl_dt a) "generator"); cbn [rs_type rs_coef rs_dir lower_gen lower_load].
      * apply relation_ge. lra.
      * apply relation_le. lra.
    + intros a Ha O. apply Bdu in Ha. destruct Ha as [Ha T]. apply Inv in Ha. destruct Ha as [Dt [r [Hr [Eu [Er [Ei Of]]]]]]. rewrite Eu in T.
      destruct (HB r Hr T) as [_ H2]; cbv zeta in H2 |- *. cbn [rr_down] in Er. rewrite Er, Ei, Eu in *. apply H2. destruct Dt as [D|D]; rewrite D in Of; auto.
Qed.

(** ** Regions *)

Lemma reg_var_offers v : In v (rows_or_nil (m_reg_bids m)) -> region_offers m (rv_region v) (rv_service v).
Proof.
  clear HU HE HN. intros H. destruct (bids_tables m (proj1 HO)) as [vs [E1 [E2 _]]]. rewrite E2 in H.
  unfold bid_regional_map, bid_constraint_map in H. apply in_map_iff in H. destruct H as [[b u] [<- H]]. apply in_merge in H.
  destruct H as [Hb [Hu E]]. apply andb_true_iff in E. rewrite !String.eqb_eq in E. destruct E as [Eu Ed]. cbn [rv_region rv_service].
  exists u. split; [exact Hu|]. split; [reflexivity|]. exists b. rewrite E1. auto.
Qed.

Lemma regional_row_has k rows cs r l : hard_regional m k -> dget k (m_mrhs m) = Some rows -> dget k (m_c2v_reg m) = Some cs ->
  In r rows -> In l (all_lhs m) -> l_con l = cr_id r ->
  (In l (generic_lhs m) /\ k = "fcas") \/ exists a v, In a cs /\ rc_con a = cr_id r /\ In v (regional_vars m)
    /\ rc_region a = rv_region v /\ rc_service a = rv_service v.
Proof.
  clear HE HN HU. intros [Hk Qk] G1 G2 Hr Hl El. destruct HO as [W [f [n O]]].
  assert (Fr : f (cr_id r) = GMkt k) by (apply dget_in in G1; apply (ow_mrhs _ _ _ O _ _ _ G1 Hr)).
  unfold all_lhs in Hl. apply in_app_or in Hl. destruct Hl as [Hl|Hl].
  { exfalso. assert (K : k <> "tie_break" /\ k <> "interpolation_weights") by (destruct Hk as [<-|[<-|[]]]; split; discriminate).
    apply (quiet_lhs m f n k l O Qk (proj1 K) (proj2 K)); [right; congruence|exact Hl]. }
  apply in_app_or in Hl. destruct Hl as [Hl|Hl].
  { left. split; [exact Hl|]. apply (own_generic f n) in Hl; auto. rewrite El, Fr in Hl. destruct Hl as [Hl|Hl]; inversion Hl. reflexivity. }
  apply in_app_or in Hl. destruct Hl as [Hl|Hl].
  - right. apply in_regional_lhs in Hl. destruct Hl as [a [v [H1 [Hv [E1 [E2 ->]]]]]]. cbn in El. apply in_dconcat in H1.
    destruct H1 as [k' [cs' [H1 H2]]]. destruct (ow_reg _ _ _ O _ _ _ H1 H2) as [E _]. rewrite El, Fr in E.
    inversion E; subst k'. apply in_dget in H1; [|apply (ow_keys _ _ _ O)]. rewrite G2 in H1. inversion H1; subst cs'.
    exists a, v. auto.
  - exfalso. apply in_unit_lhs in Hl. destruct Hl as [a [v [H1 [_ [_ [_ [_ ->]]]]]]]. cbn in El. apply in_dconcat in H1.
    destruct H1 as [k' [cs' [H1 H2]]]. destruct (ow_unit _ _ _ O _ _ _ H1 H2). congruence.
Qed.

Lemma regional_write k mr mm : firm m (WReg k mr mm) -> exists n, hard_regional m k
  /\ dget k (m_mrhs m) = Some (mr n) /\ dget k (m_c2v_reg m) = Some (mm n)
  /\ (write_ok (WReg k mr mm) <-> rows_ok m x (mr n)).
Proof.
  clear HE HN HU. intros [[Hk [n [G1 G2]]] Qk]. exists n. split; [split; [exact Hk|exact Qk]|]. split; [exact G1|]. split; [exact G2|]. cbn [write_ok wkey]. split.
  - intros H. now apply H.
  - intros H rows E. rewrite G1 in E. now inversion E; subst.
Qed.

Lemma demand_exact l n0 nv : network_tables (directions ops) (loss_functions ops) n0 nv m ->
  (forall d, In d (directions ops) -> in_from d <> in_to d) ->
  firm m (WReg "demand" (energy_rhs l) (energy_map l)) ->
  (write_ok (WReg "demand" (energy_rhs l) (energy_map l)) <-> obeys ops m x (OpDemand l None)).
Proof.
  clear HE HN HU. intros T NL S. destruct (regional_write _ _ _ S) as [n [Hk [G1 [G2 E]]]]. rewrite E. clear E.
  assert (P : forall i d, In (i, d) (save_index n l) ->
    (row_ok m x (CRow i "=" (de_demand d) (KRegion (de_region d))) <->
     (supplied m (directions ops) (de_region d) -> energy_balance m x (directions ops) (loss_functions ops) (de_region d) == de_demand d))).
  { intros i d Hi. set (r := CRow i "=" (de_demand d) (KRegion (de_region d))).
    assert (Hr : In r (energy_rhs l n)) by (unfold energy_rhs; apply in_map_iff; exists (i, d); auto).
    assert (V : row_value (all_lhs m) x (cr_id r) == energy_balance m x (directions ops) (loss_functions ops) (de_region d)).
    { rewrite (regional_row_value m "demand" _ _ r x HO ltac:(discriminate) (conj G1 (conj G2 (no_silent _ _ (proj2 Hk)))) Hr).
      cbn [cr_id r]. rewrite (demand_row_value m x l n i d Hi). apply (balance_value m x _ _ n0 nv); auto. apply HO. }
    split.
    - intros H Su. rewrite <- V. apply (relation_eq _ (cr_rhs r)). apply H.
      destruct (supplied_var m _ _ n0 nv (de_region d) (proj1 HO) T Su) as [w [Hv [V1 V2]]].
      apply (regional_row_lhs m "demand" _ _ _ (RC i (de_region d) "energy" 1) w G2 Hr); auto.
      unfold energy_map. apply in_map_iff. exists (i, d). auto.
    - intros H [lr [Hl El]]. cbn [cr_type r cr_rhs]. apply relation_eq. rewrite V. apply H.
      destruct (regional_row_has "demand" _ _ r lr Hk G1 G2 Hr Hl El) as [[_ F]|[a [v [Ha [Ea [Hv [E1 E2]]]]]]]; [discriminate F|].
      unfold energy_map in Ha. apply in_map_iff in Ha. destruct Ha as [[j e] [<- Ha]]. cbn [rc_con rc_region rc_service cr_id r] in *. subst j.
      assert (X : (i, e) = (i, d)) by (eapply save_index_inj; eauto). inversion X; subst e.
      assert (Ends : forall ir, In ir (inter_regional_map (directions ops) n0) ->
        exists e, In e (directions ops) /\ (in_to e = rv_region (ir_rv ir) \/ in_from e = rv_region (ir_rv ir))).
      { intros ir Hir. unfold inter_regional_map in Hir. apply in_app_or in Hir.
        destruct Hir as [Hir|Hir]; apply in_map_iff in Hir; destruct Hir as [[j e] [<- Hir]]; cbn;
          exists e; apply in_save_index in Hir; cbn [snd] in Hir; intuition. }
      unfold regional_vars in Hv. apply in_app_or in Hv. destruct Hv as [Hv|Hv]; [|apply in_app_or in Hv; destruct Hv as [Hv|Hv]].
      + left. rewrite E1, E2. now apply reg_var_offers.
      + right. rewrite (nt_reg _ _ _ _ _ T) in Hv. apply in_map_iff in Hv. destruct Hv as [ir [<- Hv]]. rewrite E1. now apply Ends.
      + right. rewrite (nt_reg_loss _ _ _ _ _ T) in Hv. unfold loss_regional_map in Hv. apply in_map_iff in Hv.
        destruct Hv as [[[[j iv] [f from]] ir] [<- Hv]]. apply in_merge in Hv. destruct Hv as [_ [Hv _]]. cbn [rv_region] in E1.
        rewrite E1. now apply Ends. }
  cbn [obeys]. split.
  - intros H d Hd. destruct (save_index_in n l d Hd) as [i Hi]. apply (P i d Hi). apply H. unfold energy_rhs. apply in_map_iff. exists (i, d). auto.
  - intros H r Hr. destruct (demand_rows l n r Hr) as [d [Hd [Hi ->]]]. cbn [cr_id] in Hi. apply (P _ d Hi). now apply H.
Qed.

Lemma linked_has gu gr gi r s l : link_tables gu gr gi m ->
  In r (rows_or_nil (dget "generic" (m_rhs m)) ++ rows_or_nil (dget "fcas" (m_mrhs m))) -> cr_key r = KSet s ->
  In l (generic_lhs m) -> l_con l = cr_id r -> some_linked m gu gr gi s.
Proof.
  clear HE HN HU. intros [T1 [T2 T3]] Hr Ek Hl El. pose proof (proj1 HO) as W. pose proof (generic_ids_NoDup m W) as ND.
  unfold generic_lhs in Hl. destruct (generic_ids m) as [ids|] eqn:EI; [|destruct Hl].
  assert (Ei : ids = rows_or_nil (dget "generic" (m_rhs m)) ++ rows_or_nil (dget "fcas" (m_mrhs m))).
  { unfold generic_ids in EI. destruct (dget "generic" (m_rhs m)), (dget "fcas" (m_mrhs m)); inversion EI; auto. }
  rewrite <- Ei in Hr, ND.
  assert (Same : forall r', In r' ids -> cr_id r' = cr_id r -> r' = r) by (intros; now apply (NoDup_map_inj cr_id ids)).
  assert (Set_ : forall s', in_set r s' = true -> s' = s).
  { intros s'. unfold in_set. rewrite Ek. intros H. apply String.eqb_eq in H. congruence. }
  apply in_app_or in Hl. destruct Hl as [Hl|Hl]; [|apply in_app_or in Hl; destruct Hl as [Hl|Hl]].
  - destruct (m_gen_unit m) as [gs|]; [|destruct Hl]. destruct (m_unit_bids m) as [us|] eqn:EU; [|destruct Hl]. cbn in T1. subst gs.
    apply in_map_iff in Hl. destruct Hl as [[[g v] r'] [<- Hl]]. cbn in El. apply in_merge in Hl. destruct Hl as [H1 [H2 H3]].
    rewrite (Same r' H2 El) in H3. cbn [fst] in H3. apply Set_ in H3. apply in_merge in H1. destruct H1 as [Hg [Hv E]].
    apply andb_true_iff in E. rewrite !String.eqb_eq in E. destruct E as [E1 E2].
    left. exists g, (uv_dt v). split; [exact Hg|]. split; [exact H3|]. rewrite E1, E2. apply (uv_offers m v W). rewrite EU. exact Hv.
  - destruct (m_gen_region m) as [gs|]; [|destruct Hl]. destruct (m_reg_bids m) as [us|] eqn:EU; [|destruct Hl]. cbn in T2. subst gs.
    apply in_map_iff in Hl. destruct Hl as [[[g v] r'] [<- Hl]]. cbn in El. apply in_merge in Hl. destruct Hl as [H1 [H2 H3]].
    rewrite (Same r' H2 El) in H3. cbn [fst] in H3. apply Set_ in H3. apply in_merge in H1. destruct H1 as [Hg [Hv E]].
    apply andb_true_iff in E. rewrite !String.eqb_eq in E. destruct E as [E1 E2].
    right. left. exists g. split; [exact Hg|]. split; [exact H3|]. rewrite E1, E2. apply reg_var_offers. rewrite EU. exact Hv.
  - destruct (m_gen_inter m) as [gs|]; [|destruct Hl]. destruct (m_inter m) as [us|] eqn:EU; [|destruct Hl]. cbn in T3. subst gs.
    apply in_map_iff in Hl. destruct Hl as [[[g v] r'] [<- Hl]]. cbn in El. apply in_merge in Hl. destruct Hl as [H1 [H2 H3]].
    rewrite (Same r' H2 El) in H3. cbn [fst] in H3. apply Set_ in H3. apply in_merge in H1. destruct H1 as [Hg [Hv E]].
    apply String.eqb_eq in E. right. right. exists g, v. rewrite EU. auto.
Qed.

Lemma generic_exact l : link_tables (unit_links ops) (region_links ops) (inter_links ops) m ->
  firm m (WGeneric l) -> (write_ok (WGeneric l) <-> obeys ops m x (OpGeneric l None)).
Proof.
  clear HE HN. intros T [[n G] Qk]. cbn [write_ok wkey obeys] in *.
  assert (P : forall i g, In (i, g) (save_index n l) ->
    (row_ok m x (CRow i (ge_type g) (ge_rhs g) (KSet (ge_set g))) <->
     (some_linked m (unit_links ops) (region_links ops) (inter_links ops) (ge_set g) ->
      relation (ge_type g) (linked m x (unit_links ops) (region_links ops) (inter_links ops) (ge_set g)) (ge_rhs g)))).
  { intros i g Hi. set (r := CRow i (ge_type g) (ge_rhs g) (KSet (ge_set g))).
    assert (Hr : In r (generic_rhs l n)) by (unfold generic_rhs; apply in_map_iff; exists (i, g); auto).
    assert (Hr2 : In r (rows_or_nil (dget "generic" (m_rhs m)) ++ rows_or_nil (dget "fcas" (m_mrhs m)))).
    { apply in_or_app. left. rewrite G. exact Hr. }
    assert (V : row_value (all_lhs m) x (cr_id r) == linked m x (unit_links ops) (region_links ops) (inter_links ops) (ge_set g)).
    { rewrite (generic_row_value m _ r x HO HU (conj G (no_silent _ _ Qk)) Hr).
      exact (generic_value m x _ _ _ r _ (proj1 HO) T Hr2 eq_refl). }
    split.
    - intros H So. eapply relation_iff; [symmetry; exact V|reflexivity|]. apply H.
      destruct (some_linked_row m _ _ _ r (ge_set g) (proj1 HO) T Hr2 eq_refl So) as [lr [Hl El]].
      exists lr. split; [|exact El]. unfold all_lhs. apply in_or_app. right. apply in_or_app. left. exact Hl.
    - intros H [lr [Hl El]]. eapply relation_iff; [exact V|reflexivity|]. apply H.
      apply (linked_has _ _ _ r (ge_set g) lr T Hr2 eq_refl); [|exact El].
      destruct HO as [W [f [n' O]]].
      assert (Fr : f (cr_id r) = GRhs "generic") by (apply dget_in in G; apply (ow_rhs _ _ _ O _ _ _ G Hr)).
      unfold all_lhs in Hl. apply in_app_or in Hl. destruct Hl as [Hl|Hl].
      { exfalso. apply (quiet_lhs m f n' "generic" lr O Qk); [discriminate|discriminate|left; congruence|exact Hl]. }
      apply in_app_or in Hl. destruct Hl as [Hl|Hl]; [exact Hl|].
      exfalso. apply in_app_or in Hl. destruct Hl as [Hl|Hl].
      + apply in_regional_lhs in Hl. destruct Hl as [a [v [H1 [_ [_ [_ ->]]]]]]. cbn in El. apply in_dconcat in H1.
        destruct H1 as [k' [cs' [H1 H2]]]. destruct (ow_reg _ _ _ O _ _ _ H1 H2) as [E _]. cbn [cr_id r] in Fr. congruence.
      + apply in_unit_lhs in Hl. destruct Hl as [a [v [H1 [_ [_ [_ [_ ->]]]]]]]. cbn in El. apply in_dconcat in H1.
        destruct H1 as [k' [cs' [H1 H2]]]. destruct (ow_unit _ _ _ O _ _ _ H1 H2) as [E _]. cbn [cr_id r] in Fr. rewrite El, Fr in E.
        inversion E; subst k'. apply HU in H1. now apply unit_key_ok in H1. }
  split.
  - intros H g Hg. destruct (save_index_in n l g Hg) as [i Hi]. apply (P i g Hi). apply (H _ G).
    unfold generic_rhs. apply in_map_iff. exists (i, g). auto.
  - intros H rows E r Hr. rewrite G in E. inversion E; subst rows. unfold generic_rhs in Hr. apply in_map_iff in Hr.
    destruct Hr as [[i g] [<- Hi]]. apply (P i g Hi). apply H. now apply in_save_index in Hi.
Qed.

(** The rows left by dropping duplicates are the first of their kind. *)
Lemma drop_first {A} (same : A -> A -> bool) l b : In b (drop_duplicates same l) ->
  exists pre post, l = pre ++ b :: post /\ forall a, In a pre -> same a b = false.
Proof.
  clear. induction l as [|a t IH]; cbn [drop_duplicates]; [intros []|]. intros [->|H].
  - exists [], t. split; [reflexivity|]. intros ? [].
  - apply filter_In in H. destruct H as [H N]. destruct (IH H) as [pre [post [-> P]]]. exists (a :: pre), post.
    split; [reflexivity|]. intros a' [<-|Ha]; [|now apply P]. now apply negb_true_iff in N.
Qed.

Lemma fcas_exact l : link_tables (unit_links ops) (region_links ops) (inter_links ops) m ->
  (forall r, In r l -> fq_service r <> "energy") ->
  firm m (WReg "fcas" (fcas_rhs l) (fcas_map l)) ->
  (write_ok (WReg "fcas" (fcas_rhs l) (fcas_map l)) <-> obeys ops m x (OpFcasReq l None)).
Proof.
  clear HN HU. intros T Sv S. destruct (regional_write _ _ _ S) as [n [Hk [G1 [G2 E]]]]. rewrite E. clear E. cbn [obeys].
  assert (P : forall i b, In (i, b) (fcas_ids l n) ->
    (row_ok m x (CRow i (fq_type b) (fq_volume b) (KSet (fq_set b))) <->
     ((exists r, In r l /\ fq_set r = fq_set b /\ region_offers m (fq_region r) (fq_service r))
      \/ some_linked m (unit_links ops) (region_links ops) (inter_links ops) (fq_set b) ->
      relation (fq_type b) (set_supply m x l (fq_set b) + linked m x (unit_links ops) (region_links ops) (inter_links ops) (fq_set b)) (fq_volume b)))).
  { intros i b Hi. set (r := CRow i (fq_type b) (fq_volume b) (KSet (fq_set b))).
    assert (Hr : In r (fcas_rhs l n)) by (unfold fcas_rhs; apply in_map_iff; exists (i, b); auto).
    assert (Hr2 : In r (rows_or_nil (dget "generic" (m_rhs m)) ++ rows_or_nil (dget "fcas" (m_mrhs m)))).
    { apply in_or_app. right. rewrite G1. exact Hr. }
    assert (V : row_value (all_lhs m) x (cr_id r)
      == set_supply m x l (fq_set b) + linked m x (unit_links ops) (region_links ops) (inter_links ops) (fq_set b)).
    { rewrite (fcas_row_value m _ _ r x HO (conj G1 (conj G2 (no_silent _ _ (proj2 Hk)))) Hr), (generic_value m x _ _ _ r _ (proj1 HO) T Hr2 eq_refl).
      rewrite Qplus_comm. apply Qplus_comp; [|reflexivity]. unfold regional_value. cbn [cr_id r].
      eapply Qeq_trans; [exact (set_map_value l n i (fq_set b) (fun a s => region_term (regional_vars m) x a s) b Hi eq_refl)|].
      change (set_supply m x l (fq_set b)) with (sumQ (fun r => region_supply m x (fq_region r) (fq_service r))
        (filter (fun r => String.eqb (fq_set b) (fq_set r)) l)). apply sumQ_ext_in. intros q Hq. apply filter_In in Hq.
      apply ancillary_value; [apply HO|exact HE|]. apply Sv. tauto. }
    split.
    - intros H So. eapply relation_iff; [symmetry; exact V|reflexivity|]. apply H.
      destruct So as [[q [Hq [Eq Of]]]|So].
      + destruct Of as [u [Hu [Er [w [Hv [V1 [V2 V3]]]]]]].
        destruct (bids_tables m (proj1 HO)) as [vs [F1 [F2 _]]].
        apply (regional_row_lhs m "fcas" (fcas_rhs l n) (fcas_map l n) r (RC i (fq_region q) (fq_service q) 1)
          (RV (bv_id w) (ui_region u) (bv_service w)
              (if String.eqb (bv_dt w) "load" && String.eqb (bv_service w) "energy" then -(1) else 1))); auto.
        * unfold fcas_map. apply in_map_iff. exists (q, (i, b)). split; [reflexivity|]. apply in_merge. cbn [snd].
          rewrite Eq, String.eqb_refl. auto.
        * unfold regional_vars. apply in_or_app. left. rewrite F2. unfold bid_regional_map, bid_constraint_map.
          apply in_map_iff. exists (w, u). split; [reflexivity|]. apply in_merge. rewrite F1 in Hv.
          rewrite V1, V3, !String.eqb_refl. auto.
      + destruct (some_linked_row m _ _ _ r (fq_set b) (proj1 HO) T Hr2 eq_refl So) as [lr [Hl Ell]].
        exists lr. split; [|exact Ell]. unfold all_lhs. apply in_or_app. right. apply in_or_app. left. exact Hl.
    - intros H [lr [Hl El]]. eapply relation_iff; [exact V|reflexivity|]. apply H.
      destruct (regional_row_has "fcas" _ _ r lr Hk G1 G2 Hr Hl El) as [[Hg _]|[a [v [Ha [Ea [Hv [E1 E2]]]]]]].
      + right. apply (linked_has _ _ _ r (fq_set b) lr T Hr2 eq_refl Hg El).
      + left. unfold fcas_map in Ha. apply in_map_iff in Ha. destruct Ha as [[q [j b']] [<- Ha]]. apply in_merge in Ha.
        destruct Ha as [Hq [Hj Es]]. cbn [snd] in Es. apply String.eqb_eq in Es. cbn in Ea, E1, E2. subst j.
        assert (X : (i, b') = (i, b)) by (unfold fcas_ids in *; eapply save_index_inj; eauto). inversion X; subst b'.
        exists q. split; [exact Hq|]. split; [exact Es|].
        assert (NE : rv_service v <> "energy") by (rewrite <- E2; now apply Sv).
        unfold regional_vars in Hv. apply in_app_or in Hv. destruct Hv as [Hv|Hv]; [rewrite E1, E2; now apply reg_var_offers|].
        exfalso. apply in_app_or in Hv. destruct Hv as [Hv|Hv].
        * apply in_map_iff in Hv. destruct Hv as [ir [<- Hv]]. apply NE. now apply (proj1 HE).
        * apply NE. now apply (proj2 HE). }
  split.
  - intros H pre b post El Hpre.
    assert (Hb : In b (drop_duplicates (fun a b => String.eqb (fq_set a) (fq_set b)) l)).
    { rewrite El. apply drop_head. intros r Hr. apply String.eqb_neq. auto. }
    pose proof (save_index_in n _ _ Hb) as [i Hi]. fold (fcas_ids l n) in Hi. apply (P i b Hi). apply H.
    unfold fcas_rhs. apply in_map_iff. exists (i, b). auto.
  - intros H r Hr. unfold fcas_rhs in Hr. apply in_map_iff in Hr. destruct Hr as [[i b] [<- Hi]]. apply (P i b Hi).
    assert (Hb : In b (drop_duplicates (fun a b => String.eqb (fq_set a) (fq_set b)) l)).
    { unfold fcas_ids in Hi. now apply in_save_index in Hi. }
    apply drop_first in Hb. destruct Hb as [pre [post [El Hpre]]]. apply (H pre b post El).
    intros r Hr. apply String.eqb_neq. now apply Hpre.
Qed.

End Exact.
