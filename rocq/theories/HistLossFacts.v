(** Lemmas about the historical loss model. *)

From Coq Require Import QArith Qabs ZArith Lqa Lia String List Bool.
Import ListNotations.
From Verif Require Import PandasModel TablesModel InterModel MarketModel SolverModel ReportsModel SpecLp PandasFacts
  SpecHistory SpecDispatch SpecNetwork ReportFacts LossFacts LossModel SpecLoss.
Open Scope string_scope.
Open Scope list_scope.

Lemma apply_rows_ok {A B} (f : A -> B) l r : apply_rows f l = Ok r -> r = map f l /\ l <> [].
Proof. unfold apply_rows. destruct l; [discriminate|]. intros E; injection E as <-. split; [reflexivity|discriminate]. Qed.

(** ** The offsets *)

Lemma demand_rows w region :
  sumQ (fun d : string * Q => snd d) (filter (fun d => String.eqb region (fst d)) (regional_demand (rw_sum w)))
  == demand_of w region.
Proof.
  unfold demand_of, regional_demand. fold (sumQ (fun s => su_supply s + su_forecast s)
    (filter (fun s => String.eqb (su_region s) region) (rw_sum w))).
  induction (rw_sum w) as [|s t IH]; [reflexivity|]. cbn [map filter fst].
  rewrite (String.eqb_sym region). destruct (String.eqb (su_region s) region); [|exact IH].
  rewrite !sumQ_cons, IH. reflexivity.
Qed.

Lemma sum_filter_if {A} (f : A -> Q) p l : sumQ f (filter p l) == sumQ (fun a => if p a then f a else 0) l.
Proof.
  induction l as [|a t IH]; [reflexivity|]. cbn [filter]. rewrite (sumQ_cons (fun a => if p a then f a else 0)).
  destruct (p a); [rewrite sumQ_cons|]; rewrite IH; [reflexivity|ring].
Qed.

Lemma offset_of w id :
  let rows := merge (fun f (d : string * Q) => String.eqb (fm_region f) (fst d)) (rw_lfm w) (regional_demand (rw_sum w)) in
  sumQ (fun p : lfm_row * (string * Q) => snd (snd p) * fm_coef (fst p))
    (filter (fun p => String.eqb (fm_id (fst p)) id) rows) == demand_part w id.
Proof.
  cbn. rewrite sum_filter_if, sumQ_merge. unfold demand_part.
  fold (sumQ (fun f => fm_coef f * demand_of w (fm_region f)) (filter (fun f => String.eqb (fm_id f) id) (rw_lfm w))).
  rewrite sum_filter_if. apply sumQ_ext. intros f. cbn [fst snd]. destruct (String.eqb (fm_id f) id).
  - rewrite <- (demand_rows w (fm_region f)), <- sumQ_scale. apply sumQ_ext. intros d. ring.
  - apply sumQ_zero. intros; reflexivity.
Qed.

Lemma created w fs : create_loss_functions (constraint_table w) (rw_lfm w) (regional_demand (rw_sum w)) = Ok fs ->
  (forall f, In f fs -> exists i, In i (rw_ic w) /\ if_id f = ic_id i /\ if_share f = share_of i
     /\ forall q, if_fun f q == loss_at w i q)
  /\ (forall i, In i (rw_ic w) -> exists f, In f fs /\ if_id f = ic_id i /\ if_share f = share_of i
     /\ forall q, if_fun f q == loss_at w i q).
Proof.
  unfold create_loss_functions. intros H. apply apply_rows_ok in H. destruct H as [-> _].
  set (rows := merge _ _ _). set (offs := groupby_sum _ _ _ rows).
  assert (Eoff : forall i o, In (i, o) (merge_left (fun (i : ic_row) (o : string * Q) => String.eqb (ic_id i) (fst o))
            (constraint_table w) offs) ->
          (match o with Some o => snd o | None => 0 end) == demand_part w (ic_id i)).
  { intros i o Hi. apply in_merge_left in Hi. cbn [fst snd] in Hi. destruct Hi as [_ Hi].
    destruct o as [[k q]|].
    - destruct Hi as [Hk E]. cbn [fst snd] in *. apply String.eqb_eq in E. subst k.
      apply (group_in String.eqb _ _ str_ok) in Hk. destruct Hk as [_ ->]. apply offset_of.
    - rewrite <- offset_of. fold rows. rewrite sum_filter_if. symmetry. apply sumQ_zero. intros [f d] Hf.
      cbn [fst snd]. destruct (String.eqb (fm_id f) (ic_id i)) eqn:E; [|reflexivity]. exfalso.
      apply String.eqb_eq in E.
      assert (Hk := group_made String.eqb (fun p : lfm_row * (string * Q) => fm_id (fst p))
                      (fun p => snd (snd p) * fm_coef (fst p)) str_ok rows (ic_id i)).
      assert (Hm : In (ic_id i) (map (fun p : lfm_row * (string * Q) => fm_id (fst p)) rows)).
      { rewrite <- E. apply (in_map (fun p : lfm_row * (string * Q) => fm_id (fst p)) rows (f, d) Hf). }
      specialize (Hi _ (Hk Hm)). cbn [fst] in Hi. rewrite String.eqb_refl in Hi. discriminate. }
  assert (Ebass : forall i, demand_part w (ic_id (basslink_share i)) = demand_part w (ic_id i)) by reflexivity.
  assert (Efun : forall i o, In (basslink_share i, o) (merge_left (fun (i : ic_row) (o : string * Q) => String.eqb (ic_id i) (fst o))
            (constraint_table w) offs) -> forall q,
     create_function (ic_const (basslink_share i) + match o with Some o => snd o | None => 0 end) (ic_flow (basslink_share i)) q
     == loss_at w i q).
  { intros i o Hi q. pose proof (Eoff _ _ Hi) as E. unfold create_function, loss_at. rewrite E, Ebass. reflexivity. }
  split.
  - intros f Hf. apply in_map_iff in Hf. destruct Hf as [[i' o] [<- Hi]]. pose proof Hi as Hi2.
    apply in_merge_left in Hi2. destruct Hi2 as [Hi2 _]. cbn [fst] in Hi2. apply in_map_iff in Hi2. destruct Hi2 as [i [<- Hin]].
    exists i. split; [exact Hin|]. split; [reflexivity|]. split; [reflexivity|]. exact (Efun i o Hi).
  - intros i Hin.
    assert (exists o, In (basslink_share i, o) (merge_left (fun (i : ic_row) (o : string * Q) => String.eqb (ic_id i) (fst o))
            (constraint_table w) offs)) as [o Ho].
    { destruct (find (fun o : string * Q => String.eqb (ic_id i) (fst o)) offs) as [o|] eqn:F.
      - apply find_some in F. exists (Some o). apply in_merge_left. cbn [fst snd]. split; [now apply in_map|exact F].
      - exists None. apply in_merge_left. cbn [fst snd]. split; [now apply in_map|]. intros b Hb.
        exact (find_none _ _ F b Hb). }
    eexists. split; [apply in_map; exact Ho|]. cbn [fst snd if_id if_share if_fun]. split; [reflexivity|]. split; [reflexivity|].
    exact (Efun i o Ho).
Qed.

(** ** The loss model *)

Lemma loss_at_same w i a b : a == b -> loss_at w i a == loss_at w i b.
Proof. intros E. unfold loss_at. now rewrite E. Qed.

Lemma model_parts w lfs bps : loss_model w = Ok (lfs, bps) ->
  exists fs, create_loss_functions (constraint_table w) (rw_lfm w) (regional_demand (rw_sum w)) = Ok fs
    /\ lfs = map (fun p : inter_row * ifn =>
                LossFn (in_inter (fst p)) (in_link (fst p)) (if_share (snd p)) (adjust (if_fun (snd p)) (in_gcf (fst p))))
               (merge (fun d f => String.eqb (in_inter d) (if_id f)) (definitions w) fs)
    /\ bps = link_points (definitions w) (rw_seg w).
Proof.
  unfold loss_model, bind. intros H. destruct (create_loss_functions _ _ _) as [fs|]; [|discriminate].
  destruct (link_functions _ _) as [l|] eqn:E; [|discriminate]. injection H as <- <-.
  apply apply_rows_ok in E. exists fs. split; [reflexivity|]. split; [apply E|reflexivity].
Qed.

Lemma functions_are w lfs bps : loss_model w = Ok (lfs, bps) ->
  (forall f, In f lfs -> exists d i, In d (definitions w) /\ In i (rw_ic w) /\ function_of d i f
     /\ lf_share f = share_of i /\ forall q, lf_fun f q == loss_at w i (inter_flow d q))
  /\ (forall d i, In d (definitions w) -> In i (rw_ic w) -> ic_id i = in_inter d ->
       exists f, In f lfs /\ function_of d i f /\ lf_share f = share_of i
         /\ forall q, lf_fun f q == loss_at w i (inter_flow d q)).
Proof.
  intros H. destruct (model_parts _ _ _ H) as [fs [C [-> _]]]. destruct (created _ _ C) as [C1 C2]. split.
  - intros f Hf. apply in_map_iff in Hf. destruct Hf as [[d g] [<- Hd]]. apply in_merge in Hd.
    destruct Hd as [Hd [Hg E]]. apply String.eqb_eq in E. destruct (C1 g Hg) as [i [Hi [E2 [E3 E4]]]].
    exists d, i. split; [exact Hd|]. split; [exact Hi|]. split; [repeat split; cbn; congruence|]. split; [exact E3|].
    intros q. cbn [lf_fun fst snd]. unfold adjust. rewrite E4. apply loss_at_same. unfold inter_flow. ring.
  - intros d i Hd Hi E. destruct (C2 i Hi) as [g [Hg [E2 [E3 E4]]]].
    exists (LossFn (in_inter d) (in_link d) (if_share g) (adjust (if_fun g) (in_gcf d))).
    split; [|split; [repeat split; cbn; congruence|split; [exact E3|]]].
    + apply in_map_iff. exists (d, g). split; [reflexivity|]. apply in_merge. split; [exact Hd|]. split; [exact Hg|].
      apply String.eqb_eq. congruence.
    + intros q. cbn [lf_fun]. unfold adjust. rewrite E4. apply loss_at_same. unfold inter_flow. ring.
Qed.

Lemma points_are w lfs bps : loss_model w = Ok (lfs, bps) ->
  forall b, In b bps <-> exists d s, In d (definitions w) /\ In s (rw_seg w) /\ sr_id s = in_inter d
    /\ b = Bp (in_inter d) (in_link d) (sr_seg s * in_gcf d) (sr_point s * inject_Z (in_gcf d)).
Proof.
  intros H. destruct (model_parts _ _ _ H) as [fs [_ [_ ->]]]. intros b. unfold link_points. rewrite in_map_iff. split.
  - intros [[d s] [<- Hd]]. apply in_merge in Hd. destruct Hd as [Hd [Hs E]]. apply String.eqb_eq in E.
    exists d, s. repeat split; auto.
  - intros [d [s [Hd [Hs [E ->]]]]]. exists (d, s). split; [reflexivity|]. apply in_merge. repeat split; auto.
    apply String.eqb_eq. congruence.
Qed.

(** ** The quadratic *)

Lemma loss_zero w i : loss_at w i 0 == 0.
Proof. unfold loss_at. ring. Qed.

Lemma loss_step w i q h : loss_at w i (q + h) - loss_at w i q == (loss_factor w i q - 1) * h + ic_flow i / 2 * (h * h).
Proof. unfold loss_at, loss_factor. field. Qed.

Lemma slope_of (g : Q -> Q) q m k : (forall h, g (q + h) - g q == m * h + k * (h * h)) -> slope g q m.
Proof.
  intros H. exists (Qabs k). split; [apply Qabs_nonneg|]. intros h.
  assert (E : g (q + h) - g q - m * h == k * (h * h)) by (rewrite H; ring). rewrite E, Qabs_Qmult.
  rewrite (Qabs_pos (h * h)); [apply Qle_refl|]. destruct (Qlt_le_dec h 0); nra.
Qed.

Lemma slope_unique g q m m' : slope g q m -> slope g q m' -> m == m'.
Proof.
  intros [B [HB H]] [B' [HB' H']]. destruct (Qeq_dec m m') as [E|N]; [exact E|exfalso].
  set (e := Qabs (m - m')).
  assert (He : 0 < e).
  { unfold e. destruct (Qlt_le_dec 0 (m - m')) as [L|L]; [rewrite Qabs_pos; lra|].
    rewrite Qabs_neg by lra. destruct (Qlt_le_dec 0 (- (m - m'))); [assumption|]. exfalso. apply N. lra. }
  set (h := e / (B + B' + 1)).
  assert (HS : 0 < B + B' + 1) by lra.
  assert (Hh : 0 < h).
  { unfold h. apply Qlt_shift_div_l; lra. }
  assert (Eh : h * (B + B' + 1) == e) by (unfold h; field; lra).
  specialize (H h). specialize (H' h).
  assert (T : Qabs ((m - m') * h) <= (B + B') * (h * h)).
  { setoid_replace ((m - m') * h) with ((g (q + h) - g q - m' * h) - (g (q + h) - g q - m * h)) by ring.
    unfold Qminus at 1. eapply Qle_trans; [apply Qabs_triangle|]. rewrite Qabs_opp. lra. }
  rewrite Qabs_Qmult, (Qabs_pos h) in T by lra. fold e in T. nra.
Qed.

Lemma marginal w i g d : (forall q, g q == loss_at w i (inter_flow d q)) ->
  forall q, slope g q (inject_Z (in_gcf d) * (loss_factor w i (inter_flow d q) - 1)).
Proof.
  intros E q. apply slope_of with (k := ic_flow i / 2 * (inject_Z (in_gcf d) * inject_Z (in_gcf d))). intros h.
  rewrite !E.
  rewrite (loss_at_same w i (inter_flow d (q + h)) (inter_flow d q + inter_flow d h)) by (unfold inter_flow; ring).
  rewrite loss_step. unfold inter_flow. ring.
Qed.

(** A chord of the quadratic lies above it by k/2 (q - a) (b - q). *)
Lemma chord_gap (g : Q -> Q) k c a b q y :
  (forall q, g q == c * q + k / 2 * (q * q)) -> a < b -> interpolates a (g a) b (g b) q y ->
  y - g q == k / 2 * ((q - a) * (b - q)).
Proof.
  intros E L [_ [_ I]]. rewrite !E in I. rewrite E.
  assert (Z : (b - a) * (y - (c * q + k / 2 * (q * q)) - k / 2 * ((q - a) * (b - q))) == 0).
  { setoid_replace ((b - a) * (y - (c * q + k / 2 * (q * q)) - k / 2 * ((q - a) * (b - q))))
      with (y * (b - a) - (b - a) * (c * q + k / 2 * (q * q) + k / 2 * ((q - a) * (b - q)))) by ring.
    rewrite I. ring. }
  apply Qmult_integral in Z. destruct Z as [Z|Z]; lra.
Qed.

Lemma chord_bounds (g : Q -> Q) k c a b q y :
  (forall q, g q == c * q + k / 2 * (q * q)) -> 0 <= k -> a < b -> interpolates a (g a) b (g b) q y ->
  g q <= y /\ y <= g q + k / 8 * ((b - a) * (b - a)).
Proof.
  intros E K L I. pose proof (chord_gap g k c a b q y E L I) as G. destruct I as [I1 [I2 _]].
  assert (P : 0 <= (q - a) * (b - q)) by (apply Qmult_le_0_compat; lra).
  assert (M : 0 <= (b - a) * (b - a) - 4 * ((q - a) * (b - q))).
  { setoid_replace ((b - a) * (b - a) - 4 * ((q - a) * (b - q))) with ((a + b - 2 * q) * (a + b - 2 * q)) by ring.
    destruct (Qlt_le_dec (a + b - 2 * q) 0); nra. }
  assert (k / 2 == k * (1#2)) by field. assert (k / 8 == k * (1#8)) by field.
  assert (0 <= k * ((q - a) * (b - q))) by (apply Qmult_le_0_compat; lra).
  assert (0 <= k * ((b - a) * (b - a) - 4 * ((q - a) * (b - q)))) by (apply Qmult_le_0_compat; lra).
  split.
  - assert (0 <= k / 2 * ((q - a) * (b - q))); [|lra]. rewrite H.
    setoid_replace (k * (1#2) * ((q - a) * (b - q))) with ((1#2) * (k * ((q - a) * (b - q)))) by ring. lra.
  - assert (k / 2 * ((q - a) * (b - q)) <= k / 8 * ((b - a) * (b - a))); [|lra]. rewrite H, H0.
    setoid_replace (k * (1#2) * ((q - a) * (b - q))) with ((1#2) * (k * ((q - a) * (b - q)))) by ring.
    setoid_replace (k * (1#8) * ((b - a) * (b - a))) with ((1#8) * (k * ((b - a) * (b - a)))) by ring. lra.
Qed.

(** ** In the market *)

Lemma at_link_spec d b : at_link d b = true <-> bp_inter b = in_inter d /\ bp_link b = in_link d.
Proof. unfold at_link. rewrite andb_true_iff, !String.eqb_eq. intuition congruence. Qed.

Lemma point_of w lfs bps d b : loss_model w = Ok (lfs, bps) -> named_once w d -> In b bps -> at_link d b = true ->
  exists s, In s (rw_seg w) /\ sr_id s = in_inter d /\ bp_seg b = (sr_seg s * in_gcf d)%Z
    /\ bp_point b = sr_point s * inject_Z (in_gcf d).
Proof.
  intros H U Hb E. apply at_link_spec in E. apply (points_are _ _ _ H) in Hb. destruct Hb as [d' [s [Hd [Hs [Es ->]]]]].
  cbn [bp_inter bp_link bp_seg bp_point] in *. assert (X : d' = d) by (apply U; tauto). subst d'. exists s. auto.
Qed.

Lemma points_rise w lfs bps d : loss_model w = Ok (lfs, bps) -> named_once w d -> along_or_against d ->
  numbered w (in_inter d) -> rising d bps.
Proof.
  intros H U G N a b Ha Hb La Lb L.
  destruct (point_of _ _ _ _ _ H U Ha La) as [s [Hs [Es [E1 E2]]]].
  destruct (point_of _ _ _ _ _ H U Hb Lb) as [t [Ht [Et [E3 E4]]]].
  rewrite E2, E4. rewrite E1, E3 in L. destruct G as [G|G]; rewrite G in *.
  - assert (sr_point s < sr_point t) by (apply N; auto; clear -L; lia). unfold inject_Z. lra.
  - assert (sr_point t < sr_point s) by (apply N; auto; clear -L; lia). unfold inject_Z. lra.
Qed.

Lemma market_losses w lfs bps c m x d i : loss_model w = Ok (lfs, bps) -> network c (definitions w) lfs bps m ->
  solution m x -> In d (definitions w) -> In i (rw_ic w) -> ic_id i = in_inter d -> named_once w d ->
  along_or_against d -> numbered w (in_inter d) ->
  (exists s t, In s (rw_seg w) /\ In t (rw_seg w) /\ sr_id s = in_inter d /\ sr_id t = in_inter d /\ sr_seg s <> sr_seg t) ->
  0 <= ic_flow i ->
  let flow := inter_flow d (link_flow m x (in_inter d) (in_link d)) in
  let loss := link_loss m x (in_inter d) (in_link d) in
  exists a b, neighbours w (in_inter d) a b /\ sr_point a <= flow <= sr_point b
    /\ loss_at w i flow <= loss
    /\ loss <= loss_at w i flow + ic_flow i / 8 * ((sr_point b - sr_point a) * (sr_point b - sr_point a)).
Proof.
  intros H Hn Hx Hd Hi Ei U G N [s0 [t0 [Hs0 [Ht0 [Es0 [Et0 D0]]]]]] K. cbn zeta.
  destruct (functions_are _ _ _ H) as [_ F]. destruct (F d i Hd Hi Ei) as [f [Hf [[F1 [F2 F3]] [_ Ff]]]].
  assert (R := points_rise _ _ _ _ H U G N).
  assert (Ha : about_link d f = true) by (unfold about_link; rewrite andb_true_iff, !String.eqb_eq; intuition congruence).
  assert (P : forall s, In s (rw_seg w) -> sr_id s = in_inter d ->
     exists b, In b bps /\ at_link d b = true /\ bp_seg b = (sr_seg s * in_gcf d)%Z
       /\ bp_point b = sr_point s * inject_Z (in_gcf d)).
  { intros s Hs Es. exists (Bp (in_inter d) (in_link d) (sr_seg s * in_gcf d) (sr_point s * inject_Z (in_gcf d))).
    split; [apply (points_are _ _ _ H); exists d, s; auto|]. split; [apply at_link_spec; auto|]. auto. }
  destruct (loss_interpolated c (definitions w) lfs bps m x f d Hn Hx Hf Hd Ha) as [a [b [Adj I]]]; [|exact R|].
  { destruct (P s0 Hs0 Es0) as [b1 [B1 [B2 [B3 _]]]], (P t0 Ht0 Et0) as [b2 [B4 [B5 [B6 _]]]].
    exists b1, b2. repeat split; auto. rewrite B3, B6. destruct G as [G|G]; rewrite G; lia. }
  destruct Adj as [Ha1 [Hb1 [La [Lb [L Nb]]]]].
  assert (Lp : bp_point a < bp_point b) by (apply R; auto).
  destruct (point_of _ _ _ _ _ H U Ha1 La) as [s [Hs [Es [E1 E2]]]].
  destruct (point_of _ _ _ _ _ H U Hb1 Lb) as [t [Ht [Et [E3 E4]]]].
  set (q := link_flow m x (in_inter d) (in_link d)) in *. set (y := link_loss m x (in_inter d) (in_link d)) in *.
  assert (E : forall q, lf_fun f q == inject_Z (in_gcf d) * (ic_const i + demand_part w (ic_id i) - 1) * q + ic_flow i / 2 * (q * q)).
  { intros z. rewrite Ff. unfold loss_at, inter_flow. destruct G as [G|G]; rewrite G; cbn; ring. }
  destruct (chord_bounds _ _ _ _ _ _ _ E K Lp I) as [B1 B2]. rewrite Ff in B1, B2. destruct I as [I1 [I2 _]].
  rewrite E2, E4 in *. rewrite E1, E3 in *.
  assert (Nb' : forall r, In r (rw_seg w) -> sr_id r = in_inter d ->
     ~ (sr_seg s * in_gcf d < sr_seg r * in_gcf d < sr_seg t * in_gcf d)%Z).
  { intros r Hr Er X. destruct (P r Hr Er) as [b' [C1 [C2 [C3 _]]]]. apply (Nb b' C1 C2). rewrite C3. exact X. }
  destruct G as [G|G]; rewrite G in *.
  - exists s, t. split; [|split].
    + repeat split; auto; [lia|]. intros r Hr Er X. apply (Nb' r Hr Er). lia.
    + unfold inter_flow. rewrite G. unfold inject_Z in *. lra.
    + split; [exact B1|]. eapply Qle_trans; [exact B2|]. apply Qplus_le_r.
      apply Qle_lteq; right. cbn. ring.
  - exists t, s. split; [|split].
    + repeat split; auto; [lia|]. intros r Hr Er X. apply (Nb' r Hr Er). lia.
    + unfold inter_flow. rewrite G. unfold inject_Z in *. lra.
    + split; [exact B1|]. eapply Qle_trans; [exact B2|]. apply Qplus_le_r.
      apply Qle_lteq; right. cbn. ring.
Qed.

(** ** The definitions *)

Lemma in_constraint_table w i : In i (constraint_table w) -> exists j, In j (rw_ic w) /\ ic_id j = ic_id i
  /\ ic_type j = ic_type i /\ ic_import j = ic_import i /\ ic_export j = ic_export i.
Proof. intros H. apply in_map_iff in H. destruct H as [j [<- H]]. exists j. repeat split; auto. Qed.

Lemma to_int_whole q z : q == inject_Z z -> to_int q = z.
Proof.
  unfold Qeq, to_int. cbn. intros E. rewrite Z.mul_1_r in E. rewrite E. apply Z.quot_mul. discriminate.
Qed.

Lemma to_int_cases q : q == inject_Z (to_int q) \/ forall z, ~ q == inject_Z z.
Proof.
  destruct (Qeq_dec q (inject_Z (to_int q))) as [E|N]; [now left|]. right. intros z E. apply N.
  now rewrite (to_int_whole q z E).
Qed.

Lemma definitions_are w d : In d (definitions w) -> regulated w d \/ market_link w d.
Proof.
  intros H. apply in_app_iff in H. destruct H as [H|H]; apply in_map_iff in H.
  - left. destruct H as [[r lim] [<- H]]. apply filter_In in H. destruct H as [H M].
    apply in_map_iff in H. destruct H as [[r2 i] [E H]]. injection E as <- <-. apply in_merge in H.
    destruct H as [Hr [Hi E]]. apply String.eqb_eq in E.
    unfold mem_str in M. apply existsb_exists in M. destruct M as [k [Hk Ek]]. apply String.eqb_eq in Ek.
    apply in_map_iff in Hk. destruct Hk as [j [Ej Hj]]. apply filter_In in Hj. destruct Hj as [Hj Tj].
    apply String.eqb_eq in Tj.
    destruct (in_constraint_table w i Hi) as [i0 [A1 [A2 [A3 [A4 A5]]]]].
    destruct (in_constraint_table w j Hj) as [j0 [B1 [B2 [B3 [B4 B5]]]]].
    exists i0, r2, j0. cbn [fst snd in_inter in_link in_to in_from in_max in_min in_gcf in_from_lf in_to_lf] in *.
    split; [exact A1|]. split; [exact Hr|]. split; [exact B1|]. split; [congruence|]. split; [congruence|].
    split; [reflexivity|]. split; [congruence|]. split; [reflexivity|]. split; [reflexivity|]. split; [reflexivity|].
    split; [rewrite A4; ring|]. split; [rewrite A5; reflexivity|]. split; [reflexivity|]. split; reflexivity.
  - right. destruct H as [[n b] [<- H]]. apply in_merge in H. destruct H as [Hn [Hb E]].
    apply andb_true_iff in E. rewrite !String.eqb_eq in E. destruct E as [E1 E2].
    apply in_map_iff in Hn. destruct Hn as [[n2 i] [E Hn]]. cbn [fst] in E. subst n2. apply in_merge in Hn.
    destruct Hn as [Hn [Hi E]]. apply String.eqb_eq in E. apply filter_In in Hi. destruct Hi as [Hi T]. apply String.eqb_eq in T.
    destruct (in_constraint_table w i Hi) as [i0 [A1 [A2 [A3 _]]]].
    exists i0, n, b. cbn [in_inter in_link in_to in_from in_max in_min in_gcf in_from_lf in_to_lf].
    split; [exact A1|]. split; [exact Hn|]. split; [exact Hb|]. split; [congruence|]. split; [congruence|].
    split; [reflexivity|]. split; [congruence|]. split; [congruence|]. split; [reflexivity|]. split; [reflexivity|].
    split; [reflexivity|]. split; [reflexivity|]. split; [intros a ->; reflexivity|]. split; [intros ->; reflexivity|].
    split; [apply to_int_cases|]. split; reflexivity.
Qed.

Lemma regulated_present w r i : In r (rw_dir w) -> In i (rw_ic w) -> dr_id r = ic_id i -> ic_type i = "REGULATED" ->
  exists d, In d (definitions w) /\ in_inter d = ic_id i /\ in_link d = ic_id i /\ in_from d = dr_from r /\ in_to d = dr_to r
    /\ in_min d == - ic_import i /\ in_max d == ic_export i.
Proof.
  intros Hr Hi E T.
  exists (Inter (dr_id r) (dr_id r) (dr_to r) (dr_from r) (ic_export i) (-1 * ic_import i) (to_int 1) 1 1).
  split; [|cbn; repeat split; auto; ring]. apply in_app_iff. left. apply in_map_iff.
  exists (r, (-1 * ic_import i, ic_export i)). split; [reflexivity|]. apply filter_In. split.
  - apply in_map_iff. exists (r, basslink_share i). split; [reflexivity|]. apply in_merge. split; [exact Hr|].
    split; [now apply in_map|]. cbn. now apply String.eqb_eq.
  - cbn [fst]. unfold mem_str. apply existsb_exists. exists (ic_id i). split; [|now apply String.eqb_eq].
    apply in_map_iff. exists (basslink_share i). split; [reflexivity|]. apply filter_In. split; [now apply in_map|].
    cbn. now apply String.eqb_eq.
Qed.

Lemma market_present w n b i : In n (rw_mnsp w) -> In b (rw_bids w) -> In i (rw_ic w) -> mn_id n = ic_id i ->
  ic_type i = "MNSP" -> lb_id b = ic_id i -> lb_to b = mn_to n ->
  exists d, In d (definitions w) /\ in_inter d = ic_id i /\ in_link d = mn_link n /\ in_from d = mn_from n /\ in_to d = mn_to n
    /\ in_min d == 0 /\ (forall a, lb_avail b = Some a -> in_max d == a) /\ (lb_avail b = None -> in_max d == mn_max n)
    /\ (forall z, mn_factor n == inject_Z z -> in_gcf d = z).
Proof.
  intros Hn Hb Hi E T Eb Et.
  exists (Inter (mn_id n) (mn_link n) (mn_to n) (mn_from n) (match lb_avail b with Some a => a | None => mn_max n end) 0
            (to_int (mn_factor n)) (mn_from_tlf n) (mn_to_tlf n)).
  split.
  - apply in_app_iff. right. apply in_map_iff. exists (n, b). split; [reflexivity|]. apply in_merge. split; [|split; [exact Hb|]].
    + apply in_map_iff. exists (n, basslink_share i). split; [reflexivity|]. apply in_merge. split; [exact Hn|].
      split; [|now apply String.eqb_eq]. apply filter_In. split; [now apply in_map|]. now apply String.eqb_eq.
    + apply andb_true_iff. rewrite !String.eqb_eq. split; congruence.
  - cbn. repeat split; auto; [now intros a ->|now intros ->|apply to_int_whole].
Qed.

Lemma break_point_losses w lfs bps d i f b : loss_model w = Ok (lfs, bps) -> In d (definitions w) -> In f lfs -> In b bps ->
  function_of d i f -> In i (rw_ic w) -> named_once w d -> (forall j, In j (rw_ic w) -> ic_id j = ic_id i -> j = i) ->
  along_or_against d -> at_link d b = true ->
  exists s, In s (rw_seg w) /\ sr_id s = in_inter d /\ inter_flow d (bp_point b) == sr_point s
    /\ lf_fun f (bp_point b) == loss_at w i (sr_point s).
Proof.
  intros H Hd Hf Hb [F1 [F2 F3]] Hi U Ui G L.
  destruct (point_of _ _ _ _ _ H U Hb L) as [s [Hs [Es [E1 E2]]]].
  destruct (functions_are _ _ _ H) as [F _]. destruct (F f Hf) as [d' [i' [Hd' [Hi' [[X1 [X2 X3]] [_ X4]]]]]].
  assert (d' = d) by (apply U; congruence). subst d'.
  assert (i' = i) by (apply Ui; congruence). subst i'.
  assert (E : inter_flow d (bp_point b) == sr_point s).
  { rewrite E2. unfold inter_flow. destruct G as [G|G]; rewrite G; unfold inject_Z; ring. }
  exists s. split; [exact Hs|]. split; [exact Es|]. split; [exact E|]. rewrite X4. now apply loss_at_same.
Qed.

Lemma functions_vanish w lfs bps : loss_model w = Ok (lfs, bps) -> forall f, In f lfs -> lf_fun f 0 == 0.
Proof.
  intros H f Hf. destruct (functions_are _ _ _ H) as [F _]. destruct (F f Hf) as [d [i [_ [_ [_ [_ E]]]]]].
  rewrite E. unfold loss_at, inter_flow. ring.
Qed.

Lemma functions_slope w lfs bps : loss_model w = Ok (lfs, bps) -> forall f, In f lfs ->
  exists d i, In d (definitions w) /\ In i (rw_ic w) /\ function_of d i f
    /\ forall q m, slope (lf_fun f) q m <-> m == inject_Z (in_gcf d) * (loss_factor w i (inter_flow d q) - 1).
Proof.
  intros H f Hf. destruct (functions_are _ _ _ H) as [F _]. destruct (F f Hf) as [d [i [Hd [Hi [Fo [_ E]]]]]].
  exists d, i. split; [exact Hd|]. split; [exact Hi|]. split; [exact Fo|]. intros q m.
  pose proof (marginal w i (lf_fun f) d E q) as M. split.
  - intros S. exact (slope_unique _ _ _ _ S M).
  - intros Em. destruct M as [B [HB M]]. exists B. split; [exact HB|]. intros h. rewrite Em. apply M.
Qed.
