(** The bids of the case file in a market. *)

From Coq Require Import QArith String List Bool Lia.
Import ListNotations.
From Verif Require Import PandasModel PandasFacts TablesModel MarketModel ReportsModel OffersModel UnitsModel UnitDataModel SolverModel SpecOffers SpecUnitData
  SpecLp SpecHistory SpecDispatch SpecPrices OffersFacts EnableFacts UnitKeysFacts UnitDataFacts PriceTheoremFacts BidFacts.
Open Scope string_scope.
Open Scope list_scope.

Lemma belongs_offer i v p : paired i -> In v (in_volumes i) -> In p (in_prices i) -> belongs v p ->
  In (offer_of (with_dir v (Some (po_dir p)))) (map offer_of (bids_of i)).
Proof. intros K Hv Hp B. apply in_map. apply (bids_in i _ K). eauto 10. Qed.

Lemma process_energy_in old offers prices agc ics uigf v p : process_offers old offers prices agc ics uigf = Ok (v, p) ->
  (forall o, of_type o = "ENERGY" -> (In o v <-> In o offers)) /\ (forall q, po_type q = "ENERGY" -> (In q p <-> In q prices)).
Proof.
  intros H. destruct (process_energy _ _ _ _ _ _ _ _ H) as [V P]. split.
  - intros o T. assert (X : In o (filter (of_type_is "ENERGY") v) <-> In o (filter (of_type_is "ENERGY") offers)) by now rewrite V.
    rewrite !filter_In in X. unfold of_type_is in X. rewrite T in X. cbn in X. tauto.
  - intros q T. assert (X : In q (filter (fun q => String.eqb (po_type q) "ENERGY") p) <-> In q (filter (fun q => String.eqb (po_type q) "ENERGY") prices)) by now rewrite P.
    rewrite !filter_In, T in X. cbn in X. tauto.
Qed.

Lemma row_for_key u t dir bands k r u' t' dir' bands' k' r' : row_for u t dir bands k r -> row_for u' t' dir' bands' k' r' ->
  direction dir -> direction dir' -> bid_key r = bid_key r' -> u = u' /\ t = t' /\ dir = dir'.
Proof.
  intros [A1 [A2 [A3 _]]] [B1 [B2 [B3 _]]] D D' K. unfold bid_key in K. injection K as K1 K2 K3. rewrite K2 in A2.
  split; [congruence|]. split; [exact (service_of_inj _ _ _ A2 B2)|]. apply side_inj; auto. congruence.
Qed.
Lemma row_for_key' u t dir bands k r bands' k' r' : row_for u t dir bands k r -> row_for u t dir bands' k' r' -> bid_key r = bid_key r'.
Proof.
  intros [A1 [A2 [A3 _]]] [B1 [B2 [B3 _]]]. unfold bid_key. rewrite A1, B1, A3, B3. now rewrite (service_of_fun _ _ _ A2 B2).
Qed.

Section File.
Variables (d : unit_data) (tv tp : bid_table).
Let i := ud_in d.
Hypothesis Fine : inputs_ok i.
Hypothesis Run : snd (get_processed_bids d) = Gives (tv, tp).

Lemma volumes_from_file r : In r (bt_rows tv) ->
  exists v p, In v (in_volumes i) /\ In p (in_prices i) /\ belongs v p /\ described i (vo_duid v)
    /\ row_for (vo_duid v) (vo_type v) (po_dir p) (vo_bands v) 1 r.
Proof.
  intros Hr. destruct (processed_rows d tv tp Fine Run) as [vs [ps [ui [Pc [_ [_ [_ [Vs _]]]]]]]]. fold i in Pc, Vs.
  destruct (Vs r Hr) as [o [Ho [De [_ R]]]]. destruct (process_same _ _ _ _ _ _ _ _ _ Pc Ho) as [o0 [H0 [S1 [S2 [S3 S4]]]]].
  apply in_map_iff in H0. destruct H0 as [w [<- Hw]]. apply (bids_in i w (proj1 (proj2 Fine))) in Hw. destruct Hw as [v [p [Hv [Hp [B ->]]]]].
  cbn in S1, S2, S3, S4. exists v, p. rewrite <- S1, <- S2, <- S3, <- S4 in R. rewrite <- S1 in De. auto.
Qed.

Lemma prices_from_file r : In r (bt_rows tp) ->
  exists p t dd lf, In p (in_prices i) /\ In t (in_initials i) /\ OffersModel.ic_duid t = po_duid p /\ In dd (in_details i) /\ dt_duid dd = po_duid p
    /\ lf_of t dd (po_dir p) lf
    /\ row_for (po_duid p) (po_type p) (po_dir p) (po_bands p) (if String.eqb (po_type p) "ENERGY" then lf else 1) r.
Proof.
  intros Hr. destruct (processed_rows d tv tp Fine Run) as [vs [ps [ui [Pc [_ [_ [_ [_ [_ [Ps _]]]]]]]]]]. fold i in Pc, Ps.
  destruct (Ps r Hr) as [p [u [Hp [_ [_ [_ [[_ [_ [t [dd [Ht [Et [Hd [Ed [_ L]]]]]]]]] R]]]]]]]. exists p, t, dd, (ui_lf u).
  assert (Kb := bid_offers_ok i Fine). destruct (tables_agc i (proj2 (proj2 Fine))) as [Ka [Ki Ku]].
  destruct (process_enabled _ _ _ _ _ _ _ _ Kb Ka Ki Ku Pc) as [s [_ [_ Q0]]]. apply Q0 in Hp. tauto.
Qed.

Lemma energy_in_tables v p : In v (in_volumes i) -> In p (in_prices i) -> belongs v p -> vo_type v = "ENERGY" -> described i (vo_duid v) ->
  exists r r' t dd lf, In r (bt_rows tv) /\ row_for (vo_duid v) "ENERGY" (po_dir p) (vo_bands v) 1 r
    /\ In r' (bt_rows tp) /\ row_for (po_duid p) "ENERGY" (po_dir p) (po_bands p) lf r'
    /\ In t (in_initials i) /\ OffersModel.ic_duid t = po_duid p /\ In dd (in_details i) /\ dt_duid dd = po_duid p /\ lf_of t dd (po_dir p) lf.
Proof.
  intros Hv Hp B T De. destruct (processed_rows d tv tp Fine Run) as [vs [ps [ui [Pc [Ui [_ [_ [_ [Vc [_ [Pcm _]]]]]]]]]]]. fold i in Pc, Ui, Vc, Pcm.
  destruct (process_energy_in _ _ _ _ _ _ _ _ Pc) as [Ev Ep]. assert (B' := B). destruct B' as [B1 [B2 _]].
  destruct (Vc (offer_of (with_dir v (Some (po_dir p))))) as [r [Hr R]]; [apply Ev; [exact T|]; apply belongs_offer; auto; apply (proj2 Fine)|exact De|].
  cbn in R. rewrite T in R. destruct (info_complete i ui p Ui Hp) as [u [Hu I]]; [congruence|].
  destruct (Pcm p u) as [r' [Hr' R']]; auto; [apply Ep; congruence|]. rewrite <- B2, T in R'. cbn in R'.
  destruct I as [_ [_ [t [dd [Ht [Et [Hd [Ed [_ L]]]]]]]]]. exists r, r', t, dd, (ui_lf u). auto 12.
Qed.

Lemma same_keys k : In k (map bid_key (bt_rows tv)) <-> In k (map bid_key (bt_rows tp)).
Proof.
  destruct (processed_rows d tv tp Fine Run) as [vs [ps [ui [Pc [Ui [_ [_ [Vs [Vc [Ps [Pcm _]]]]]]]]]]]. fold i in Pc, Ui, Vs, Vc, Ps, Pcm.
  assert (Kb := bid_offers_ok i Fine). destruct (tables_agc i (proj2 (proj2 Fine))) as [Ka [Ki Ku]].
  destruct (process_enabled _ _ _ _ _ _ _ _ Kb Ka Ki Ku Pc) as [s [_ [_ Q0]]]. destruct (process_energy_in _ _ _ _ _ _ _ _ Pc) as [Ev Ep].
  destruct Fine as [Kp [Kr Kt]]. split; intros H; apply in_map_iff in H; destruct H as [r [<- Hr]].
  - destruct (Vs r Hr) as [o [Ho [De [Do R]]]]. destruct (process_same _ _ _ _ _ _ _ _ _ Pc Ho) as [o0 [H0 [S1 [S2 [S3 S4]]]]].
    apply in_map_iff in H0. destruct H0 as [w [<- Hw]]. apply (bids_in i w Kr) in Hw. destruct Hw as [v [p [Hv [Hp [[B1 [B2 B3]] ->]]]]].
    cbn in S1, S2, S3. assert (Kk : same_key p o) by (unfold same_key; repeat split; congruence).
    assert (Hps : In p ps). { apply Q0. split; [exact Hp|]. destruct (string_dec (po_type p) "ENERGY"); [auto|right; split; [auto|eauto]]. }
    destruct (info_complete i ui p Ui Hp) as [u [Hu I]]; [destruct Kk; congruence|].
    destruct (Pcm p u Hps Hu I) as [r' [Hr' R']]. apply in_map_iff. exists r'. split; [|exact Hr'].
    destruct Kk as [K1 [K2 K3]]. rewrite K1, K2, K3 in R'. exact (eq_sym (row_for_key' _ _ _ _ _ _ _ _ _ R R')).
  - destruct (Ps r Hr) as [p [u [Hps [Dp [De [Hu [I R]]]]]]]. assert (X := Hps). apply Q0 in X. destruct X as [Hp X].
    assert (Y : exists o, In o vs /\ same_key p o).
    { destruct X as [X|[_ X]]; [|exact X]. destruct Kr as [_ [_ [_ [_ [Back _]]]]]. destruct (Back p Hp) as [v [Hv B]].
      exists (offer_of (with_dir v (Some (po_dir p)))). assert (B' := B). destruct B' as [B1 [B2 _]]. split; [apply Ev; [cbn; congruence|]; apply belongs_offer; auto; apply (proj2 Fine)|].
      unfold same_key. cbn. repeat split; congruence. }
    destruct Y as [o [Ho [K1 [K2 K3]]]]. destruct (Vc o Ho) as [r' [Hr' R']]; [congruence|]. apply in_map_iff. exists r'. split; [|exact Hr'].
    rewrite <- K1, <- K2, <- K3 in R'. exact (row_for_key' _ _ _ _ _ _ _ _ _ R' R).
Qed.

Lemma keys_once : NoDup (map bid_key (bt_rows tv)) /\ NoDup (map bid_key (bt_rows tp)).
Proof. destruct (processed_rows d tv tp Fine Run) as [vs [ps [ui X]]]. tauto. Qed.

Lemma fcas_in_tables v p : In v (in_volumes i) -> In p (in_prices i) -> belongs v p -> vo_type v <> "ENERGY" -> described i (vo_duid v) ->
  exists scaled, scale_ramp (scale_agc (map offer_of (bids_of i)) (in_agc i)) (in_initials i) = Ok scaled
    /\ ((exists r, In r (bt_rows tv) /\ row_for (vo_duid v) (vo_type v) (po_dir p) (vo_bands v) 1 r)
        <-> exists o, In o (scale_uigf scaled (in_uigf i)) /\ same_key p o
              /\ enabled (scale_uigf scaled (in_uigf i)) (in_initials i)
                   (unit_availability (in_old i) (map offer_of (bids_of i)) (in_uigf i)) o).
Proof.
  intros Hv Hp B T De. destruct (processed_rows d tv tp Fine Run) as [vs [ps [ui [Pc [Ui [_ [_ [Vs [Vc _]]]]]]]]]. fold i in Pc, Ui, Vs, Vc.
  assert (Kb := bid_offers_ok i Fine). destruct (tables_agc i (proj2 (proj2 Fine))) as [Ka [Ki Ku]].
  destruct (process_enabled _ _ _ _ _ _ _ _ Kb Ka Ki Ku Pc) as [s [Es [V _]]]. exists s. split; [exact Es|].
  assert (B' := B). destruct B' as [B1 [B2 _]]. destruct Fine as [Kp [Kr Kt]]. split.
  - intros [r [Hr R]]. destruct (Vs r Hr) as [o [Ho [_ [Do Ro]]]].
    destruct (row_for_key _ _ _ _ _ _ _ _ _ _ _ _ R Ro) as [K1 [K2 K3]]; auto; [apply Kp; exact Hp|].
    exists o. apply V in Ho. destruct Ho as [Ho [E|E]]; [congruence|]. split; [exact Ho|]. split; [|exact E]. unfold same_key. repeat split; congruence.
  - intros [o [Ho [[K1 [K2 K3]] E]]]. assert (Hvs : In o vs) by (apply V; auto). destruct (Vc o Hvs) as [r [Hr R]]; [congruence|].
    exists r. split; [exact Hr|]. destruct (process_same _ _ _ _ _ _ _ _ _ Pc Hvs) as [o0 [H0 [S1 [S2 [S3 S4]]]]].
    assert (o0 = offer_of (with_dir v (Some (po_dir p)))).
    { apply (nodup_key_eq offer_key (map offer_of (bids_of i))); auto; [now apply bids_keys|now apply belongs_offer|]. unfold offer_key. cbn. congruence. }
    subst o0. cbn in S4. rewrite <- K1, <- K2, <- K3, <- S4, <- B1, <- B2 in R. exact R.
Qed.

(** ** In the market *)

Lemma offered_row t r b : bt_bands t = ten_bands -> In r (bt_rows t) -> In b ten_bands -> offered t (br_unit r) (br_service r) (br_dt r) b (br_val r b).
Proof. intros E Hr Hb. exists r. rewrite E. auto 10. Qed.

Lemma cost_from_file c m pr p r b k : unit_info i = Ok (c_ui c) -> (forall u, In u (c_ui c) -> ~ ui_lf u == 0) ->
  priced c tv tp m -> assemble m = Ok pr ->
  In p (in_prices i) -> In r (bt_rows tv) -> br_unit r = po_duid p -> service_of (po_type p) (br_service r) -> br_dt r = side (po_dir p) ->
  1#10000 <= br_val r b -> band (po_bands p) b k ->
  exists w q, band_vars m (br_unit r) (br_service r) (br_dt r) b = [w] /\ only_cost pr (bv_id w) q
    /\ q == (if String.eqb (po_type p) "ENERGY" && String.eqb (po_dir p) "LOAD" then - k else k).
Proof.
  intros Ui Lf Pm As Hp Hr E1 E2 E3 Le Bd.
  destruct (processed_rows d tv tp Fine Run) as [vs [ps [ui [Pc [Ui' [Bv [Bp [Vs [Vc [Ps [Pcm _]]]]]]]]]]]. fold i in Pc, Ui', Vs, Vc, Ps, Pcm.
  assert (ui = c_ui c) by congruence. subst ui. assert (Hb := band_ten _ _ _ Bd).
  assert (Kr : In (bid_key r) (map bid_key (bt_rows tp))) by (apply same_keys; now apply in_map).
  apply in_map_iff in Kr. destruct Kr as [r' [K Hr']]. destruct (Ps r' Hr') as [p' [u [Hp' [Dp [De [Hu [I R]]]]]]].
  assert (Pin : In p' (in_prices i)).
  { assert (Kb := bid_offers_ok i Fine). destruct (tables_agc i (proj2 (proj2 Fine))) as [Ka [Ki Ku]].
    destruct (process_enabled _ _ _ _ _ _ _ _ Kb Ka Ki Ku Pc) as [s [_ [_ Q0]]]. apply Q0 in Hp'. tauto. }
  destruct Fine as [Kp [Kr Kt]]. assert (Dp2 : direction (po_dir p)) by (apply Kp; exact Hp).
  assert (p' = p).
  { apply (nodup_key_eq price_key (in_prices i)); auto; [apply Kp|]. destruct R as [R1 [R2 [R3 _]]]. unfold bid_key in K. injection K as K1 K2 K3.
    unfold price_key. rewrite K2 in R2. rewrite (service_of_inj _ _ _ R2 E2). rewrite (side_inj (po_dir p') (po_dir p)); auto; congruence. }
  subst p'. assert (R' := R). destruct R' as [R1 [R2 [R3 R4]]]. destruct I as [I1 [I2 _]]. unfold bid_key in K. injection K as K1 K2 K3.
  destruct (priced_and_located c tv tp m pr (br_unit r) (br_service r) (br_dt r) b (br_val r b) (br_val r' b) u Pm As) as [w [q [W1 [W2 [W3 _]]]]]; auto; try congruence.
  - now apply offered_row.
  - rewrite <- K1, <- K2, <- K3. now apply offered_row.
  - exists w, q. split; [exact W1|]. split; [exact W2|]. rewrite W3. unfold mw_cost. assert (Rb := R4 b k Bd). rewrite E3.
    assert (Z := Lf u Hu). assert (Se := service_of_energy _ _ E2).
    destruct (String.eqb_spec (po_type p) "ENERGY") as [T|T], (String.eqb_spec (br_service r) "energy") as [S|S]; try tauto; cbn [andb].
    + unfold side. destruct Dp2 as [-> | ->]; cbn; rewrite Rb; field; exact Z.
    + rewrite Rb. ring.
Qed.

Lemma dispatch_from_file c m x v p b q : in_force c (OpVolumeBids tv) m -> solution m x ->
  In v (in_volumes i) -> In p (in_prices i) -> belongs v p -> vo_type v = "ENERGY" -> described i (vo_duid v) -> band (vo_bands v) b q ->
  0 <= band_dispatch m x (vo_duid v) "energy" (side (po_dir p)) b <= q.
Proof.
  intros F S Hv Hp B T De Bd. destruct (energy_in_tables v p Hv Hp B T De) as [r [_ [_ [_ [_ [Hr [[R1 [R2 [R3 R4]]] _]]]]]]].
  destruct (processed_rows d tv tp Fine Run) as [vs [ps [ui [_ [_ [Bv _]]]]]].
  destruct (volumes_respected c tv m x F S) as [X _]. specialize (X r b Hr). rewrite Bv in X. specialize (X (band_ten _ _ _ Bd)). cbn zeta in X.
  rewrite R1, R3 in X. assert (Rb := R4 b q Bd).
  assert (E : br_service r = "energy") by (apply (service_of_energy _ _ R2); reflexivity). rewrite E in X. destruct X as [X1 [X2 _]].
  split; [exact X1|]. rewrite Rb in X2. setoid_replace q with (q * 1) by ring. exact X2.
Qed.
End File.
