(** Lemmas about markets whose tables come from a case file. *)

From Coq Require Import QArith Lqa String List Bool Lia.
Import ListNotations.
From Verif Require Import PandasModel TablesModel MarketModel ReportsModel OffersModel UnitsModel XmlModel UnitDataModel CaseModel SolverModel.
From Verif Require Import SpecOffers SpecXml SpecUnitData SpecCase SpecLp SpecHistory SpecDispatch SpecPrices SpecRamp.
From Verif Require Import PandasFacts XmlFacts XmlReadFacts OffersFacts RhsReadFacts CaseFacts LimitFacts RampFacts EnableFacts UnitKeysFacts UnitDataFacts UnitBidsFacts UnitTrapFacts.
Open Scope string_scope.
Open Scope list_scope.

Lemma initially_same rd n l v w : initially rd n l v -> initially rd n l w -> v = w.
Proof.
  assert (One : forall m v q, initially rd n m v -> initially rd n m (Some q) -> v = Some q).
  { intros m x q I J. destruct J as [[Z _]|(b & c & a & q' & E & N & Q & Z & F)]; [discriminate|]. injection Z as <-.
    destruct I as [[-> G]|(b' & c' & a' & q'' & E' & N' & Q' & -> & F')].
    - exfalso. apply (G c); [rewrite E; apply in_or_app; right; now left|exact N].
    - f_equal. rewrite E in E'. clear E. revert b' E' F'. induction b as [|x b IHb]; intros [|x' b'] E' F'.
      + injection E' as <- <-. exact (number_same _ _ _ _ _ Q' Q).
      + injection E' as <- _. exfalso. exact (F' c (or_introl eq_refl) N).
      + injection E' as -> _. exfalso. exact (F c' (or_introl eq_refl) N').
      + injection E' as <- E'. apply (IHb (fun d I => F d (or_intror I)) b' E'). intros d I. apply F'. now right. }
  intros A C. destruct w as [q|]; [exact (One _ _ _ A C)|]. destruct v as [q|]; [|reflexivity]. symmetry. exact (One _ _ _ C A).
Qed.
Lemma conditions_same t l m : conditions t l -> conditions t m -> l = m.
Proof. intros (c & O & K & _) (d & O' & K' & _). pose proof (only_same _ _ _ _ O O'). subst. congruence. Qed.

Lemma scada_found i t : tables_ok i -> In t (in_initials i) ->
  scada_up (Some (scada_table_of (scada_rates i))) (OffersModel.ic_duid t) = ic_up t
  /\ scada_down (Some (scada_table_of (scada_rates i))) (OffersModel.ic_duid t) = ic_down t.
Proof.
  intros (_ & N & _). unfold scada_up, scada_down, scada_table_of, scada_rates. cbn [st_has_up st_has_down st_rows].
  revert N. generalize (in_initials i). induction l as [|x l IH]; intros N I; [destruct I|].
  cbn [map] in N. inversion N as [|? ? N1 N2]; subst. cbn [map filter].
  assert (Skip : ~ In (OffersModel.ic_duid t) (map OffersModel.ic_duid l) ->
    find (fun r => String.eqb (sc_unit r) (OffersModel.ic_duid t)) (map (fun r => Scada (sr_unit r) (sr_up r) (sr_down r))
      (filter (fun r => negb (no_rate r)) (map (fun t => ScadaRate (OffersModel.ic_duid t) (ic_down t) (ic_up t) (ic_mw t)) l))) = None).
  { clear. induction l as [|y l IHl]; intros K; [reflexivity|]. cbn [map filter]. cbn [map In] in K.
    destruct (negb (no_rate _)); [cbn [map find sc_unit]; destruct (String.eqb_spec (OffersModel.ic_duid y) (OffersModel.ic_duid t)) as [E|E]; [cbn [sr_unit]; tauto|]|];
      cbn [sr_unit]; try (destruct (String.eqb_spec (OffersModel.ic_duid y) (OffersModel.ic_duid t)); [contradiction|]); apply IHl; tauto. }
  set (rest := filter (fun r => negb (no_rate r)) (map (fun t => ScadaRate (OffersModel.ic_duid t) (ic_down t) (ic_up t) (ic_mw t)) l)) in *.
  destruct I as [->|I].
  - unfold no_rate. cbn [sr_up sr_down].
    destruct (ic_up t) as [a|] eqn:Ea, (ic_down t) as [b|] eqn:Eb; cbn [negb map find sc_unit sr_unit]; rewrite ?String.eqb_refl; cbn [sc_up sc_down sr_up sr_down];
      try (split; reflexivity). rewrite (Skip N1). split; reflexivity.
  - assert (D : OffersModel.ic_duid x <> OffersModel.ic_duid t) by (intros E; apply N1; rewrite E; apply in_map, I).
    destruct (negb (no_rate _)); [|exact (IH N2 I)]. cbn [map find sc_unit sr_unit].
    destruct (String.eqb_spec (OffersModel.ic_duid x) (OffersModel.ic_duid t)); [contradiction|exact (IH N2 I)].
Qed.

Section Case.
Variable rd : reader.
Variable root : elem.
Variables ts us : list elem.
Variables vs ps : list (elem * elem).
Variable details : list detail.
Variable agc : list agc_row.
Variable old : bool.
Variable i : inputs.
Hypothesis B : bidding rd root ts us vs ps.
Hypothesis ND : NoDup (map dt_duid details).
Hypothesis NA : NoDup (map ag_duid agc).
Hypothesis L : load rd (document root) details agc old = Got i.

Let OK : inputs_ok i := loaded_ok rd root ts us vs ps details agc old i B ND NA L.

Section Bids.
Variables tv tp : bid_table.
Hypothesis G : snd (get_processed_bids (new_data i)) = Gives (tv, tp).

Lemma energy_trade v p u dir : In v vs -> In p ps -> partner v p -> of_unit p u -> of_market p "ENERGY" -> on_side p dir -> In u (map dt_duid details) ->
  exists w r, In w (in_volumes i) /\ In r (in_prices i) /\ volume_says rd v w /\ price_says rd p r /\ belongs w r
    /\ vo_duid w = u /\ po_duid r = u /\ vo_type w = "ENERGY" /\ po_type r = "ENERGY" /\ po_dir r = dir /\ described i u.
Proof.
  intros V P X U M S D. destruct (trade_rows rd root ts us vs ps details agc old i B L v p V P X) as (w & r & Iw & Ir & Sw & Sr & Bl).
  exists w, r. split; [exact Iw|]. split; [exact Ir|]. split; [exact Sw|]. split; [exact Sr|]. split; [exact Bl|].
  assert (E1 : po_duid r = u) by exact (unit_same p _ _ (proj1 Sr) U).
  assert (E2 : po_type r = "ENERGY") by exact (market_same p _ _ (proj1 (proj2 Sr)) M).
  assert (E3 : po_dir r = dir) by exact (side_same p _ _ (proj1 (proj2 (proj2 Sr))) S).
  destruct Bl as (B1 & B2 & _). rewrite B1, B2, E1, E2, E3. repeat (split; [reflexivity|]).
  exact (trader_described rd root ts us vs ps details agc old i B L p u P U D).
Qed.

Lemma case_cost c m pr v p u dir b k q : unit_info i = Ok (c_ui c) -> (forall x, In x (c_ui c) -> ~ ui_lf x == 0) ->
  priced c tv tp m -> assemble m = Ok pr ->
  In v vs -> In p ps -> partner v p -> of_unit p u -> of_market p "ENERGY" -> on_side p dir -> In u (map dt_duid details) ->
  In b band_names -> number rd ("PriceBand" ++ b) (snd p) k -> number rd ("BandAvail" ++ b) (snd v) q -> 1#10000 <= q ->
  exists w cost, band_vars m u "energy" (side dir) b = [w] /\ only_cost pr (bv_id w) cost /\ cost == (if String.eqb dir "LOAD" then - k else k).
Proof.
  intros UI LF PC A V P X U M S D Ib Nk Nq Q.
  destruct (energy_trade v p u dir V P X U M S D) as (w & r & Iw & Ir & Sw & Sr & Bl & E1 & E2 & E3 & E4 & E5 & De).
  destruct (energy_in_tables (new_data i) tv tp OK G w r Iw Ir Bl E3) as (row & row' & t & dd & lf & R1 & R2 & _); [now rewrite E1|].
  destruct R2 as (F1 & F2 & F3 & F4).
  assert (Bq : band (vo_bands w) b q). { apply Sw; assumption. }
  assert (Bk : band (po_bands r) b k). { apply Sr; assumption. }
  assert (F2' : br_service row = "energy"). { destruct F2 as [(_ & Z)|Z]; [exact Z|]. repeat (destruct Z as [Z|Z]; [destruct Z; discriminate|]). destruct Z; discriminate. }
  destruct (cost_from_file (new_data i) tv tp OK G c m pr r row b k UI LF PC A Ir R1) as (z & cost & Y1 & Y2 & Y3).
  - rewrite F1, E1, E2. reflexivity.
  - rewrite E4. exact F2.
  - rewrite F3. reflexivity.
  - rewrite (F4 b q Bq). lra.
  - exact Bk.
  - exists z, cost. rewrite F1, F2', F3, E1, E5 in Y1. split; [exact Y1|]. split; [exact Y2|]. rewrite E4, E5 in Y3. exact Y3.
Qed.

Lemma case_fcas_cost c m pr p u s dir b k row : unit_info i = Ok (c_ui c) -> (forall x, In x (c_ui c) -> ~ ui_lf x == 0) ->
  priced c tv tp m -> assemble m = Ok pr -> In p ps -> of_unit p u -> of_market p s -> s <> "ENERGY" -> on_side p dir ->
  In row (bt_rows tv) -> br_unit row = u -> service_of s (br_service row) -> br_dt row = side dir ->
  In b band_names -> number rd ("PriceBand" ++ b) (snd p) k -> 1#10000 <= br_val row b ->
  exists w cost, band_vars m u (br_service row) (side dir) b = [w] /\ only_cost pr (bv_id w) cost /\ cost == k.
Proof.
  intros UI LF PC A P U M N S R R1 R2 R3 Ib Nk Q. destruct (loaded rd root ts us vs ps details agc old i B L) as (_ & _ & _ & FP & _).
  destruct (forall2_in_l _ _ _ FP p P) as (r & Ir & Sr).
  assert (E1 : po_duid r = u) by exact (unit_same p _ _ (proj1 Sr) U).
  assert (E2 : po_type r = s) by exact (market_same p _ _ (proj1 (proj2 Sr)) M).
  assert (E3 : po_dir r = dir) by exact (side_same p _ _ (proj1 (proj2 (proj2 Sr))) S).
  destruct (cost_from_file (new_data i) tv tp OK G c m pr r row b k UI LF PC A Ir R) as (z & cost & Y1 & Y2 & Y3).
  - now rewrite R1, E1.
  - now rewrite E2.
  - now rewrite R3, E3.
  - exact Q.
  - apply Sr; assumption.
  - exists z, cost. rewrite R1, R3 in Y1. split; [exact Y1|]. split; [exact Y2|]. rewrite E2 in Y3.
    destruct (String.eqb s "ENERGY") eqn:Z; [apply String.eqb_eq in Z; contradiction|exact Y3].
Qed.

Lemma case_bands c m x v p u dir b q : in_force c (OpVolumeBids tv) m -> solution m x ->
  In v vs -> In p ps -> partner v p -> of_unit p u -> of_market p "ENERGY" -> on_side p dir -> In u (map dt_duid details) ->
  In b band_names -> number rd ("BandAvail" ++ b) (snd v) q -> 0 <= band_dispatch m x u "energy" (side dir) b <= q.
Proof.
  intros F X V P Y U M S D Ib Nq.
  destruct (energy_trade v p u dir V P Y U M S D) as (w & r & Iw & Ir & Sw & Sr & Bl & E1 & E2 & E3 & E4 & E5 & De).
  rewrite <- E1, <- E5. apply (dispatch_from_file (new_data i) tv tp OK G c m x w r b q F X Iw Ir Bl E3); [now rewrite E1|].
  apply Sw; assumption.
Qed.
End Bids.

Lemma case_registered c p u dir : unit_info i = Ok (c_ui c) -> In p ps -> of_unit p u -> on_side p dir -> In u (map dt_duid details) -> registered c u (side dir).
Proof.
  intros UI P U S D. destruct (loaded rd root ts us vs ps details agc old i B L) as (_ & _ & _ & FP & _).
  destruct (forall2_in_l _ _ _ FP p P) as (r & Ir & Sr).
  assert (E1 : po_duid r = u) by exact (unit_same p _ _ (proj1 Sr) U).
  assert (E3 : po_dir r = dir) by exact (side_same p _ _ (proj1 (proj2 (proj2 Sr))) S).
  pose proof (trader_described rd root ts us vs ps details agc old i B L p u P U D) as De. rewrite <- E1 in De.
  destruct (info_complete i (c_ui c) r UI Ir De) as (y & Iy & (Y1 & Y2 & _)). exists y. split; [exact Iy|]. split; congruence.
Qed.

Lemma case_capacity_upheld c k m x ls v p u dir q : unit_info i = Ok (c_ui c) -> bid_availability i = Ok ls -> upheld c (OpCapacity ls k) m x -> solution m x ->
  In v vs -> In p ps -> partner v p -> of_unit p u -> of_market p "ENERGY" -> on_side p dir -> In u (map dt_duid details) ->
  (old = true -> forall t, In t us -> forecast t -> ~ named "TraderID" u t) ->
  number rd "MaxAvail" (snd v) q -> 0 <= q -> dispatch m x u "energy" (side dir) <= q.
Proof.
  intros UI A F X V P Y U M S D O Nq Q.
  destruct (energy_trade v p u dir V P Y U M S D) as (w & r & Iw & Ir & Sw & Sr & Bl & E1 & E2 & E3 & E4 & E5 & De).
  destruct (availability_rows i (proj1 OK) (proj1 (proj2 OK))) as (ls' & A' & R & _). rewrite A in A'. injection A' as <-.
  assert (I : In (Limit u (side dir) q) ls).
  { apply R. exists w, r. split; [exact Iw|]. split; [exact Ir|]. split; [exact Bl|]. split; [exact E3|]. split.
    - intros (Z & I). destruct (loaded rd root ts us vs ps details agc old i B L) as (_ & _ & O' & _ & _ & _ & _ & K). rewrite O' in Z.
      apply in_map_iff in I. destruct I as (f & E & I). revert K. intros K.
      assert (exists t, In t us /\ forecast t /\ forecast_of rd t f) as (t & It & Ft & (Nt & _)).
      { clear -K I. induction K as [|a b l m p r H IH|a l m p H IH]; [destruct I| |].
        - destruct I as [<-|I]; [exists a; split; [now left|auto]|]. destruct (IH I) as (t & X & Y). exists t. split; [now right|exact Y].
        - destruct (IH I) as (t & X & Y). exists t. split; [now right|exact Y]. }
      apply (O Z t It Ft). now rewrite <- E1, <- E.
    - rewrite E1, E5. f_equal. symmetry. apply Sw. exact Nq. }
  apply (capacity_upheld c ls _ m x F X (Limit u (side dir) q) I); [|now right]. exact (case_registered c p u dir UI P U S D).
Qed.

Lemma case_capacity c m x ls v p u dir q : unit_info i = Ok (c_ui c) -> bid_availability i = Ok ls -> in_force c (OpCapacity ls None) m -> solution m x ->
  In v vs -> In p ps -> partner v p -> of_unit p u -> of_market p "ENERGY" -> on_side p dir -> In u (map dt_duid details) ->
  (old = true -> forall t, In t us -> forecast t -> ~ named "TraderID" u t) ->
  number rd "MaxAvail" (snd v) q -> 0 <= q -> dispatch m x u "energy" (side dir) <= q.
Proof. eauto using case_capacity_upheld, in_force_upheld. Qed.

Lemma case_forecast_upheld c k m x t p u q : unit_info i = Ok (c_ui c) -> upheld c (OpUigf (uigf_limits i) k) m x -> solution m x ->
  In t us -> named "TraderID" u t -> number rd "UIGF" t q -> 0 <= q ->
  In p ps -> of_unit p u -> on_side p "GENERATOR" -> In u (map dt_duid details) -> dispatch m x u "energy" "generator" <= q.
Proof.
  intros UI F X T N Nq Q P U S D. destruct (loaded rd root ts us vs ps details agc old i B L) as (_ & _ & _ & _ & _ & _ & _ & Kf).
  assert (Ft : forecast t). { destruct Nq as (s & E & _). unfold forecast. congruence. }
  destruct (picks_in_l _ _ _ _ Kf t T Ft) as (f & If & (N1 & N2)).
  assert (E1 : ug_unit f = u). { unfold named in *. congruence. }
  assert (E2 : ug_cap f = q). { destruct N2 as (s & A1 & A2), Nq as (s' & B1 & B2). congruence. }
  rewrite <- E2, <- E1. apply (uigf_upheld c (uigf_limits i) _ m x F X f If); [|right; now rewrite E2]. rewrite E1. exact (case_registered c p u "GENERATOR" UI P U S D).
Qed.

Lemma case_forecast c m x t p u q : unit_info i = Ok (c_ui c) -> in_force c (OpUigf (uigf_limits i) None) m -> solution m x ->
  In t us -> named "TraderID" u t -> number rd "UIGF" t q -> 0 <= q ->
  In p ps -> of_unit p u -> on_side p "GENERATOR" -> In u (map dt_duid details) -> dispatch m x u "energy" "generator" <= q.
Proof. eauto using case_forecast_upheld, in_force_upheld. Qed.

Lemma case_ramp_upheld c k m x rs t fs v p u dir mw tr l init up dn sup sdn :
  unit_info i = Ok (c_ui c) -> bid_ramp_rates i = Ok rs -> bid_ramp_table rs = Got t ->
  upheld c (OpRamp t (Some (scada_table_of (scada_rates i))) fs "no_fast_start_units" k) m x -> solution m x ->
  In v vs -> In p ps -> partner v p -> of_unit p u -> of_market p "ENERGY" -> on_side p dir -> In u (map dt_duid details) ->
  ~ two_sided c u -> offers m u "energy" (side dir) ->
  (plain_period root /\ mw = "InitialMW" \/ intervention_period root /\ mw = "WhatIfInitialMW") ->
  In tr ts -> named "TraderID" u tr -> conditions tr l -> initially rd mw l (Some init) ->
  initially rd "SCADARampUpRate" l sup -> initially rd "SCADARampDnRate" l sdn ->
  number rd "RampUpRate" (snd v) up -> number rd "RampDnRate" (snd v) dn ->
  exists r r', smaller_rate up sup r /\ smaller_rate dn sdn r'
    /\ init - r' * c_interval c / 60 <= dispatch m x u "energy" (side dir) <= init + r * c_interval c / 60.
Proof.
  intros UI ER ET F X V P Y U M S D N2 Of Run Tr Nt Cl Im Iu Id Nu Nd.
  destruct (energy_trade v p u dir V P Y U M S D) as (w & r & Iw & Ir & Sw & Sr & Bl & E1 & E2 & E3 & E4 & E5 & De).
  destruct OK as (K1 & K2 & K3). destruct (bid_rates_rows i K1 K2 K3) as (rs' & ER' & Rows & _). rewrite ER in ER'. injection ER' as <-.
  destruct (loaded rd root ts us vs ps details agc old i B L) as (_ & _ & _ & _ & _ & LP & LI & _).
  assert (FI : Forall2 (initial_of rd mw) ts (in_initials i)) by (destruct Run as [[Z ->]|[Z ->]]; auto).
  destruct (forall2_in_l _ _ _ FI tr Tr) as (it & Iit & (A1 & _ & l' & A2 & A3 & A4 & A5 & _)).
  pose proof (conditions_same _ _ _ A2 Cl) as ->.
  pose proof (initially_same _ _ _ _ _ A3 Im) as B1. pose proof (initially_same _ _ _ _ _ A4 Iu) as B2. pose proof (initially_same _ _ _ _ _ A5 Id) as B3.
  assert (Eu : OffersModel.ic_duid it = u) by (unfold named in *; congruence).
  assert (I : In (BidRamp u (side dir) (Some dn) (Some up) (Some init)) rs).
  { apply Rows. exists w, r, it. split; [exact Iw|]. split; [exact Ir|]. split; [exact Bl|]. split; [exact E3|]. split; [exact Iit|]. split; [congruence|].
    rewrite E1, E5, B1. f_equal; symmetry; apply Sw; assumption. }
  unfold bid_ramp_table in ET. destruct (XmlModel.each _ rs) as [rows|] eqn:EE; [|discriminate]. cbn [xbind] in ET. injection ET as <-.
  apply each_inv in EE. destruct (forall2_in_l _ _ _ EE _ I) as (ri & Iri & Eri). cbn in Eri. injection Eri as <-.
  destruct (scada_found i it K3 Iit) as (Su & Sd). rewrite Eu, B2 in Su. rewrite Eu, B3 in Sd.
  destruct (ramp_upheld c _ _ fs _ m x F X eq_refl eq_refl (Ramp u (side dir) init up dn)) as (a & b & H1 & H2 & H3 & H4).
  - cbn [rt_rows]. apply in_map_iff. exists (RampIn (Ramp u (side dir) init up dn) None None). split; [reflexivity|exact Iri].
  - exact (case_registered c p u dir UI P U S D).
  - exact N2.
  - exact Of.
  - cbn [rr_unit rr_dt rr_init rr_up rr_down] in *. rewrite Su in H1. rewrite Sd in H2. exists a, b. auto.
Qed.

Lemma case_ramp c m x rs t fs v p u dir mw tr l init up dn sup sdn :
  unit_info i = Ok (c_ui c) -> bid_ramp_rates i = Ok rs -> bid_ramp_table rs = Got t ->
  in_force c (OpRamp t (Some (scada_table_of (scada_rates i))) fs "no_fast_start_units" None) m -> solution m x ->
  In v vs -> In p ps -> partner v p -> of_unit p u -> of_market p "ENERGY" -> on_side p dir -> In u (map dt_duid details) ->
  ~ two_sided c u -> offers m u "energy" (side dir) ->
  (plain_period root /\ mw = "InitialMW" \/ intervention_period root /\ mw = "WhatIfInitialMW") ->
  In tr ts -> named "TraderID" u tr -> conditions tr l -> initially rd mw l (Some init) ->
  initially rd "SCADARampUpRate" l sup -> initially rd "SCADARampDnRate" l sdn ->
  number rd "RampUpRate" (snd v) up -> number rd "RampDnRate" (snd v) dn ->
  exists r r', smaller_rate up sup r /\ smaller_rate dn sdn r'
    /\ init - r' * c_interval c / 60 <= dispatch m x u "energy" (side dir) <= init + r * c_interval c / 60.
Proof. eauto using case_ramp_upheld, in_force_upheld. Qed.
End Case.
