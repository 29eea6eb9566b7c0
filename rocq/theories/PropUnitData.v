(** Properties of the historical unit data: C58, C59, C60, C61, C62. *)

From Coq Require Import QArith Lqa String List Bool Lia.
Import ListNotations.
From Verif Require Import PandasModel TablesModel MarketModel ReportsModel OffersModel UnitsModel UnitDataModel SolverModel SpecOffers SpecUnitData
  SpecLp SpecHistory SpecDispatch SpecPrices CheckFacts CheckLpFacts OffersFacts EnableFacts UnitKeysFacts UnitDataFacts UnitBidsFacts UnitTrapFacts CheckUnitFacts.
Open Scope string_scope.
Open Scope list_scope.

(** A generator whose volume bids have no direction, a two-way unit with a secondary
    loss factor, a wind farm and a unit without details. *)
Definition ten (a b : Q) : list Q := [a; b; 0; 0; 0; 0; 0; 0; 0; 0].
Definition ud_volumes : list volume_row :=
  [Volume "G" None "ENERGY" 100 0 0 0 0 (ten 60 40) (Some 180) (Some 120);
   Volume "G" None "RAISEREG" 20 30 50 80 100 (ten 10 10) None None;
   Volume "G" None "LOWER5MIN" 15 10 30 90 100 (ten 0 15) None None;
   Volume "S" (Some "GENERATOR") "ENERGY" 50 0 0 0 0 (ten 50 0) (Some 600) (Some 600);
   Volume "S" (Some "LOAD") "ENERGY" 40 0 0 0 0 (ten 30 10) (Some 600) None;
   Volume "S" (Some "GENERATOR") "RAISEREG" 10 0 0 40 50 (ten 10 0) None None;
   Volume "S" (Some "LOAD") "RAISEREG" 10 (-40) (-30) 0 0 (ten 10 0) None None;
   Volume "W" None "ENERGY" 70 0 0 0 0 (ten 70 0) (Some 300) (Some 300);
   Volume "W" None "RAISE6SEC" 12 60 65 68 70 (ten 12 0) None None;
   Volume "N" None "ENERGY" 30 0 0 0 0 (ten 30 0) (Some 300) (Some 300)].
Definition ud_prices : list price_offer :=
  [PriceOffer "G" "GENERATOR" "ENERGY" (ten 50 80); PriceOffer "G" "GENERATOR" "RAISEREG" (ten 5 7);
   PriceOffer "G" "GENERATOR" "LOWER5MIN" (ten 0 1); PriceOffer "S" "GENERATOR" "ENERGY" (ten 90 300);
   PriceOffer "S" "LOAD" "ENERGY" (ten 20 10); PriceOffer "S" "GENERATOR" "RAISEREG" (ten 3 4);
   PriceOffer "S" "LOAD" "RAISEREG" (ten 2 6); PriceOffer "W" "GENERATOR" "ENERGY" (ten (-10) 0);
   PriceOffer "W" "GENERATOR" "RAISE6SEC" (ten 1 2); PriceOffer "N" "GENERATOR" "ENERGY" (ten 40 0)].
Definition ud_initials : list initial :=
  [Initial "G" "GENERATOR" (Some 60) (Some 120) (Some 180) (Some 1);
   Initial "S" "BIDIRECTIONAL" (Some (-10)) (Some 600) None (Some 1);
   Initial "W" "GENERATOR" (Some 30) None None None;
   Initial "N" "GENERATOR" (Some 5) None None None].
Definition ud_details : list detail :=
  [Detail "G" "NSW1" (19 # 20) 1 None; Detail "S" "VIC1" (9 # 10) (99 # 100) (Some (11 # 10)); Detail "W" "VIC1" (4 # 5) 1 (Some 1)].
Definition ud_agc : list agc_row := [Agc "G" None None (Some 40) (Some 95); Agc "S" None None (Some (-45)) (Some 0)].
Definition ud_inputs : inputs := Inputs ud_prices ud_volumes ud_initials [Uigf "W" 50] ud_details ud_agc false.

Lemma ud_fine : inputs_ok ud_inputs.
Proof.
  split; [|split].
  - apply pricesb_ok; [vm_compute; reflexivity|]. distinct.
  - apply pairedb_ok; [vm_compute; reflexivity|]. distinct.
  - split; [|split; [|split]]; distinct.
Qed.

Definition ud_info : list unit_info_row := Eval vm_compute in match unit_info ud_inputs with Ok l => l | Err _ => [] end.

(** ** C58 *)

Theorem C58_rows :
  forall i ui, unit_info i = Ok ui ->
  (forall r, In r ui -> exists p, In p (in_prices i) /\ direction (po_dir p) /\ info_row i (po_duid p) (po_dir p) r)
  /\ (forall p, In p (in_prices i) -> described i (po_duid p) -> exists r, In r ui /\ info_row i (po_duid p) (po_dir p) r).
Proof. intros i ui H. split; [intros r; exact (info_sound i ui r H)|intros p; exact (info_complete i ui p H)]. Qed.
Print Assumptions C58_rows.

Theorem C58_once : forall i ui, tables_ok i -> unit_info i = Ok ui -> NoDup (map info_key ui).
Proof. exact info_keys. Qed.
Print Assumptions C58_once.

Theorem C58_always : forall i, (forall p, In p (in_prices i) -> direction (po_dir p)) -> exists ui, unit_info i = Ok ui.
Proof. exact info_total. Qed.
Print Assumptions C58_always.

Example C58_case :
  unit_info ud_inputs = Ok ud_info /\ tables_ok ud_inputs /\ described ud_inputs "S" /\ ~ described ud_inputs "N"
  /\ map info_key ud_info = [("G", "generator"); ("S", "generator"); ("S", "load"); ("W", "generator")]
  /\ map ui_region ud_info = ["NSW1"; "VIC1"; "VIC1"; "VIC1"]
  /\ map (fun r => Qred (ui_lf r)) ud_info = [19 # 20; 1089 # 1000; 891 # 1000; 4 # 5].
Proof.
  split; [vm_compute; reflexivity|]. split; [exact (proj2 (proj2 ud_fine))|]. split; [split; cbn; tauto|].
  split; [intros [H _]; cbn in H; intuition discriminate|]. repeat split; vm_compute; reflexivity.
Qed.

(** ** C59 *)

Definition ud_tables : bid_table * bid_table :=
  match snd (get_processed_bids (new_data ud_inputs)) with Gives t => t | Raises _ => (BidTable [] [], BidTable [] []) end.

Lemma ud_gives : snd (get_processed_bids (new_data ud_inputs)) = Gives ud_tables.
Proof. vm_compute. reflexivity. Qed.

Theorem C59_volumes :
  forall d tv tp r, inputs_ok (ud_in d) -> snd (get_processed_bids d) = Gives (tv, tp) -> In r (bt_rows tv) ->
  exists v p, In v (in_volumes (ud_in d)) /\ In p (in_prices (ud_in d)) /\ belongs v p /\ described (ud_in d) (vo_duid v)
    /\ row_for (vo_duid v) (vo_type v) (po_dir p) (vo_bands v) 1 r.
Proof. intros d tv tp r K H. exact (volumes_from_file d tv tp K H r). Qed.
Print Assumptions C59_volumes.

Theorem C59_prices :
  forall d tv tp r, inputs_ok (ud_in d) -> snd (get_processed_bids d) = Gives (tv, tp) -> In r (bt_rows tp) ->
  exists p t dd lf, In p (in_prices (ud_in d)) /\ In t (in_initials (ud_in d)) /\ OffersModel.ic_duid t = po_duid p
    /\ In dd (in_details (ud_in d)) /\ dt_duid dd = po_duid p /\ lf_of t dd (po_dir p) lf
    /\ row_for (po_duid p) (po_type p) (po_dir p) (po_bands p) (if String.eqb (po_type p) "ENERGY" then lf else 1) r.
Proof. intros d tv tp r K H. exact (prices_from_file d tv tp K H r). Qed.
Print Assumptions C59_prices.

Theorem C59_energy :
  forall d tv tp v p, inputs_ok (ud_in d) -> snd (get_processed_bids d) = Gives (tv, tp) ->
  In v (in_volumes (ud_in d)) -> In p (in_prices (ud_in d)) -> belongs v p -> vo_type v = "ENERGY" -> described (ud_in d) (vo_duid v) ->
  exists r r' t dd lf, In r (bt_rows tv) /\ row_for (vo_duid v) "ENERGY" (po_dir p) (vo_bands v) 1 r
    /\ In r' (bt_rows tp) /\ row_for (po_duid p) "ENERGY" (po_dir p) (po_bands p) lf r'
    /\ In t (in_initials (ud_in d)) /\ OffersModel.ic_duid t = po_duid p /\ In dd (in_details (ud_in d)) /\ dt_duid dd = po_duid p
    /\ lf_of t dd (po_dir p) lf.
Proof. intros d tv tp v p K H. exact (energy_in_tables d tv tp K H v p). Qed.
Print Assumptions C59_energy.

Theorem C59_fcas :
  forall d tv tp v p, inputs_ok (ud_in d) -> snd (get_processed_bids d) = Gives (tv, tp) ->
  In v (in_volumes (ud_in d)) -> In p (in_prices (ud_in d)) -> belongs v p -> vo_type v <> "ENERGY" -> described (ud_in d) (vo_duid v) ->
  exists scaled, scale_ramp (scale_agc (map offer_of (bids_of (ud_in d))) (in_agc (ud_in d))) (in_initials (ud_in d)) = Ok scaled
    /\ ((exists r, In r (bt_rows tv) /\ row_for (vo_duid v) (vo_type v) (po_dir p) (vo_bands v) 1 r)
        <-> exists o, In o (scale_uigf scaled (in_uigf (ud_in d))) /\ same_key p o
              /\ enabled (scale_uigf scaled (in_uigf (ud_in d))) (in_initials (ud_in d))
                   (unit_availability (in_old (ud_in d)) (map offer_of (bids_of (ud_in d))) (in_uigf (ud_in d))) o).
Proof. intros d tv tp v p K H. exact (fcas_in_tables d tv tp K H v p). Qed.
Print Assumptions C59_fcas.

Theorem C59_keys :
  forall d tv tp, inputs_ok (ud_in d) -> snd (get_processed_bids d) = Gives (tv, tp) ->
  (forall k, In k (map bid_key (bt_rows tv)) <-> In k (map bid_key (bt_rows tp)))
  /\ NoDup (map bid_key (bt_rows tv)) /\ NoDup (map bid_key (bt_rows tp)).
Proof. intros d tv tp K H. split; [exact (same_keys d tv tp K H)|exact (keys_once d tv tp K H)]. Qed.
Print Assumptions C59_keys.

Example C59_case :
  inputs_ok ud_inputs /\ snd (get_processed_bids (new_data ud_inputs)) = Gives ud_tables
  /\ map bid_key (bt_rows (fst ud_tables))
     = [("G", "energy", "generator"); ("W", "energy", "generator"); ("S", "energy", "generator"); ("S", "energy", "load");
        ("G", "lower_5min", "generator"); ("G", "raise_reg", "generator"); ("S", "raise_reg", "generator"); ("S", "raise_reg", "load")]
  /\ length (bt_rows (snd ud_tables)) = 8%nat
  /\ map (fun r => (br_val r "1", br_val r "2")) (firstn 2 (bt_rows (fst ud_tables))) = [(60, 40); (70, 0)]
  /\ map (fun r => (Qred (br_val r "1"), Qred (br_val r "2"))) (firstn 3 (bt_rows (snd ud_tables)))
     = [(95 # 2, 76); (9801 # 100, 3267 # 10); (891 # 50, 891 # 100)].
Proof. split; [exact ud_fine|]. split; [exact ud_gives|]. repeat split; vm_compute; reflexivity. Qed.

(** In a market with these tables a band costs what the case file says, and energy
    dispatch stays within the volumes of the case file. *)
Theorem C59_cost :
  forall d tv tp c m pr p r b k, inputs_ok (ud_in d) -> snd (get_processed_bids d) = Gives (tv, tp) ->
  unit_info (ud_in d) = Ok (c_ui c) -> (forall u, In u (c_ui c) -> ~ ui_lf u == 0) ->
  priced c tv tp m -> assemble m = Ok pr ->
  In p (in_prices (ud_in d)) -> In r (bt_rows tv) -> br_unit r = po_duid p -> service_of (po_type p) (br_service r) -> br_dt r = side (po_dir p) ->
  1#10000 <= br_val r b -> band (po_bands p) b k ->
  exists w q, band_vars m (br_unit r) (br_service r) (br_dt r) b = [w] /\ only_cost pr (bv_id w) q
    /\ q == (if String.eqb (po_type p) "ENERGY" && String.eqb (po_dir p) "LOAD" then - k else k).
Proof. intros d tv tp c m pr p r b k K H. exact (cost_from_file d tv tp K H c m pr p r b k). Qed.
Print Assumptions C59_cost.

Theorem C59_dispatch :
  forall d tv tp c m x v p b q, inputs_ok (ud_in d) -> snd (get_processed_bids d) = Gives (tv, tp) ->
  in_force c (OpVolumeBids tv) m -> solution m x ->
  In v (in_volumes (ud_in d)) -> In p (in_prices (ud_in d)) -> belongs v p -> vo_type v = "ENERGY" -> described (ud_in d) (vo_duid v) ->
  band (vo_bands v) b q ->
  0 <= band_dispatch m x (vo_duid v) "energy" (side (po_dir p)) b <= q.
Proof. intros d tv tp c m x v p b q K H. exact (dispatch_from_file d tv tp K H c m x v p b q). Qed.
Print Assumptions C59_dispatch.

Definition ud_config : config := Config ["NSW1"; "VIC1"] ud_info 5.
Definition ud_ops : list op := [OpVolumeBids (fst ud_tables); OpPriceBids (snd ud_tables); OpDemand [Demand "NSW1" 60; Demand "VIC1" 40] None].
Definition ud_market : market := final ud_config ud_ops.
Definition ud_bids : list bidvar := Eval vm_compute in rows_or_nil (m_bids ud_market).
Definition ud_x : assignment := values [60; 0; 0; 0; 0; 0; 10; 0; 0; 0; 50].
Definition ud_problem : problem := Eval vm_compute in match assemble ud_market with Ok p => p | Err _ => Problem [] [] [] [] [] end.

Example C59_cost_case :
  unit_info ud_inputs = Ok (c_ui ud_config) /\ (forall u, In u (c_ui ud_config) -> ~ ui_lf u == 0)
  /\ priced ud_config (fst ud_tables) (snd ud_tables) ud_market /\ assemble ud_market = Ok ud_problem
  /\ band (po_bands (nth 4 ud_prices (PriceOffer "" "" "" []))) "1" 20
  /\ (exists q, only_cost ud_problem 6 q /\ q == -(20)) /\ (exists q, only_cost ud_problem 2 q /\ q == 80).
Proof.
  split; [vm_compute; reflexivity|]. split.
  { intros u H. cbn in H. repeat (destruct H as [<-|H]; [cbn; intros C; discriminate C|]). destruct H. }
  split; [apply (pricedb_ok ud_config [] [] [OpDemand [Demand "NSW1" 60; Demand "VIC1" 40] None]); vm_compute; reflexivity|].
  split; [vm_compute; reflexivity|]. split; [exists 0%nat; split; reflexivity|].
  split; eexists; (split; [vm_compute; reflexivity|vm_compute; reflexivity]).
Qed.

Example C59_dispatch_case :
  in_force ud_config (OpVolumeBids (fst ud_tables)) ud_market /\ solution ud_market ud_x
  /\ belongs (nth 4 ud_volumes (nth 0 ud_volumes (Volume "" None "" 0 0 0 0 0 [] None None))) (nth 4 ud_prices (PriceOffer "" "" "" []))
  /\ band_dispatch ud_market ud_x "S" "energy" "load" "1" == 10.
Proof.
  split; [in_force_at 0%nat|]. split; [solves|]. split; [cbn; unfold belongs; cbn; auto|]. vm_compute. reflexivity.
Qed.

(** ** C60 *)

Definition ud_offers_of (i : inputs) : list offer := match processed_offers i with Ok (v, _) => v | Err _ => [] end.
Definition ud_calls : list ud_call := [AddTraps; Processed; Processed; AddTraps; AddTraps; Processed].

Theorem C60_order :
  forall i v p cs, inputs_ok i -> processed_offers i = Ok (v, p) ->
  (ready cs -> exists ms rs ks, max_availability (after_calls i cs) = Gives ms /\ regulation_traps (after_calls i cs) = Gives rs
                /\ contingency_traps (after_calls i cs) = Gives ks)
  /\ (~ ready cs -> max_availability (after_calls i cs) = Raises CallOrder /\ regulation_traps (after_calls i cs) = Raises CallOrder
                /\ contingency_traps (after_calls i cs) = Raises CallOrder).
Proof. exact order_needed. Qed.
Print Assumptions C60_order.

Theorem C60_rows :
  forall i v p cs ms rs ks, inputs_ok i -> processed_offers i = Ok (v, p) ->
  max_availability (after_calls i cs) = Gives ms -> regulation_traps (after_calls i cs) = Gives rs -> contingency_traps (after_calls i cs) = Gives ks ->
  (forall r, In r rs -> exists o, In o v /\ regulation (of_type o) /\ trap_for o r)
  /\ (forall r, In r ks -> exists o, In o v /\ of_type o <> "ENERGY" /\ ~ regulation (of_type o) /\ trap_for o r)
  /\ (forall o, In o v -> of_type o <> "ENERGY" -> exists r, trap_for o r /\ In (MaxAvail (tz_unit r) (tz_service r) (tz_dt r) (tz_max r)) ms
        /\ (regulation (of_type o) -> In r rs) /\ (~ regulation (of_type o) -> In r ks))
  /\ (forall m, In m ms -> exists r, In r (rs ++ ks) /\ m = MaxAvail (tz_unit r) (tz_service r) (tz_dt r) (tz_max r))
  /\ NoDup (map trap_key (rs ++ ks)) /\ NoDup (map (fun m => (ma_unit m, ma_service m, ma_dt m)) ms).
Proof. exact trap_rows. Qed.
Print Assumptions C60_rows.

Theorem C60_limits :
  forall i v p cs rs ks r, inputs_ok i -> rates_ok (in_initials i) -> processed_offers i = Ok (v, p) ->
  regulation_traps (after_calls i cs) = Gives rs -> contingency_traps (after_calls i cs) = Gives ks -> In r (rs ++ ks) ->
  exists w q o o', In w (in_volumes i) /\ In q (in_prices i) /\ belongs w q /\ o = offer_of (with_dir w (Some (po_dir q)))
    /\ tightens o o' /\ trap_for o' r /\ 0 < tz_max r
    /\ (regulation (vo_type w) -> exists a, In a (in_agc i) /\ ag_duid a = vo_duid w
         /\ (forall l, agc_min a (vo_type w) = Some l -> 0 < l -> l <= tz_emin r)
         /\ (forall h, agc_max a (vo_type w) = Some h -> 0 < h -> tz_emax r <= h))
    /\ (forall t k, In t (in_initials i) -> OffersModel.ic_duid t = vo_duid w -> reg_rate t (vo_type w) = Some k -> ~ k == 0 -> tz_max r <= k / 12)
    /\ (forall f, In f (in_uigf i) -> ug_unit f = vo_duid w -> tz_emax r <= ug_cap f).
Proof. exact traps_from_file. Qed.
Print Assumptions C60_limits.

Example C60_case :
  inputs_ok ud_inputs /\ rates_ok (in_initials ud_inputs) /\ (exists v p, processed_offers ud_inputs = Ok (v, p)) /\ ready ud_calls /\ ~ ready [AddTraps; Processed]
  /\ (exists rs, regulation_traps (after_calls ud_inputs ud_calls) = Gives rs
        /\ map (fun r => (trap_key r, Qred (tz_max r), tz_emin r, tz_emax r)) rs
           = [(("G", "raise_reg", "generator"), 10, 40, 95); (("S", "raise_reg", "generator"), 10, 0, 50); (("S", "raise_reg", "load"), 10, -(40), 0)])
  /\ (exists ks, contingency_traps (after_calls ud_inputs ud_calls) = Gives ks /\ map trap_key ks = [("G", "lower_5min", "generator")])
  /\ contingency_traps (after_calls ud_inputs [AddTraps; Processed]) = Raises CallOrder.
Proof.
  split; [exact ud_fine|]. split.
  { intros t q H. cbn in H. repeat (destruct H as [<-|H]; [cbn; intros [E|E]; inversion E; subst; lra|]). destruct H. }
  split; [do 2 eexists; vm_compute; reflexivity|]. split; [exists [AddTraps], [Processed], [AddTraps; Processed]; reflexivity|].
  split. { intros [a [b [x E]]]. destruct a as [|? [|? a]]; cbn in E; [discriminate| |]; injection E as; try discriminate. destruct b; discriminate. destruct a; discriminate. }
  split; [eexists; split; [vm_compute; reflexivity|vm_compute; reflexivity]|]. split; [eexists; split; [vm_compute; reflexivity|vm_compute; reflexivity]|].
  vm_compute. reflexivity.
Qed.

Theorem C60_bids :
  forall i v p cs ms rs ks tv tp r, inputs_ok i -> processed_offers i = Ok (v, p) ->
  snd (get_processed_bids (new_data i)) = Gives (tv, tp) ->
  max_availability (after_calls i cs) = Gives ms -> regulation_traps (after_calls i cs) = Gives rs -> contingency_traps (after_calls i cs) = Gives ks ->
  In r (rs ++ ks) -> described i (tz_unit r) -> In (trap_key r) (map bid_key (bt_rows tv)).
Proof. exact trap_has_bid. Qed.
Print Assumptions C60_bids.

(** A unit with bids and an initial condition but no details has no row in the unit
    info and no bids, yet its trapezium is given; the market rejects the table. *)
Definition nd_inputs : inputs :=
  Inputs (PriceOffer "N" "GENERATOR" "RAISE6SEC" (ten 1 0) :: ud_prices) (Volume "N" None "RAISE6SEC" 12 0 5 20 30 (ten 12 0) None None :: ud_volumes)
    ud_initials [Uigf "W" 50] ud_details ud_agc false.

Lemma nd_fine : inputs_ok nd_inputs.
Proof.
  split; [|split].
  - apply pricesb_ok; [vm_compute; reflexivity|]. distinct.
  - apply pairedb_ok; [vm_compute; reflexivity|]. distinct.
  - split; [|split; [|split]]; distinct.
Qed.


Definition nd_config : config := Config ["NSW1"; "VIC1"] ud_info 5.

Theorem C60_bids_refuted :
  exists i ui tv tp ms c m e, inputs_ok i /\ unit_info i = Ok ui /\ c_ui c = ui
    /\ snd (get_processed_bids (new_data i)) = Gives (tv, tp) /\ max_availability (after_calls i [Processed; AddTraps]) = Gives ms
    /\ new_market c = Ok m
    /\ (exists a, In a ms /\ ~ In (ma_unit a) (map ui_unit ui) /\ ~ In (ma_unit a) (map br_unit (bt_rows tv)))
    /\ snd (step (OpMaxAvail ms None) (run [OpVolumeBids tv; OpPriceBids tp] m)) = Some e.
Proof.
  exists nd_inputs, ud_info. do 3 eexists. exists nd_config. do 2 eexists. split; [exact nd_fine|]. split; [vm_compute; reflexivity|]. split; [reflexivity|].
  split; [vm_compute; reflexivity|]. split; [vm_compute; reflexivity|]. split; [vm_compute; reflexivity|]. split; [|vm_compute; reflexivity].
  eexists. split; [left; reflexivity|]. split; cbn; intuition discriminate.
Qed.
Print Assumptions C60_bids_refuted.

(** ** C61 *)

Theorem C61_availability :
  forall i, prices_ok i -> paired i -> exists ls, bid_availability i = Ok ls
  /\ (forall l, In l ls <-> exists v p, In v (in_volumes i) /\ In p (in_prices i) /\ belongs v p /\ vo_type v = "ENERGY"
        /\ ~ (in_old i = true /\ In (vo_duid v) (map ug_unit (in_uigf i))) /\ l = Limit (vo_duid v) (side (po_dir p)) (vo_max v))
  /\ NoDup (map (fun l => (li_unit l, li_dt l)) ls).
Proof. exact availability_rows. Qed.
Print Assumptions C61_availability.

Theorem C61_bid_rates :
  forall i, prices_ok i -> paired i -> tables_ok i -> exists rs, bid_ramp_rates i = Ok rs
  /\ (forall r, In r rs <-> exists v p t, In v (in_volumes i) /\ In p (in_prices i) /\ belongs v p /\ vo_type v = "ENERGY"
        /\ In t (in_initials i) /\ OffersModel.ic_duid t = vo_duid v
        /\ r = BidRamp (vo_duid v) (side (po_dir p)) (vo_down v) (vo_up v) (ic_mw t))
  /\ NoDup (map (fun r => (bm_unit r, bm_dt r)) rs).
Proof. exact bid_rates_rows. Qed.
Print Assumptions C61_bid_rates.

Theorem C61_scada :
  forall i, tables_ok i ->
  (forall r, In r (scada_rates i) <-> exists t, In t (in_initials i)
     /\ r = ScadaRate (OffersModel.ic_duid t) (ic_down t) (ic_up t) (ic_mw t) /\ (ic_up t <> None \/ ic_down t <> None))
  /\ NoDup (map sr_unit (scada_rates i)).
Proof. intros i K. split; [intros r; exact (scada_rows i r)|exact (scada_once i K)]. Qed.
Print Assumptions C61_scada.

Definition od_inputs : inputs := Inputs ud_prices ud_volumes ud_initials [Uigf "W" 50] ud_details ud_agc true.

Example C61_case :
  prices_ok ud_inputs /\ paired ud_inputs /\ tables_ok ud_inputs
  /\ bid_availability ud_inputs = Ok [Limit "G" "generator" 100; Limit "W" "generator" 70; Limit "N" "generator" 30; Limit "S" "generator" 50; Limit "S" "load" 40]
  /\ bid_availability od_inputs = Ok [Limit "G" "generator" 100; Limit "N" "generator" 30; Limit "S" "generator" 50; Limit "S" "load" 40]
  /\ (exists rs, bid_ramp_rates ud_inputs = Ok rs /\ In (BidRamp "S" "load" (Some 600) None (Some (-(10)))) rs /\ length rs = 5%nat)
  /\ map sr_unit (scada_rates ud_inputs) = ["G"; "S"].
Proof.
  split; [apply ud_fine|]. split; [apply ud_fine|]. split; [apply ud_fine|]. split; [vm_compute; reflexivity|]. split; [vm_compute; reflexivity|].
  split; [eexists; split; [vm_compute; reflexivity|]; split; [cbn; tauto|reflexivity]|]. vm_compute; reflexivity.
Qed.

(** ** C62 *)

Theorem C62_rows :
  forall vs ps w, In w (map_direction vs ps) <->
  (In w vs /\ vo_dir w <> None)
  \/ exists v, In v vs /\ vo_dir v = None
       /\ ((exists p, In p ps /\ vo_duid v = po_duid p /\ vo_type v = po_type p /\ w = with_dir v (Some (po_dir p)))
           \/ ((forall p, In p ps -> ~ (vo_duid v = po_duid p /\ vo_type v = po_type p)) /\ w = v)).
Proof. exact map_direction_in. Qed.
Print Assumptions C62_rows.

Theorem C62_paired :
  forall i, prices_ok i -> paired i ->
  (forall w, In w (bids_of i) <-> exists v p, In v (in_volumes i) /\ In p (in_prices i) /\ belongs v p /\ w = with_dir v (Some (po_dir p)))
  /\ NoDup (map (fun w => (vo_duid w, vo_dir w, vo_type w)) (bids_of i)).
Proof. intros i K K'. split; [intros w; exact (bids_in i w K')|exact (bids_once i K K')]. Qed.
Print Assumptions C62_paired.

Example C62_case :
  prices_ok ud_inputs /\ paired ud_inputs
  /\ map (fun w => (vo_duid w, vo_dir w, vo_type w)) (bids_of ud_inputs)
     = [("G", Some "GENERATOR", "ENERGY"); ("G", Some "GENERATOR", "RAISEREG"); ("G", Some "GENERATOR", "LOWER5MIN"); ("W", Some "GENERATOR", "ENERGY");
        ("W", Some "GENERATOR", "RAISE6SEC"); ("N", Some "GENERATOR", "ENERGY"); ("S", Some "GENERATOR", "ENERGY"); ("S", Some "LOAD", "ENERGY");
        ("S", Some "GENERATOR", "RAISEREG"); ("S", Some "LOAD", "RAISEREG")].
Proof. split; [apply ud_fine|]. split; [apply ud_fine|]. vm_compute. reflexivity. Qed.

(** A volume bid without a direction, of a unit with price bids in both, is given
    in both: the volume of the file counts twice. *)
Definition tw_inputs : inputs :=
  Inputs ud_prices (map (fun v => if String.eqb (vo_duid v) "S" then with_dir v None else v) (filter (fun v => negb (String.eqb (vo_duid v) "S" && match vo_dir v with Some "LOAD" => true | _ => false end)) ud_volumes))
    ud_initials [Uigf "W" 50] ud_details ud_agc false.

Theorem C62_one_each_refuted :
  exists i v w w', prices_ok i /\ NoDup (map (fun v => (vo_duid v, vo_type v)) (in_volumes i)) /\ In v (in_volumes i)
    /\ In w (bids_of i) /\ In w' (bids_of i) /\ vo_duid w = vo_duid v /\ vo_type w = vo_type v /\ vo_duid w' = vo_duid v /\ vo_type w' = vo_type v
    /\ vo_dir w <> vo_dir w' /\ vo_bands w = vo_bands v /\ vo_bands w' = vo_bands v /\ ~ nth 0 (vo_bands v) 0 == 0.
Proof.
  exists tw_inputs, (Volume "S" None "ENERGY" 50 0 0 0 0 (ten 50 0) (Some 600) (Some 600)),
    (Volume "S" (Some "GENERATOR") "ENERGY" 50 0 0 0 0 (ten 50 0) (Some 600) (Some 600)), (Volume "S" (Some "LOAD") "ENERGY" 50 0 0 0 0 (ten 50 0) (Some 600) (Some 600)).
  split; [exact (proj1 ud_fine)|]. split; [distinct|]. split; [vm_compute; tauto|]. split; [vm_compute; tauto|]. split; [vm_compute; tauto|].
  repeat (split; [reflexivity|]). split; [cbn; congruence|]. split; [reflexivity|]. split; [reflexivity|]. cbn. intros H. discriminate H.
Qed.
Print Assumptions C62_one_each_refuted.

(** One volume bid for energy without a price bid stops every bid from being read. *)
Theorem C62_missing_price :
  forall i d v, In v (in_volumes i) -> vo_dir v = None -> vo_type v = "ENERGY" ->
  (forall p, In p (in_prices i) -> ~ (vo_duid v = po_duid p /\ vo_type v = po_type p)) ->
  ~ (in_old i = true /\ In (vo_duid v) (map ug_unit (in_uigf i))) -> ud_in d = i ->
  (exists e, bid_availability i = Err e) /\ exists e, snd (get_processed_bids d) = Raises e.
Proof. exact missing_price. Qed.
Print Assumptions C62_missing_price.

Example C62_missing_case :
  let i := Inputs ud_prices (Volume "Z" None "ENERGY" 10 0 0 0 0 (ten 10 0) None None :: ud_volumes) ud_initials [] ud_details ud_agc false in
  bid_availability i = Err EKey /\ snd (get_processed_bids (new_data i)) = Raises (Other EKey)
  /\ (forall p, In p (in_prices i) -> ~ ("Z" = po_duid p /\ "ENERGY" = po_type p)).
Proof.
  split; [vm_compute; reflexivity|]. split; [vm_compute; reflexivity|]. intros p H [E _]. cbn in H.
  repeat (destruct H as [<-|H]; [discriminate E|]). destruct H.
Qed.
