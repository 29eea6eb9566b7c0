(** The market of a case file: C64. *)

From Coq Require Import QArith Lqa String List Bool ZArith Lia.
Import ListNotations.
From Verif Require Import PandasModel TablesModel MarketModel ReportsModel OffersModel UnitsModel XmlModel UnitDataModel CaseModel SolverModel.
From Verif Require Import SpecOffers SpecXml SpecUnitData SpecCase SpecLp SpecHistory SpecDispatch SpecPrices SpecRamp.
From Verif Require Import CheckFacts CheckLpFacts CheckUnitFacts CaseFacts CaseMarketFacts CheckCaseFacts PropXml.
Open Scope string_scope.
Open Scope list_scope.

(** A case file with a generator A, a load L, a wind farm W and a two-way unit S. *)
Definition cs_periods : list elem :=
  [xd_period "A" [] [xd_energy "ENOF" []; xd_fcas "R5RE"; xd_fcas "L5RE"]; xd_period "L" [] [xd_energy "LDOF" []];
   xd_period "W" [("UIGF", "50.5")] [xd_energy "ENOF" []];
   xd_period "S" [] [xd_energy "BDOF" [("Direction", "GEN")]; xd_energy "BDOF" [("Direction", "LOAD")]]].
Definition cs_traders : list elem :=
  [xd_trader "A" "GENERATOR" []
     [xd_condition "AGCStatus" "1"; xd_condition "InitialMW" "50.5"; xd_condition "SCADARampUpRate" "5"]
     [xd_price "ENOF" (xd_bands "PriceBand" "20"); xd_price "R5RE" (xd_bands "PriceBand" "5"); xd_price "L5RE" (xd_bands "PriceBand" "5")];
   xd_trader "L" "LOAD" [] [xd_condition "InitialMW" "20"; xd_condition "AGCStatus" "0"]
     [xd_price "LDOF" (xd_bands "PriceBand" "-30")];
   xd_trader "W" "GENERATOR" [] [xd_condition "InitialMW" "20"; xd_condition "AGCStatus" "0"]
     [xd_price "ENOF" (xd_bands "PriceBand" "1")];
   xd_trader "S" "BIDIRECTIONAL" []
     [xd_condition "InitialMW" "0"; xd_condition "AGCStatus" "0"]
     [xd_price "BDOF" (("Direction", "GEN") :: xd_bands "PriceBand" "10"); xd_price "BDOF" (("Direction", "LOAD") :: xd_bands "PriceBand" "-30")]].
Definition cs_root : elem := xd_doc cs_traders cs_periods xd_outs.
Definition cs_details : list detail :=
  [Detail "A" "NSW1" (9#10) 1 None; Detail "L" "VIC1" 1 1 None; Detail "W" "VIC1" (8#10) 1 None; Detail "S" "VIC1" (99 # 100) (11 # 10) (Some (9#10))].
Definition cs_agc : list agc_row := [Agc "A" (Some 10) (Some 100) (Some 10) (Some 90)].
Definition cs_volumes : list (elem * elem) := xd_pairs xd_volume_of cs_periods.
Definition cs_prices : list (elem * elem) := xd_pairs xd_price_of cs_traders.

Lemma cs_bidding : bidding xd_reader cs_root cs_traders cs_periods cs_volumes cs_prices.
Proof.
  split.
  - split; [reflexivity|]. eexists. split; [cbn; repeat (eexists; split; [reflexivity|]); reflexivity|]. split; [reflexivity|cbn; lia].
  - split; [reflexivity|]. eexists. split; [cbn; repeat (eexists; split; [reflexivity|]); reflexivity|]. split; [reflexivity|cbn; lia].
  - left. eexists. split; [reflexivity|]. eexists. split; [cbn; eexists; split; reflexivity|reflexivity].
  - exists (map xd_price_of cs_traders). split; [|reflexivity]. unfold cs_traders. cbn [map].
    repeat (constructor; [eexists; split; [cbn; repeat (eexists; split; [reflexivity|]); reflexivity|]; split; [reflexivity|]; split; [reflexivity|]; split; [discriminate|];
      intros x H; cbn in H; repeat (destruct H as [<-|H]; [reflexivity|]); destruct H|]). constructor.
  - exists (map xd_volume_of cs_periods). split; [|reflexivity]. unfold cs_periods. cbn [map].
    repeat (constructor; [eexists; split; [cbn; eexists; split; reflexivity|]; split; [reflexivity|]; split; [reflexivity|]; split; [discriminate|];
      intros x H; cbn in H; repeat (destruct H as [<-|H]; [reflexivity|]); destruct H|]). constructor.
  - intros p H. cbn [cs_prices xd_pairs cs_traders flat_map map app xd_price_of xd_trader el_kids] in H.
    each_of; (split; [split; [discriminate|]; split; [is_readable|]; cbn; discriminate|]); intros n I; cbn in I;
      repeat (destruct I as [<-|I]; [vm_compute; discriminate|]); destruct I.
  - intros p H. cbn [cs_volumes xd_pairs cs_periods flat_map map app xd_volume_of xd_period el_kids] in H.
    each_of; (split; [split; [discriminate|]; is_readable|]); vm_compute; discriminate.
  - intros t H. unfold cs_traders in H. each_of; (split; [discriminate|]; split; [discriminate|]; eexists; split;
      [eexists; split; [cbn; eexists; split; reflexivity|]; split; [reflexivity|]; split; [cbn; lia|];
       intros x H; cbn in H; repeat (destruct H as [<-|H]; [discriminate|]); destruct H
      |intros x H; cbn in H; repeat (destruct H as [<-|H]; [eexists; eexists; split; vm_compute; reflexivity|]); destruct H]).
  - intros t H. unfold cs_periods in H. each_of; (split; [discriminate|]); intros F;
      first [exfalso; apply F; reflexivity|split; [discriminate|eexists; eexists; split; vm_compute; reflexivity]].
  - distinct.
  - distinct.
  - apply matchedb_ok. vm_compute. reflexivity.
Qed.

(** ** C64 *)

(** The tables the market is made from are read from the case file. *)
Theorem C64_load :
  forall rd root ts us vs ps details agc old, bidding rd root ts us vs ps ->
  exists i, load rd (document root) details agc old = Got i /\ in_details i = details /\ in_agc i = agc /\ in_old i = old
    /\ Forall2 (price_says rd) ps (in_prices i) /\ Forall2 (volume_says rd) vs (in_volumes i)
    /\ (plain_period root -> Forall2 (initial_of rd "InitialMW") ts (in_initials i))
    /\ (intervention_period root -> Forall2 (initial_of rd "WhatIfInitialMW") ts (in_initials i))
    /\ picks forecast (forecast_of rd) us (in_uigf i).
Proof. exact load_read. Qed.
Print Assumptions C64_load.

Theorem C64_belong :
  forall rd root ts us vs ps details agc old i, bidding rd root ts us vs ps -> NoDup (map dt_duid details) -> NoDup (map ag_duid agc) ->
  load rd (document root) details agc old = Got i -> inputs_ok i.
Proof. exact loaded_ok. Qed.
Print Assumptions C64_belong.

Definition cs_inputs : inputs := Eval vm_compute in
  match load xd_reader (document cs_root) cs_details cs_agc false with Got i => i | Raise _ => Inputs [] [] [] [] [] [] false end.
Lemma cs_load : load xd_reader (document cs_root) cs_details cs_agc false = Got cs_inputs.
Proof. vm_compute. reflexivity. Qed.
Lemma cs_once : NoDup (map dt_duid cs_details) /\ NoDup (map ag_duid cs_agc).
Proof. split; distinct. Qed.

Example C64_load_case :
  bidding xd_reader cs_root cs_traders cs_periods cs_volumes cs_prices /\ NoDup (map dt_duid cs_details) /\ NoDup (map ag_duid cs_agc)
  /\ load xd_reader (document cs_root) cs_details cs_agc false = Got cs_inputs
  /\ length (in_prices cs_inputs) = 7%nat /\ length (in_volumes cs_inputs) = 7%nat.
Proof. split; [exact cs_bidding|]. split; [apply cs_once|]. split; [apply cs_once|]. split; [exact cs_load|]. split; reflexivity. Qed.

(** A band of energy costs its price band in the file, and is paid that price when it
    is on the load side. *)
Theorem C64_energy_cost :
  forall rd root ts us vs ps details agc old i tv tp c m pr v p u dir b k q,
  bidding rd root ts us vs ps -> NoDup (map dt_duid details) -> NoDup (map ag_duid agc) ->
  load rd (document root) details agc old = Got i -> snd (get_processed_bids (new_data i)) = Gives (tv, tp) ->
  unit_info i = Ok (c_ui c) -> (forall x, In x (c_ui c) -> ~ ui_lf x == 0) -> priced c tv tp m -> assemble m = Ok pr ->
  In v vs -> In p ps -> partner v p -> of_unit p u -> of_market p "ENERGY" -> on_side p dir -> In u (map dt_duid details) ->
  In b band_names -> number rd ("PriceBand" ++ b) (snd p) k -> number rd ("BandAvail" ++ b) (snd v) q -> 1#10000 <= q ->
  exists w cost, band_vars m u "energy" (side dir) b = [w] /\ only_cost pr (bv_id w) cost /\ cost == (if String.eqb dir "LOAD" then - k else k).
Proof. intros rd root ts us vs ps details agc old i tv tp c m pr v p u dir b k q B ND NA L G. exact (case_cost rd root ts us vs ps details agc old i B ND NA L tv tp G c m pr v p u dir b k q). Qed.
Print Assumptions C64_energy_cost.

Theorem C64_fcas_cost :
  forall rd root ts us vs ps details agc old i tv tp c m pr p u s dir b k row,
  bidding rd root ts us vs ps -> NoDup (map dt_duid details) -> NoDup (map ag_duid agc) ->
  load rd (document root) details agc old = Got i -> snd (get_processed_bids (new_data i)) = Gives (tv, tp) ->
  unit_info i = Ok (c_ui c) -> (forall x, In x (c_ui c) -> ~ ui_lf x == 0) -> priced c tv tp m -> assemble m = Ok pr ->
  In p ps -> of_unit p u -> of_market p s -> s <> "ENERGY" -> on_side p dir ->
  In row (bt_rows tv) -> br_unit row = u -> service_of s (br_service row) -> br_dt row = side dir ->
  In b band_names -> number rd ("PriceBand" ++ b) (snd p) k -> 1#10000 <= br_val row b ->
  exists w cost, band_vars m u (br_service row) (side dir) b = [w] /\ only_cost pr (bv_id w) cost /\ cost == k.
Proof. intros rd root ts us vs ps details agc old i tv tp c m pr p u s dir b k row B ND NA L G. exact (case_fcas_cost rd root ts us vs ps details agc old i B ND NA L tv tp G c m pr p u s dir b k row). Qed.
Print Assumptions C64_fcas_cost.

(** What is dispatched of a band is at most what the file offers in it. *)
Theorem C64_bands :
  forall rd root ts us vs ps details agc old i tv tp c m x v p u dir b q,
  bidding rd root ts us vs ps -> NoDup (map dt_duid details) -> NoDup (map ag_duid agc) ->
  load rd (document root) details agc old = Got i -> snd (get_processed_bids (new_data i)) = Gives (tv, tp) ->
  in_force c (OpVolumeBids tv) m -> solution m x ->
  In v vs -> In p ps -> partner v p -> of_unit p u -> of_market p "ENERGY" -> on_side p dir -> In u (map dt_duid details) ->
  In b band_names -> number rd ("BandAvail" ++ b) (snd v) q -> 0 <= band_dispatch m x u "energy" (side dir) b <= q.
Proof. intros rd root ts us vs ps details agc old i tv tp c m x v p u dir b q B ND NA L G. exact (case_bands rd root ts us vs ps details agc old i B ND NA L tv tp G c m x v p u dir b q). Qed.
Print Assumptions C64_bands.

(** The energy dispatch stays within MaxAvail, except before July 2023 for units with
    a forecast, and within the forecast. *)
Theorem C64_capacity :
  forall rd root ts us vs ps details agc old i c m x ls v p u dir q,
  bidding rd root ts us vs ps -> NoDup (map dt_duid details) -> NoDup (map ag_duid agc) -> load rd (document root) details agc old = Got i ->
  unit_info i = Ok (c_ui c) -> bid_availability i = Ok ls -> in_force c (OpCapacity ls None) m -> solution m x ->
  In v vs -> In p ps -> partner v p -> of_unit p u -> of_market p "ENERGY" -> on_side p dir -> In u (map dt_duid details) ->
  (old = true -> forall t, In t us -> forecast t -> ~ named "TraderID" u t) ->
  number rd "MaxAvail" (snd v) q -> 0 <= q -> dispatch m x u "energy" (side dir) <= q.
Proof. intros rd root ts us vs ps details agc old i c m x ls v p u dir q B ND NA L. exact (case_capacity rd root ts us vs ps details agc old i B ND NA L c m x ls v p u dir q). Qed.
Print Assumptions C64_capacity.

Theorem C64_forecast :
  forall rd root ts us vs ps details agc old i c m x t p u q,
  bidding rd root ts us vs ps -> load rd (document root) details agc old = Got i ->
  unit_info i = Ok (c_ui c) -> in_force c (OpUigf (uigf_limits i) None) m -> solution m x ->
  In t us -> named "TraderID" u t -> number rd "UIGF" t q -> 0 <= q ->
  In p ps -> of_unit p u -> on_side p "GENERATOR" -> In u (map dt_duid details) -> dispatch m x u "energy" "generator" <= q.
Proof. intros rd root ts us vs ps details agc old i c m x t p u q B L. exact (case_forecast rd root ts us vs ps details agc old i B L c m x t p u q). Qed.
Print Assumptions C64_forecast.

(** A unit moves from its initial output in the file at no more than the smaller of
    its bid rate and its measured rate. *)
Theorem C64_ramp :
  forall rd root ts us vs ps details agc old i c m x rs t fs v p u dir mw tr l init up dn sup sdn,
  bidding rd root ts us vs ps -> NoDup (map dt_duid details) -> NoDup (map ag_duid agc) -> load rd (document root) details agc old = Got i ->
  unit_info i = Ok (c_ui c) -> bid_ramp_rates i = Ok rs -> bid_ramp_table rs = Got t ->
  in_force c (OpRamp t (Some (scada_table_of (scada_rates i))) fs "no_fast_start_units" None) m -> solution m x ->
  In v vs -> In p ps -> partner v p -> of_unit p u -> of_market p "ENERGY" -> on_side p dir -> In u (map dt_duid details) ->
  ~ two_sided c u -> offers m u "energy" (side dir) ->
  (plain_period root /\ mw = "InitialMW" \/ intervention_period root /\ mw = "WhatIfInitialMW") ->
  In tr ts -> named "TraderID" u tr -> conditions tr l -> initially rd mw l (Some init) ->
  initially rd "SCADARampUpRate" l sup -> initially rd "SCADARampDnRate" l sdn ->
  number rd "RampUpRate" (snd v) up -> number rd "RampDnRate" (snd v) dn ->
  exists r r', smaller_rate up sup r /\ smaller_rate dn sdn r'
    /\ init - r' * c_interval c / 60 <= dispatch m x u "energy" (side dir) <= init + r * c_interval c / 60.
Proof.
  intros rd root ts us vs ps details agc old i c m x rs t fs v p u dir mw tr l init up dn sup sdn B ND NA L.
  exact (case_ramp rd root ts us vs ps details agc old i B ND NA L c m x rs t fs v p u dir mw tr l init up dn sup sdn).
Qed.
Print Assumptions C64_ramp.

(** The market of the case file. *)
Definition cs_tables : bid_table * bid_table :=
  match snd (get_processed_bids (new_data cs_inputs)) with Gives t => t | Raises _ => (BidTable [] [], BidTable [] []) end.
Definition cs_info : list unit_info_row := Eval vm_compute in match unit_info cs_inputs with Ok l => l | Err _ => [] end.
Definition cs_limits : list limit_row := Eval vm_compute in match bid_availability cs_inputs with Ok l => l | Err _ => [] end.
Definition cs_rates : list bid_ramp := Eval vm_compute in match bid_ramp_rates cs_inputs with Ok l => l | Err _ => [] end.
Definition cs_ramps : ramp_table := Eval vm_compute in match bid_ramp_table cs_rates with Got t => t | Raise _ => RampTable true true [] end.
Definition cs_config : config := Config ["NSW1"; "VIC1"] cs_info 5.
Definition cs_ops : list op :=
  [OpVolumeBids (fst cs_tables); OpPriceBids (snd cs_tables); OpCapacity cs_limits None; OpUigf (uigf_limits cs_inputs) None;
   OpRamp cs_ramps (Some (scada_table_of (scada_rates cs_inputs))) None "no_fast_start_units" None; OpDemand [Demand "NSW1" 50; Demand "VIC1" 0] None].
Definition cs_market : market := final cs_config cs_ops.
Definition cs_x : assignment := fun n => if existsb (Nat.eqb n) [0; 3; 6; 9; 12; 30; 31; 60; 61]%nat then 10 else 0.
Definition cs_problem : problem := Eval vm_compute in match assemble cs_market with Ok p => p | Err _ => Problem [] [] [] [] [] end.

Definition cs_nth (l : list (elem * elem)) (n : nat) : elem * elem := nth n l (cs_root, cs_root).
Lemma cs_tables_given : snd (get_processed_bids (new_data cs_inputs)) = Gives (fst cs_tables, snd cs_tables).
Proof. vm_compute. reflexivity. Qed.
Lemma cs_priced : priced cs_config (fst cs_tables) (snd cs_tables) cs_market.
Proof. apply (pricedb_ok cs_config [] [] (skipn 2 cs_ops)); vm_compute; reflexivity. Qed.
Lemma cs_solution : solution cs_market cs_x.
Proof. solves. Qed.
Ltac a_number := eexists; split; vm_compute; reflexivity.

(** The load side of the two-way unit. *)
Example C64_energy_cost_case :
  snd (get_processed_bids (new_data cs_inputs)) = Gives (fst cs_tables, snd cs_tables)
  /\ unit_info cs_inputs = Ok (c_ui cs_config) /\ (forall x, In x (c_ui cs_config) -> ~ ui_lf x == 0)
  /\ priced cs_config (fst cs_tables) (snd cs_tables) cs_market /\ assemble cs_market = Ok cs_problem
  /\ In (cs_nth cs_volumes 6) cs_volumes /\ In (cs_nth cs_prices 6) cs_prices /\ partner (cs_nth cs_volumes 6) (cs_nth cs_prices 6)
  /\ of_unit (cs_nth cs_prices 6) "S" /\ of_market (cs_nth cs_prices 6) "ENERGY" /\ on_side (cs_nth cs_prices 6) "LOAD" /\ In "S" (map dt_duid cs_details)
  /\ In "2" band_names /\ number xd_reader "PriceBand2" (snd (cs_nth cs_prices 6)) (- (30)) /\ number xd_reader "BandAvail2" (snd (cs_nth cs_volumes 6)) 10
  /\ map bv_id (band_vars cs_market "S" "energy" "load" "2") = [45%nat] /\ (exists q, only_cost cs_problem 45 q /\ q == 30).
Proof.
  split; [exact cs_tables_given|]. split; [vm_compute; reflexivity|]. split.
  { intros u H. cbn in H. repeat (destruct H as [<-|H]; [cbn; intros C; discriminate C|]). destruct H. }
  split; [exact cs_priced|]. split; [vm_compute; reflexivity|]. split; [cbn; tauto|]. split; [cbn; tauto|].
  split; [apply partnerb_ok; vm_compute; reflexivity|]. split; [reflexivity|]. split; [eexists; split; reflexivity|]. split; [reflexivity|]. split; [cbn; tauto|].
  split; [cbn; tauto|]. split; [a_number|]. split; [a_number|]. split; [vm_compute; reflexivity|].
  eexists. split; vm_compute; reflexivity.
Qed.

Definition cs_reg : TablesModel.bid_row := nth 6 (bt_rows (fst cs_tables)) (BidRow "" "" "" (fun _ => 0)).
Example C64_fcas_cost_case :
  of_unit (cs_nth cs_prices 1) "A" /\ of_market (cs_nth cs_prices 1) "RAISEREG" /\ on_side (cs_nth cs_prices 1) "GENERATOR"
  /\ In cs_reg (bt_rows (fst cs_tables)) /\ br_unit cs_reg = "A" /\ service_of "RAISEREG" (br_service cs_reg) /\ br_dt cs_reg = side "GENERATOR"
  /\ number xd_reader "PriceBand1" (snd (cs_nth cs_prices 1)) 5 /\ 1#10000 <= br_val cs_reg "1"
  /\ map bv_id (band_vars cs_market "A" "raise_reg" "generator" "1") = [2%nat] /\ (exists q, only_cost cs_problem 2 q /\ q == 5).
Proof.
  split; [reflexivity|]. split; [eexists; split; reflexivity|]. split; [reflexivity|]. split; [apply nth_In; vm_compute; lia|]. split; [vm_compute; reflexivity|].
  split; [right; left; split; vm_compute; reflexivity|]. split; [vm_compute; reflexivity|]. split; [a_number|]. split; [vm_compute; discriminate|].
  split; [vm_compute; reflexivity|]. eexists. split; vm_compute; reflexivity.
Qed.

Example C64_bands_case :
  in_force cs_config (OpVolumeBids (fst cs_tables)) cs_market /\ solution cs_market cs_x
  /\ partner (cs_nth cs_volumes 0) (cs_nth cs_prices 0) /\ of_unit (cs_nth cs_prices 0) "A" /\ on_side (cs_nth cs_prices 0) "GENERATOR"
  /\ number xd_reader "BandAvail1" (snd (cs_nth cs_volumes 0)) 10 /\ band_dispatch cs_market cs_x "A" "energy" "generator" "1" == 10.
Proof.
  split; [in_force_at 0%nat|]. split; [exact cs_solution|]. split; [apply partnerb_ok; vm_compute; reflexivity|]. split; [reflexivity|]. split; [reflexivity|].
  split; [a_number|]. vm_compute. reflexivity.
Qed.

Example C64_capacity_case :
  bid_availability cs_inputs = Ok cs_limits /\ in_force cs_config (OpCapacity cs_limits None) cs_market
  /\ number xd_reader "MaxAvail" (snd (cs_nth cs_volumes 0)) 100 /\ dispatch cs_market cs_x "A" "energy" "generator" == 50.
Proof.
  split; [vm_compute; reflexivity|]. split; [in_force_at 2%nat|]. split; [a_number|]. vm_compute. reflexivity.
Qed.

Example C64_forecast_case :
  in_force cs_config (OpUigf (uigf_limits cs_inputs) None) cs_market
  /\ number xd_reader "UIGF" (nth 2 cs_periods cs_root) (101 # 2) /\ named "TraderID" "W" (nth 2 cs_periods cs_root)
  /\ of_unit (cs_nth cs_prices 4) "W" /\ on_side (cs_nth cs_prices 4) "GENERATOR" /\ dispatch cs_market cs_x "W" "energy" "generator" == 20.
Proof.
  split; [in_force_at 3%nat|]. split; [a_number|]. split; [reflexivity|]. split; [reflexivity|]. split; [reflexivity|]. vm_compute. reflexivity.
Qed.

Definition cs_conditions : list elem := match el_kids (nth 0 cs_traders cs_root) with c :: _ => el_kids c | [] => [] end.
Example C64_ramp_case :
  bid_ramp_rates cs_inputs = Ok cs_rates /\ bid_ramp_table cs_rates = Got cs_ramps
  /\ in_force cs_config (OpRamp cs_ramps (Some (scada_table_of (scada_rates cs_inputs))) None "no_fast_start_units" None) cs_market
  /\ ~ two_sided cs_config "A" /\ offers cs_market "A" "energy" "generator" /\ plain_period cs_root
  /\ conditions (nth 0 cs_traders cs_root) cs_conditions /\ initially xd_reader "InitialMW" cs_conditions (Some (101 # 2))
  /\ initially xd_reader "SCADARampUpRate" cs_conditions (Some 5) /\ initially xd_reader "SCADARampDnRate" cs_conditions None
  /\ number xd_reader "RampUpRate" (snd (cs_nth cs_volumes 0)) 20 /\ number xd_reader "RampDnRate" (snd (cs_nth cs_volumes 0)) 10.
Proof.
  split; [vm_compute; reflexivity|]. split; [vm_compute; reflexivity|]. split; [in_force_at 4%nat|].
  split; [intros [_ H]; revert H; apply not_registeredb; vm_compute; reflexivity|].
  split; [apply offersb_ok; vm_compute; reflexivity|].
  split; [eexists; split; [reflexivity|]; eexists; split; [cbn; eexists; split; reflexivity|reflexivity]|].
  split.
  { eexists. split; [cbn; eexists; split; reflexivity|]. split; [reflexivity|]. split; [cbn; lia|].
    intros x H. cbn in H. repeat (destruct H as [<-|H]; [discriminate|]). destruct H. }
  split.
  { right. exists [xd_condition "AGCStatus" "1"]. do 3 eexists. split; [reflexivity|]. split; [reflexivity|]. split; [a_number|]. split; [reflexivity|].
    intros d H. cbn in H. destruct H as [<-|[]]. discriminate. }
  split.
  { right. exists [xd_condition "AGCStatus" "1"; xd_condition "InitialMW" "50.5"]. do 3 eexists. split; [reflexivity|]. split; [reflexivity|]. split; [a_number|]. split; [reflexivity|].
    intros d H. cbn in H. destruct H as [<-|[<-|[]]]; discriminate. }
  split.
  { left. split; [reflexivity|]. intros d H. cbn in H. destruct H as [<-|[<-|[<-|[]]]]; discriminate. }
  split; a_number.
Qed.
