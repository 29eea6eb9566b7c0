(** The tables read from a case file. *)

From Coq Require Import QArith String Ascii List Bool ZArith Lia.
Import ListNotations.
From Verif Require Import PandasModel TablesModel MarketModel OffersModel ModesModel LossModel ConstraintsModel XmlModel.
From Verif Require Import SpecXml XmlFacts XmlReadFacts.
Open Scope string_scope.
Open Scope list_scope.

(** ** A case file

    A generator A, a load L and a bidirectional unit S; a fast start unit F. *)

Definition xd_reader : reader :=
  Reader (fun s => dget s [("0", 0); ("1", 1); ("2", 2); ("5", 5); ("10", 10); ("20", 20); ("50.5", 101 # 2); ("100", 100); ("-30", - (30)); ("15000", 15000)])
         (fun s => dget s [("0", 0%Z); ("1", 1%Z); ("2", 2%Z); ("5", 5%Z); ("10", 10%Z)]).

Definition xd_bands (pre v : string) : list (string * string) :=
  map (fun n => (pre ++ n, v)%string) ["1"; "2"; "3"; "4"; "5"; "6"; "7"; "8"; "9"; "10"].
Definition xd_trade (type : string) (rest : list (string * string)) : elem := Elem "Trade" (("TradeType", type) :: rest) [].
Definition xd_fcas (type : string) : elem :=
  xd_trade type ([("MaxAvail", "20"); ("EnablementMin", "5"); ("EnablementMax", "100"); ("LowBreakpoint", "10"); ("HighBreakpoint", "50.5")]
                 ++ xd_bands "BandAvail" "2" ++ [("RampDnRate", "10"); ("RampUpRate", "20")]).
Definition xd_energy (type : string) (dir : list (string * string)) : elem :=
  xd_trade type (dir ++ [("MaxAvail", "100")] ++ xd_bands "BandAvail" "10" ++ [("RampDnRate", "10"); ("RampUpRate", "20")]).
Definition xd_period (id : string) (more : list (string * string)) (trades : list elem) : elem :=
  Elem "TraderPeriod" (("TraderID", id) :: more) [Elem "TradeCollection" [] trades].
Definition xd_price (type : string) (rest : list (string * string)) : elem := Elem "TradeTypePriceStructure" (("TradeType", type) :: rest) [].
Definition xd_condition (id v : string) : elem := Elem "TraderInitialCondition" [("InitialConditionID", id); ("Value", v)] [].
Definition xd_trader (id type : string) (more : list (string * string)) (conditions prices : list elem) : elem :=
  Elem "Trader" (("TraderID", id) :: ("TraderType", type) :: more)
    [Elem "TraderInitialConditionCollection" [] conditions;
     Elem "TradePriceStructureCollection" [] [Elem "TradePriceStructure" [] [Elem "TradeTypePriceStructureCollection" [] prices]]].

Definition xd_periods : list elem :=
  [xd_period "A" [] [xd_energy "ENOF" []; xd_fcas "R5RE"]; xd_period "L" [] [xd_energy "LDOF" []];
   xd_period "S" [("UIGF", "50.5")] [xd_energy "BDOF" [("Direction", "GEN")]; xd_energy "BDOF" [("Direction", "LOAD")]]].
Definition xd_traders : list elem :=
  [xd_trader "A" "GENERATOR" []
     [xd_condition "AGCStatus" "1"; xd_condition "InitialMW" "100"; xd_condition "WhatIfInitialMW" "50.5"]
     [xd_price "ENOF" (xd_bands "PriceBand" "20"); xd_price "R5RE" (xd_bands "PriceBand" "5")];
   xd_trader "L" "LOAD"
     [("MinLoadingMW", "5"); ("CurrentMode", "2"); ("CurrentModeTime", "1"); ("WhatIfCurrentMode", "1"); ("T1", "5"); ("T2", "10"); ("T3", "2"); ("T4", "5")]
     [xd_condition "InitialMW" "20"; xd_condition "SCADARampUpRate" "10"; xd_condition "SCADARampDnRate" "5"]
     [xd_price "LDOF" (xd_bands "PriceBand" "-30")];
   xd_trader "S" "BIDIRECTIONAL" []
     [xd_condition "InitialMW" "0"; xd_condition "AGCStatus" "0"]
     [xd_price "BDOF" (("Direction", "GEN") :: xd_bands "PriceBand" "10"); xd_price "BDOF" (("Direction", "LOAD") :: xd_bands "PriceBand" "-30")]].

Definition xd_factor (tag id who trade v : string) : elem := Elem tag [(id, who); ("TradeType", trade); ("Factor", v)] [].
Definition xd_constraint (id type : string) (kids : list elem) : elem :=
  Elem "GenericConstraint" [("ConstraintID", id); ("Type", type); ("ViolationPrice", "15000")] [Elem "LHSFactorCollection" [] kids].
Definition xd_constraints : list elem :=
  [xd_constraint "F1" "GE" [xd_factor "RegionFactor" "RegionID" "NSW1" "R5RE" "1"; xd_factor "RegionFactor" "RegionID" "VIC1" "R5RE" "1"];
   xd_constraint "G1" "LE" [xd_factor "TraderFactor" "TraderID" "A" "ENOF" "1";
                            Elem "InterconnectorFactor" [("InterconnectorID", "V-N"); ("Factor", "-30")] []];
   xd_constraint "N1" "EQ" []].
Definition xd_solved (id run v : string) : elem := Elem "ConstraintSolution" [("ConstraintID", id); ("Intervention", run); ("RHS", v)] [].
Definition xd_region (id run : string) (more : list (string * string)) : elem :=
  Elem "RegionSolution" (("RegionID", id) :: ("Intervention", run) :: more) [].
Definition xd_links : list elem :=
  [Elem "InterconnectorPeriod" [("InterconnectorID", "V-N"); ("MNSP", "0")] [];
   Elem "InterconnectorPeriod" [("InterconnectorID", "T-V"); ("MNSP", "1")]
     [Elem "MNSPOfferCollection" []
        [Elem "MNSPOffer" [("RegionID", "TAS1"); ("MaxAvail", "100")] []; Elem "MNSPOffer" [("RegionID", "VIC1"); ("MaxAvail", "20")] []]]].
Definition xd_totals (run v : string) : list (string * string) :=
  ("Intervention", run) :: map (fun p : string * string => (snd p, v)) violation_columns.

Definition xd_doc (traders periods outs : list elem) : elem :=
  Elem "NEMSPDCaseFile" []
    [Elem "NemSpdInputs" []
       [Elem "Case" (map (fun p : string * string => (snd p, "100")) violation_price_columns) [];
        Elem "TraderCollection" [] traders;
        Elem "PeriodCollection" []
          [Elem "Period" [] [Elem "TraderPeriodCollection" [] periods; Elem "InterconnectorPeriodCollection" [] xd_links]];
        Elem "GenericConstraintCollection" [] xd_constraints];
     Elem "NemSpdOutputs" [] outs].
Definition xd_outs : list elem :=
  [Elem "CaseSolution" (xd_totals "0" "5") []; Elem "PeriodSolution" [("Intervention", "0"); ("TotalRampRateViolation", "2")] [];
   xd_solved "F1" "0" "50.5"; xd_solved "G1" "0" "100"; xd_solved "N1" "0" "0";
   xd_region "NSW1" "0" [("EnergyPrice", "50.5"); ("R6Price", "1"); ("L5Price", "2")]; xd_region "VIC1" "0" [("EnergyPrice", "20")]].
Definition xd_root : elem := xd_doc xd_traders xd_periods xd_outs.
(** The same with an intervention: the outputs are those of two runs. *)
Definition xi_outs : list elem :=
  [Elem "CaseSolution" (xd_totals "1" "20") []; Elem "CaseSolution" (xd_totals "0" "5") [];
   Elem "PeriodSolution" [("Intervention", "1"); ("TotalRampRateViolation", "10")] [];
   Elem "PeriodSolution" [("Intervention", "0"); ("TotalRampRateViolation", "2")] [];
   xd_solved "F1" "1" "20"; xd_solved "F1" "0" "50.5"; xd_solved "G1" "1" "100";
   xd_region "NSW1" "1" [("EnergyPrice", "50.5")]; xd_region "NSW1" "0" [("EnergyPrice", "20")]].
Definition xi_root : elem := xd_doc xd_traders xd_periods xi_outs.

Definition xd_pairs (of : elem -> list elem) (ts : list elem) : list (elem * elem) := flat_map (fun t => map (pair t) (of t)) ts.
Definition xd_volume_of (t : elem) : list elem := match el_kids t with c :: _ => el_kids c | [] => [] end.
Definition xd_price_of (t : elem) : list elem :=
  match el_kids t with
  | [_; c] => match el_kids c with [d] => match el_kids d with [e] => el_kids e | _ => [] end | _ => [] end
  | _ => []
  end.

Ltac each_of := repeat match goal with
  | H : In _ (_ :: _) |- _ => destruct H as [<-|H]
  | H : In _ [] |- _ => destruct H
  end.
Ltac trade := intros; unfold attr in *; cbn in *;
  repeat match goal with
  | H : _ \/ _ |- _ => destruct H as [H|H]
  | H : (_, _) = (_, _) |- _ => inversion H; clear H; subst
  | H : Some _ = Some _ |- _ => inversion H; clear H; subst
  | H : False |- _ => destruct H
  end; try discriminate.

Lemma xd_period_list : period_list xd_root xd_periods.
Proof.
  split; [reflexivity|]. eexists. split; [cbn; repeat (eexists; split; [reflexivity|]); reflexivity|].
  split; [reflexivity|cbn; lia].
Qed.
Lemma xd_trader_list : trader_list xd_root xd_traders.
Proof.
  split; [reflexivity|]. eexists. split; [cbn; repeat (eexists; split; [reflexivity|]); reflexivity|].
  split; [reflexivity|cbn; lia].
Qed.

Lemma xd_volume_trades : with_trades volume_trades xd_periods (xd_pairs xd_volume_of xd_periods).
Proof.
  exists (map xd_volume_of xd_periods). split; [|reflexivity].
  unfold xd_periods. cbn [map].
  repeat (constructor; [eexists; split; [cbn; eexists; split; reflexivity|]; split; [reflexivity|]; split; [reflexivity|]; split; [discriminate|];
    intros x H; cbn in H; repeat (destruct H as [<-|H]; [reflexivity|]); destruct H|]). constructor.
Qed.
Lemma xd_price_trades : with_trades price_trades xd_traders (xd_pairs xd_price_of xd_traders).
Proof.
  exists (map xd_price_of xd_traders). split; [|reflexivity].
  unfold xd_traders. cbn [map].
  repeat (constructor; [eexists; split; [cbn; repeat (eexists; split; [reflexivity|]); reflexivity|]; split; [reflexivity|]; split; [reflexivity|]; split; [discriminate|];
    intros x H; cbn in H; repeat (destruct H as [<-|H]; [reflexivity|]); destruct H|]). constructor.
Qed.
Ltac is_readable := split; [eexists; split; [reflexivity|discriminate]|]; split;
  [trade|intros c a s I A; cbn in I; repeat (destruct I as [I|I]; [inversion I; subst; vm_compute in A; first [discriminate A|inversion A; subst; eexists; vm_compute; reflexivity]|]); destruct I].
Lemma xd_volumes : forall p, In p (xd_pairs xd_volume_of xd_periods) -> volumes_readable xd_reader p.
Proof.
  intros p H. cbn [xd_pairs xd_periods flat_map map app xd_volume_of xd_period el_kids] in H.
  each_of; (split; [discriminate|]); is_readable.
Qed.
Lemma xd_prices : forall p, In p (xd_pairs xd_price_of xd_traders) -> prices_readable xd_reader p.
Proof.
  intros p H. cbn [xd_pairs xd_traders flat_map map app xd_price_of xd_trader el_kids] in H.
  each_of; (split; [discriminate|]); (split; [is_readable|]); cbn; discriminate.
Qed.

(** ** C52 *)

(** Every trade of every unit is one row, with the unit, the market, the direction if it
    has one, and each number it has in the column it is for.  What is missing from C52:
    the columns of the attributes that it does not have are not empty, see below. *)
Theorem C52_rows_partial : forall rd root ts ps,
  period_list root ts -> with_trades volume_trades ts ps -> (forall p, In p ps -> volumes_readable rd p) ->
  exists rows, volume_bids rd (document root) = Got rows
    /\ Forall2 (row_of rd volume_columns (fun _ => None)) ps rows.
Proof. exact volume_bids_rows. Qed.
Print Assumptions C52_rows_partial.

Example C52_rows_partial_hyps :
  period_list xd_root xd_periods /\ with_trades volume_trades xd_periods (xd_pairs xd_volume_of xd_periods)
  /\ (forall p, In p (xd_pairs xd_volume_of xd_periods) -> volumes_readable xd_reader p)
  /\ length (xd_pairs xd_volume_of xd_periods) = 5%nat.
Proof. split; [exact xd_period_list|]. split; [exact xd_volume_trades|]. split; [exact xd_volumes|reflexivity]. Qed.

(** In the column of an attribute that a trade does not have is the number of the column
    before, or the direction. *)
Theorem C52_carried_over : forall rd root ts ps rows,
  period_list root ts -> with_trades volume_trades ts ps -> (forall p, In p ps -> volumes_readable rd p) ->
  volume_bids rd (document root) = Got rows -> Forall2 carried_over ps rows.
Proof. exact volume_gaps. Qed.
Print Assumptions C52_carried_over.

Example C52_carried_over_hyps :
  period_list xd_root xd_periods /\ with_trades volume_trades xd_periods (xd_pairs xd_volume_of xd_periods)
  /\ (forall p, In p (xd_pairs xd_volume_of xd_periods) -> volumes_readable xd_reader p)
  /\ exists rows, volume_bids xd_reader (document xd_root) = Got rows.
Proof.
  split; [exact xd_period_list|]. split; [exact xd_volume_trades|]. split; [exact xd_volumes|].
  eexists. vm_compute. reflexivity.
Qed.

(** The energy trade of A has no enablement limits; its row has its availability there. *)
Theorem C52_refuted : exists rd root ts ps rows,
  period_list root ts /\ with_trades volume_trades ts ps /\ (forall p, In p ps -> volumes_readable rd p)
  /\ volume_bids rd (document root) = Got rows /\ ~ Forall2 (nothing_added volume_columns) ps rows.
Proof.
  exists xd_reader, xd_root, xd_periods, (xd_pairs xd_volume_of xd_periods).
  eexists. split; [exact xd_period_list|]. split; [exact xd_volume_trades|]. split; [exact xd_volumes|].
  split; [vm_compute; reflexivity|]. intros H. inversion H as [|p r ps' rows' N _]; subst.
  specialize (N "ENABLEMENTMIN" "EnablementMin" ltac:(cbn; tauto) eq_refl). vm_compute in N. discriminate.
Qed.
Print Assumptions C52_refuted.

(** ** C53 *)

(** Every trade of every trader is one row, with the unit, the market, its direction or
    else the one of its type, and the price of each band that it has.  What is missing
    from C53: the columns of the bands that it does not have, see below. *)
Theorem C53_rows_partial : forall rd root ts ps,
  trader_list root ts -> with_trades price_trades ts ps -> (forall p, In p ps -> prices_readable rd p) ->
  exists rows, price_bids rd (document root) = Got rows
    /\ Forall2 (row_of rd price_columns direction_of_type) ps rows.
Proof. exact price_bids_rows. Qed.
Print Assumptions C53_rows_partial.

Example C53_rows_partial_hyps :
  trader_list xd_root xd_traders /\ with_trades price_trades xd_traders (xd_pairs xd_price_of xd_traders)
  /\ (forall p, In p (xd_pairs xd_price_of xd_traders) -> prices_readable xd_reader p)
  /\ length (xd_pairs xd_price_of xd_traders) = 5%nat.
Proof. split; [exact xd_trader_list|]. split; [exact xd_price_trades|]. split; [exact xd_prices|reflexivity]. Qed.

(** The column of a band that a trade does not have is empty if the trade has a
    direction; otherwise the direction is written there in place of a price. *)
Theorem C53_gaps : forall rd root ts ps rows,
  trader_list root ts -> with_trades price_trades ts ps -> (forall p, In p ps -> prices_readable rd p) ->
  price_bids rd (document root) = Got rows -> Forall2 direction_in_gaps ps rows.
Proof. exact price_gaps. Qed.
Print Assumptions C53_gaps.

(** A trader with a trade that has only one band, and one with a direction. *)
Definition xp_traders : list elem :=
  [xd_trader "A" "GENERATOR" [] [] [xd_price "ENOF" [("PriceBand1", "20")]];
   xd_trader "S" "BIDIRECTIONAL" [] [] [xd_price "BDOF" [("Direction", "GEN"); ("PriceBand1", "10")]]].
Definition xp_root : elem := xd_doc xp_traders xd_periods xd_outs.
Lemma xp_trader_list : trader_list xp_root xp_traders.
Proof.
  split; [reflexivity|]. eexists. split; [cbn; repeat (eexists; split; [reflexivity|]); reflexivity|].
  split; [reflexivity|cbn; lia].
Qed.
Lemma xp_price_trades : with_trades price_trades xp_traders (xd_pairs xd_price_of xp_traders).
Proof.
  exists (map xd_price_of xp_traders). split; [|reflexivity].
  unfold xp_traders. cbn [map].
  repeat (constructor; [eexists; split; [cbn; repeat (eexists; split; [reflexivity|]); reflexivity|]; split; [reflexivity|]; split; [reflexivity|]; split; [discriminate|];
    intros x H; cbn in H; repeat (destruct H as [<-|H]; [reflexivity|]); destruct H|]). constructor.
Qed.
Lemma xp_prices : forall p, In p (xd_pairs xd_price_of xp_traders) -> prices_readable xd_reader p.
Proof.
  intros p H. cbn [xd_pairs xp_traders flat_map map app xd_price_of xd_trader el_kids] in H.
  each_of; (split; [discriminate|]); (split; [is_readable|]); cbn; discriminate.
Qed.

Example C53_gaps_hyps :
  trader_list xp_root xp_traders /\ with_trades price_trades xp_traders (xd_pairs xd_price_of xp_traders)
  /\ (forall p, In p (xd_pairs xd_price_of xp_traders) -> prices_readable xd_reader p)
  /\ exists rows, price_bids xd_reader (document xp_root) = Got rows.
Proof.
  split; [exact xp_trader_list|]. split; [exact xp_price_trades|]. split; [exact xp_prices|].
  eexists. vm_compute. reflexivity.
Qed.

(** The second price of A is the word GEN. *)
Theorem C53_refuted : exists rd root ts ps rows,
  trader_list root ts /\ with_trades price_trades ts ps /\ (forall p, In p ps -> prices_readable rd p)
  /\ price_bids rd (document root) = Got rows /\ ~ Forall2 (nothing_added price_columns) ps rows.
Proof.
  exists xd_reader, xp_root, xp_traders, (xd_pairs xd_price_of xp_traders).
  eexists. split; [exact xp_trader_list|]. split; [exact xp_price_trades|]. split; [exact xp_prices|].
  split; [vm_compute; reflexivity|]. intros H. inversion H as [|p r ps' rows' N _]; subst.
  specialize (N "PRICEBAND2" "PriceBand2" ltac:(cbn; tauto) eq_refl). vm_compute in N. discriminate.
Qed.
Print Assumptions C53_refuted.
