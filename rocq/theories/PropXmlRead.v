(** The state of the units, the constraints, the violations and the prices in a case
    file. *)

From Coq Require Import QArith String Ascii List Bool ZArith Lia.
Import ListNotations.
From Verif Require Import PandasModel TablesModel MarketModel OffersModel ModesModel LossModel ConstraintsModel XmlModel.
From Verif Require Import SpecXml XmlFacts XmlReadFacts PropXml.
Open Scope string_scope.
Open Scope list_scope.

(** ** C54 *)

(** Without an intervention each trader has one row, with its measured output and
    telemetered rates. *)
Theorem C54_initial : forall rd root ts,
  trader_list root ts -> plain_period root -> (forall t, In t ts -> measured rd t) ->
  exists rows, initial_conditions rd (document root) = Got rows /\ Forall2 (initial_of rd "InitialMW") ts rows.
Proof. intros rd root ts L P. exact (initial_read rd root ts false "InitialMW" L (plain_read root P) eq_refl). Qed.
Print Assumptions C54_initial.

Ltac conditions_met := split; [discriminate|]; split; [discriminate|]; eexists; split;
  [eexists; split; [cbn; eexists; split; reflexivity|]; split; [reflexivity|]; split; [cbn; lia|];
   intros x H; cbn in H; repeat (destruct H as [<-|H]; [discriminate|]); destruct H
  |intros x H; cbn in H; repeat (destruct H as [<-|H]; [eexists; eexists; split; reflexivity|]); destruct H].

Lemma xd_measured : forall t, In t xd_traders -> measured xd_reader t.
Proof. intros t H. unfold xd_traders in H. each_of; conditions_met. Qed.
Lemma xd_plain : plain_period xd_root.
Proof. eexists. split; [reflexivity|]. eexists. split; [cbn; eexists; split; reflexivity|reflexivity]. Qed.

Example C54_initial_hyps :
  trader_list xd_root xd_traders /\ plain_period xd_root /\ (forall t, In t xd_traders -> measured xd_reader t)
  /\ length xd_traders = 3%nat.
Proof. split; [exact xd_trader_list|]. split; [exact xd_plain|]. split; [exact xd_measured|reflexivity]. Qed.

(** With one its output is the one that it would have without the intervention. *)
Theorem C54_intervention : forall rd root ts,
  trader_list root ts -> intervention_period root -> (forall t, In t ts -> measured rd t) ->
  exists rows, initial_conditions rd (document root) = Got rows /\ Forall2 (initial_of rd "WhatIfInitialMW") ts rows.
Proof. intros rd root ts L P. exact (initial_read rd root ts true "WhatIfInitialMW" L (intervention_read root P) eq_refl). Qed.
Print Assumptions C54_intervention.

Lemma xi_trader_list : trader_list xi_root xd_traders.
Proof.
  split; [reflexivity|]. eexists. split; [cbn; repeat (eexists; split; [reflexivity|]); reflexivity|].
  split; [reflexivity|cbn; lia].
Qed.
Lemma xi_intervention : intervention_period xi_root.
Proof.
  eexists. split; [split; [reflexivity|]; eexists; split; [cbn; eexists; split; reflexivity|reflexivity]|cbn; lia].
Qed.

Example C54_intervention_hyps :
  trader_list xi_root xd_traders /\ intervention_period xi_root /\ (forall t, In t xd_traders -> measured xd_reader t).
Proof. split; [exact xi_trader_list|]. split; [exact xi_intervention|exact xd_measured]. Qed.

(** The fast start parameters are those of the units with a mode. *)
Theorem C54_fast_start : forall rd root ts,
  trader_list root ts -> (forall t, In t ts -> profile_readable rd t) ->
  exists rows, fast_start_parameters rd (document root) = Got rows /\ picks fast (profile_of rd) ts rows.
Proof. exact fast_start_read. Qed.
Print Assumptions C54_fast_start.

Lemma xd_profiles : forall t, In t xd_traders -> profile_readable xd_reader t.
Proof.
  intros t H. unfold xd_traders in H. each_of; (split; [discriminate|]).
  all: split; [intros F; first [exfalso; apply F; reflexivity
    |split; [discriminate|]; intros n I; cbn in I; repeat (destruct I as [<-|I]; [eexists; eexists; split; reflexivity|]); destruct I]|].
  all: intros n s I A; cbn in I; repeat (destruct I as [<-|I]; [vm_compute in A; first [discriminate A|eexists; eexists; split; reflexivity]|]); destruct I.
Qed.

Example C54_fast_start_hyps :
  trader_list xd_root xd_traders /\ (forall t, In t xd_traders -> profile_readable xd_reader t) /\ Exists fast xd_traders.
Proof.
  split; [exact xd_trader_list|]. split; [exact xd_profiles|]. apply Exists_cons_tl, Exists_cons_hd. discriminate.
Qed.

(** The what-if mode is used whenever there is one, so that without an intervention the
    output of a unit can be its measured one and its mode the what-if one. *)
Theorem C54_mixed : exists rd root ts rows profiles p,
  trader_list root ts /\ plain_period root
  /\ initial_conditions rd (document root) = Got rows /\ Forall2 (initial_of rd "InitialMW") ts rows
  /\ fast_start_parameters rd (document root) = Got profiles /\ In p profiles
  /\ exists t z, In t ts /\ named "TraderID" (pf_unit p) t /\ whole rd "CurrentMode" t z /\ pf_mode p <> z.
Proof.
  destruct (C54_initial xd_reader xd_root xd_traders xd_trader_list xd_plain xd_measured) as (rows & E & F).
  exists xd_reader, xd_root, xd_traders, rows. do 2 eexists.
  split; [exact xd_trader_list|]. split; [exact xd_plain|]. split; [exact E|]. split; [exact F|].
  split; [vm_compute; reflexivity|]. split; [left; reflexivity|].
  eexists; exists 2%Z. split; [right; left; reflexivity|]. split; [reflexivity|].
  split; [eexists; split; reflexivity|]. cbn. discriminate.
Qed.
Print Assumptions C54_mixed.

(** The forecasts are those of the units with one. *)
Theorem C54_forecasts : forall rd root ts,
  period_list root ts -> (forall t, In t ts -> forecast_readable rd t) ->
  exists rows, uigf_values rd (document root) = Got rows /\ picks forecast (forecast_of rd) ts rows.
Proof. exact uigf_read. Qed.
Print Assumptions C54_forecasts.

Lemma xd_forecasts : forall t, In t xd_periods -> forecast_readable xd_reader t.
Proof.
  intros t H. unfold xd_periods in H. each_of; (split; [discriminate|]); intros F.
  all: first [exfalso; apply F; reflexivity|split; [discriminate|eexists; eexists; split; reflexivity]].
Qed.

Example C54_forecasts_hyps :
  period_list xd_root xd_periods /\ (forall t, In t xd_periods -> forecast_readable xd_reader t) /\ Exists forecast xd_periods.
Proof.
  split; [exact xd_period_list|]. split; [exact xd_forecasts|]. apply Exists_cons_tl, Exists_cons_tl, Exists_cons_hd. discriminate.
Qed.

(** ** C55 *)

Definition xd_file (sols : list case_solution) : case_file :=
  CaseFile sols
    [CaseConstraint "F1" "GE" 15000 (Some (LhsFactors [Factor "NSW1" "R5RE" 1; Factor "VIC1" "R5RE" 1] [] []));
     CaseConstraint "G1" "LE" 15000 (Some (LhsFactors [] [Factor "A" "ENOF" 1] [InterFactor "V-N" (- (30))]));
     CaseConstraint "N1" "EQ" 15000 None].

(** The tables of constraints hold what the document states, however many terms the
    constraints have, and of the right-hand sides those of the pricing run. *)
Theorem C55_constraints : forall rd root x, states rd root x ->
  read_rhs rd (document root) = Got (constraint_rhs x)
  /\ read_types rd (document root) = Got (constraint_type x)
  /\ read_region_lhs rd (document root) = Got (constraint_region_lhs x)
  /\ read_unit_lhs rd (document root) = Got (constraint_unit_lhs x)
  /\ read_inter_lhs rd (document root) = Got (constraint_inter_lhs x).
Proof.
  intros rd root x H.
  exact (conj (rhs_read rd root x H) (conj (types_read rd root x H) (conj (region_lhs_read rd root x H)
          (conj (unit_lhs_read rd root x H) (inter_lhs_read rd root x H))))).
Qed.
Print Assumptions C55_constraints.

Ltac num := eexists; split; reflexivity.
Lemma xd_states_constraints root : root = xd_root \/ root = xi_root ->
  exists cs, collection ["NemSpdInputs"; "GenericConstraintCollection"] "GenericConstraint" root cs
             /\ Forall2 (constraint_of xd_reader) cs (cf_constraints (xd_file [])).
Proof.
  intros R. exists xd_constraints. split.
  - destruct R as [->| ->]; (split; [reflexivity|]; eexists; split; [cbn; repeat (eexists; split; [reflexivity|]); reflexivity|];
      split; [reflexivity|cbn; lia]).
  - unfold xd_constraints. cbn [cf_constraints xd_file].
    repeat (apply Forall2_cons; [split; [reflexivity|]; split; [reflexivity|]; split; [num|]; eexists; split; [reflexivity|]; cbn|]);
      [| | |apply Forall2_nil].
    + split; [|split; [constructor|split; [constructor|discriminate]]].
      repeat (constructor; [split; [reflexivity|]; split; [reflexivity|num]|]). constructor.
    + split; [constructor|]. split; [repeat (constructor; [split; [reflexivity|]; split; [reflexivity|num]|]); constructor|].
      split; [repeat (constructor; [split; [reflexivity|]; num|]); constructor|discriminate].
    + split; reflexivity.
Qed.
Example C55_constraints_hyps :
  states xd_reader xd_root (xd_file [CaseSolution "F1" "0" (101 # 2); CaseSolution "G1" "0" 100; CaseSolution "N1" "0" 0])
  /\ states xd_reader xi_root (xd_file [CaseSolution "F1" "1" 20; CaseSolution "F1" "0" (101 # 2); CaseSolution "G1" "1" 100]).
Proof.
  split; (split; [|apply xd_states_constraints; auto]);
    (eexists; split;
     [split; [reflexivity|]; eexists; split; [cbn; repeat (eexists; split; [reflexivity|]); reflexivity|]; split; [reflexivity|cbn; lia]
     |cbn [cf_solutions xd_file];
      repeat (apply Forall2_cons; [split; [reflexivity|]; split; [reflexivity|num]|]); apply Forall2_nil]).
Qed.

(** The offers of the market interconnectors are those of the interconnectors that are
    ones. *)
Theorem C55_links : forall rd root is,
  link_list root is -> (forall i, In i is -> link_readable rd i) ->
  exists parts, read_link_bids rd (document root) = Got (concat parts) /\ picks market_link (offer_rows rd) is parts.
Proof. exact link_bids_read. Qed.
Print Assumptions C55_links.

Example C55_links_hyps :
  link_list xd_root xd_links /\ (forall i, In i xd_links -> link_readable xd_reader i) /\ Exists market_link xd_links.
Proof.
  split.
  { split; [reflexivity|]. eexists. split; [cbn; repeat (eexists; split; [reflexivity|]); reflexivity|].
    split; [reflexivity|cbn; lia]. }
  split; [|apply Exists_cons_tl, Exists_cons_hd; reflexivity].
  intros i H. unfold xd_links in H. each_of; (split; [discriminate|]); intros M; try discriminate M.
  split; [discriminate|]. eexists. split.
  - eexists. split; [cbn; eexists; split; reflexivity|]. split; [reflexivity|cbn; lia].
  - intros o H. cbn in H. repeat (destruct H as [<-|H]; [split; [discriminate|eexists; num]|]). destruct H.
Qed.

(** ** C56 *)

(** The violations are those of the pricing run: of its period solution where that has
    them and of its case solution otherwise. *)
Theorem C56_violations : forall rd root p c vs, pricing_run root p c ->
  Forall2 (fun n v => fst v = fst n /\ stated rd (snd n) p c (snd v)) violation_columns vs ->
  violations rd (document root) = Got vs.
Proof. exact violations_read. Qed.
Print Assumptions C56_violations.

Definition xd_violations : dict Q := map (fun p : string * string => (fst p, if String.eqb (fst p) "ramp_rate" then 2 else 5)) violation_columns.
Definition xd_period_solution : elem := Elem "PeriodSolution" [("Intervention", "0"); ("TotalRampRateViolation", "2")] [].
Definition xd_case_solution : elem := Elem "CaseSolution" (xd_totals "0" "5") [].

Example C56_violations_hyps :
  pricing_run xd_root xd_period_solution xd_case_solution /\ pricing_run xi_root xd_period_solution xd_case_solution
  /\ Forall2 (fun n v => fst v = fst n /\ stated xd_reader (snd n) xd_period_solution xd_case_solution (snd v)) violation_columns xd_violations.
Proof.
  split; [|split].
  - exists [xd_period_solution], [xd_case_solution].
    split; [split; [reflexivity|]; eexists; split; [cbn; eexists; split; reflexivity|reflexivity]|].
    split; [split; [reflexivity|]; eexists; split; [cbn; eexists; split; reflexivity|reflexivity]|].
    split; [left; reflexivity|]. split; [left; reflexivity|]. split; [discriminate|tauto].
  - do 2 eexists.
    split; [split; [reflexivity|]; eexists; split; [cbn; eexists; split; reflexivity|reflexivity]|].
    split; [split; [reflexivity|]; eexists; split; [cbn; eexists; split; reflexivity|reflexivity]|].
    split; [right; split; [cbn; lia|]; split; [|reflexivity]; intros x H; cbn in H; repeat (destruct H as [<-|H]; [discriminate|]); destruct H|].
    split; [right; split; [cbn; lia|]; split; [|reflexivity]; intros x H; cbn in H; repeat (destruct H as [<-|H]; [discriminate|]); destruct H|].
    split; [discriminate|]. cbn. split; discriminate.
  - unfold xd_violations, violation_columns. cbn [map fst].
    repeat (constructor; [split; [reflexivity|num]|]). constructor.
Qed.

(** The prices of violations are those of the case. *)
Theorem C56_prices : forall rd root vs, case_prices rd root vs -> violation_prices rd (document root) = Got vs.
Proof. exact violation_prices_read. Qed.
Print Assumptions C56_prices.

Example C56_prices_hyps : case_prices xd_reader xd_root (map (fun p : string * string => (fst p, 100)) violation_price_columns).
Proof.
  split; [reflexivity|]. eexists. split; [cbn; repeat (eexists; split; [reflexivity|]); reflexivity|].
  unfold violation_price_columns. cbn [map fst].
  repeat (constructor; [split; [reflexivity|num]|]). constructor.
Qed.

(** ** C57 *)

(** The price of every market that the solution of a region has a price for is one row,
    for the names of attributes that are looked for.  What is missing from C57: one of
    the names is not that of an attribute, and all solutions of a region are read. *)
Theorem C57_rows_partial : forall root gs,
  region_solutions root gs -> (forall g, In g gs -> attr "RegionID" g <> None) ->
  exists parts, service_prices (document root) = Got (concat parts) /\ Forall2 (region_prices read_columns) gs parts.
Proof. exact service_prices_read. Qed.
Print Assumptions C57_rows_partial.

Definition xd_regions (root : elem) : list elem :=
  match el_kids root with [_; o] => kids "RegionSolution" o | _ => [] end.
Lemma xd_region_solutions root : root = xd_root \/ root = xi_root ->
  region_solutions root (xd_regions root) /\ (forall g, In g (xd_regions root) -> attr "RegionID" g <> None).
Proof.
  intros [->| ->]; (split; [split; [reflexivity|]; eexists; split; [cbn; eexists; split; reflexivity|]; split; [reflexivity|cbn; lia]|]);
    intros g H; cbn in H; repeat (destruct H as [<-|H]; [discriminate|]); destruct H.
Qed.
Example C57_rows_partial_hyps :
  region_solutions xd_root (xd_regions xd_root) /\ (forall g, In g (xd_regions xd_root) -> attr "RegionID" g <> None)
  /\ service_prices (document xd_root) = Got [("NSW1", "ENERGY", "50.5"); ("NSW1", "RAISE6SEC", "1"); ("VIC1", "ENERGY", "20")].
Proof. destruct (xd_region_solutions xd_root (or_introl eq_refl)) as (A & B). split; [exact A|]. split; [exact B|]. vm_compute. reflexivity. Qed.

(** A price for the five minute lower service is not read: its attribute would be
    L5Price, as the one of the raise service is R5Price, and another name is looked
    for. *)
Theorem C57_refuted_name : exists root gs parts,
  region_solutions root gs /\ (forall g, In g gs -> attr "RegionID" g <> None)
  /\ service_prices (document root) = Got (concat parts)
  /\ (exists g, In g gs /\ named "L5Price" "2" g)
  /\ forall r, In r (concat parts) -> snd (fst r) <> "LOWER5MIN".
Proof.
  destruct (xd_region_solutions xd_root (or_introl eq_refl)) as (A & B).
  exists xd_root, (xd_regions xd_root), [[("NSW1", "ENERGY", "50.5"); ("NSW1", "RAISE6SEC", "1"); ("VIC1", "ENERGY", "20")]].
  split; [exact A|]. split; [exact B|]. split; [vm_compute; reflexivity|].
  split; [eexists; split; [left; reflexivity|reflexivity]|].
  intros r H. cbn in H. repeat (destruct H as [<-|H]; [discriminate|]). destruct H.
Qed.
Print Assumptions C57_refuted_name.

(** With an intervention a region has two prices. *)
Theorem C57_refuted_twice : exists root gs rows,
  region_solutions root gs /\ (forall g, In g gs -> attr "RegionID" g <> None)
  /\ intervention_period root /\ service_prices (document root) = Got rows
  /\ In ("NSW1", "ENERGY", "50.5") rows /\ In ("NSW1", "ENERGY", "20") rows.
Proof.
  destruct (xd_region_solutions xi_root (or_intror eq_refl)) as (A & B).
  exists xi_root, (xd_regions xi_root). eexists. split; [exact A|]. split; [exact B|].
  split; [exact xi_intervention|]. split; [vm_compute; reflexivity|]. split; [left|right; left]; reflexivity.
Qed.
Print Assumptions C57_refuted_twice.
