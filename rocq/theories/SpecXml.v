(** Specification of the tables read from a case file, in terms of the elements and
    attributes of the document. *)

From Coq Require Import QArith String List Bool ZArith.
Import ListNotations.
From Verif Require Import PandasModel TablesModel MarketModel OffersModel ModesModel LossModel ConstraintsModel XmlModel.
Open Scope string_scope.
Open Scope list_scope.

(** The children with a tag, and an attribute. *)
Definition kids (tag : string) (e : elem) : list elem := filter (fun c => String.eqb (el_tag c) tag) (el_kids e).
Definition attr (n : string) (e : elem) : option string := dget n (el_attrs e).

(** The one element that a path leads to. *)
Fixpoint only (path : list string) (e c : elem) : Prop :=
  match path with
  | [] => c = e
  | t :: r => exists d, kids t e = [d] /\ only r d c
  end.

(** The root of a case file, and the elements of a collection in it, of which there are
    at least two. *)
Definition case_root (root : elem) : Prop := el_tag root = "NEMSPDCaseFile".
Definition collection (path : list string) (tag : string) (root : elem) (l : list elem) : Prop :=
  case_root root /\ exists c, only path root c /\ kids tag c = l /\ (2 <= length l)%nat.
Definition trader_list : elem -> list elem -> Prop := collection ["NemSpdInputs"; "TraderCollection"] "Trader".
Definition period_list : elem -> list elem -> Prop :=
  collection ["NemSpdInputs"; "PeriodCollection"; "Period"; "TraderPeriodCollection"] "TraderPeriod".

(** The number an attribute stands for. *)
Definition number (rd : reader) (n : string) (e : elem) (q : Q) : Prop :=
  exists s, attr n e = Some s /\ rd_float rd s = Some q.
Definition whole (rd : reader) (n : string) (e : elem) (z : Z) : Prop :=
  exists s, attr n e = Some s /\ rd_int rd s = Some z.
Definition named (n s : string) (e : elem) : Prop := attr n e = Some s.

(** ** Bids *)

(** The trades of an element: all children of the element that the path leads to. *)
Definition trades (path : list string) (tag : string) (t : elem) (l : list elem) : Prop :=
  exists c, only path t c /\ el_attrs c = [] /\ el_kids c = l /\ l <> [] /\ forall x, In x l -> el_tag x = tag.
Definition volume_trades : elem -> list elem -> Prop := trades ["TradeCollection"] "Trade".
Definition price_trades : elem -> list elem -> Prop :=
  trades ["TradePriceStructureCollection"; "TradePriceStructure"; "TradeTypePriceStructureCollection"] "TradeTypePriceStructure".

(** The names of the markets, and of the directions. *)
Definition market_of (s : string) : option string :=
  match s with
  | "ENOF" | "LDOF" | "DROF" | "BDOF" => Some "ENERGY"
  | "R5RE" => Some "RAISEREG" | "L5RE" => Some "LOWERREG"
  | "R1SE" => Some "RAISE1SEC" | "L1SE" => Some "LOWER1SEC"
  | "R6SE" => Some "RAISE6SEC" | "L6SE" => Some "LOWER6SEC"
  | "R60S" => Some "RAISE60SEC" | "L60S" => Some "LOWER60SEC"
  | "R5MI" => Some "RAISE5MIN" | "L5MI" => Some "LOWER5MIN"
  | _ => None
  end.
Definition direction_of (s : string) : option string :=
  match s with "GEN" => Some "GENERATOR" | "LOAD" => Some "LOAD" | _ => None end.

(** The columns of numbers and the attributes they are for, in the order of the
    columns. *)
Definition volume_columns : list (string * string) :=
  [("MAXAVAIL", "MaxAvail"); ("ENABLEMENTMIN", "EnablementMin"); ("ENABLEMENTMAX", "EnablementMax");
   ("LOWBREAKPOINT", "LowBreakpoint"); ("HIGHBREAKPOINT", "HighBreakpoint");
   ("BANDAVAIL1", "BandAvail1"); ("BANDAVAIL2", "BandAvail2"); ("BANDAVAIL3", "BandAvail3"); ("BANDAVAIL4", "BandAvail4");
   ("BANDAVAIL5", "BandAvail5"); ("BANDAVAIL6", "BandAvail6"); ("BANDAVAIL7", "BandAvail7"); ("BANDAVAIL8", "BandAvail8");
   ("BANDAVAIL9", "BandAvail9"); ("BANDAVAIL10", "BandAvail10"); ("RAMPDOWNRATE", "RampDnRate"); ("RAMPUPRATE", "RampUpRate")].
Definition price_columns : list (string * string) :=
  [("PRICEBAND1", "PriceBand1"); ("PRICEBAND2", "PriceBand2"); ("PRICEBAND3", "PriceBand3"); ("PRICEBAND4", "PriceBand4");
   ("PRICEBAND5", "PriceBand5"); ("PRICEBAND6", "PriceBand6"); ("PRICEBAND7", "PriceBand7"); ("PRICEBAND8", "PriceBand8");
   ("PRICEBAND9", "PriceBand9"); ("PRICEBAND10", "PriceBand10")].

(** A trade that can be read: it names its market, its direction if it has one is one of
    the two, and its numbers are numbers. *)
Definition readable (rd : reader) (columns : list (string * string)) (tr : elem) : Prop :=
  (exists s, attr "TradeType" tr = Some s /\ market_of s <> None)
  /\ (forall s, attr "Direction" tr = Some s -> direction_of s <> None)
  /\ forall c a s, In (c, a) columns -> attr a tr = Some s -> exists q, rd_float rd s = Some q.

(** The traders of a document with their trades. *)
Definition with_trades (of : elem -> list elem -> Prop) (ts : list elem) (ps : list (elem * elem)) : Prop :=
  exists ls, Forall2 of ts ls /\ ps = flat_map (fun p => map (pair (fst p)) (snd p)) (combine ts ls).

(** What a row says about a trade of a trader; [dir] is the direction if the trade has
    none. *)
Definition row_of (rd : reader) (columns : list (string * string)) (dir : elem -> option string) (p : elem * elem) (r : bid_row) : Prop :=
  attr "TraderID" (fst p) = Some (bi_duid r)
  /\ (exists s, attr "TradeType" (snd p) = Some s /\ market_of s = Some (bi_type r))
  /\ match attr "Direction" (snd p) with
     | Some s => direction_of s = bi_dir r
     | None => bi_dir r = dir (fst p)
     end
  /\ map fst (bi_cells r) = map fst columns
  /\ forall c a q, In (c, a) columns -> number rd a (snd p) q -> dget c (bi_cells r) = Some (VNum q).

(** The attributes that are not there are missing in the row. *)
Definition nothing_added (columns : list (string * string)) (p : elem * elem) (r : bid_row) : Prop :=
  forall c a, In (c, a) columns -> attr a (snd p) = None -> dget c (bi_cells r) = Some VNone.

(** The direction that the bids of a trader of each type are in. *)
Definition direction_of_type (t : elem) : option string :=
  match attr "TraderType" t with
  | Some "GENERATOR" | Some "NORMALLY_ON_LOAD" | Some "WDR" | Some "BIDIRECTIONAL" => Some "GENERATOR"
  | Some "LOAD" => Some "LOAD"
  | _ => None
  end.

(** What is in the row of a trade for the attributes it does not have. *)
Definition carried_over (p : elem * elem) (r : bid_row) : Prop :=
  (forall pre b e c a post, volume_columns = pre ++ (b, e) :: (c, a) :: post -> attr a (snd p) = None ->
     dget c (bi_cells r) = dget b (bi_cells r))
  /\ (attr "MaxAvail" (snd p) = None ->
      dget "MAXAVAIL" (bi_cells r) = Some (VStr (match attr "Direction" (snd p) with Some s => s | None => "missing" end))).
Definition direction_in_gaps (p : elem * elem) (r : bid_row) : Prop :=
  forall c a, In (c, a) price_columns -> attr a (snd p) = None ->
  dget c (bi_cells r) =
  Some (match attr "Direction" (snd p), direction_of_type (fst p) with
        | Some _, _ => VNone
        | None, Some "LOAD" => VStr "LOAD"
        | None, _ => VStr "GEN"
        end).

(** Every trade can be read. *)
Definition volumes_readable (rd : reader) (p : elem * elem) : Prop :=
  attr "TraderID" (fst p) <> None /\ readable rd volume_columns (snd p).
Definition prices_readable (rd : reader) (p : elem * elem) : Prop :=
  attr "TraderID" (fst p) <> None /\ readable rd price_columns (snd p)
  /\ (attr "Direction" (snd p) = None -> direction_of_type (fst p) <> None).

(** ** The units at the start of the interval *)

(** The conditions of a trader, and the value of one of them. *)
Definition conditions (t : elem) (l : list elem) : Prop :=
  exists c, only ["TraderInitialConditionCollection"] t c /\ kids "TraderInitialCondition" c = l /\ (2 <= length l)%nat
            /\ forall x, In x l -> attr "InitialConditionID" x <> None.
Definition initially (rd : reader) (n : string) (l : list elem) (v : option Q) : Prop :=
  (v = None /\ forall c, In c l -> ~ named "InitialConditionID" n c)
  \/ exists before c after q, l = before ++ c :: after /\ named "InitialConditionID" n c /\ number rd "Value" c q /\ v = Some q
       /\ forall d, In d before -> ~ named "InitialConditionID" n d.

(** Whether a document is for a period with an intervention: it has two solutions. *)
Definition solutions (root : elem) (tag : string) (l : list elem) : Prop :=
  case_root root /\ exists o, only ["NemSpdOutputs"] root o /\ kids tag o = l.
Definition plain_period (root : elem) : Prop := exists s, solutions root "PeriodSolution" [s].
Definition intervention_period (root : elem) : Prop := exists l, solutions root "PeriodSolution" l /\ (2 <= length l)%nat.

(** What a row says about a trader; [mw] is the name of the measurement of its output. *)
Definition initial_of (rd : reader) (mw : string) (t : elem) (r : initial) : Prop :=
  named "TraderID" (ic_duid r) t /\ named "TraderType" (OffersModel.ic_type r) t
  /\ exists l, conditions t l
      /\ initially rd mw l (ic_mw r) /\ initially rd "SCADARampUpRate" l (ic_up r)
      /\ initially rd "SCADARampDnRate" l (ic_down r) /\ initially rd "AGCStatus" l (ic_agc r).
(** A trader whose conditions are numbers. *)
Definition measured (rd : reader) (t : elem) : Prop :=
  attr "TraderID" t <> None /\ attr "TraderType" t <> None
  /\ exists l, conditions t l /\ forall c, In c l -> exists q, number rd "Value" c q.

(** A fast start unit is one with a mode; the mode is the what-if mode where there is
    one. *)
Definition fast (t : elem) : Prop := attr "CurrentMode" t <> None.
Definition what_if (rd : reader) (n alt : string) (t : elem) (z : Z) : Prop :=
  match attr alt t with Some _ => whole rd alt t z | None => whole rd n t z end.
Definition profile_of (rd : reader) (t : elem) (r : profile) : Prop :=
  named "TraderID" (pf_unit r) t /\ what_if rd "CurrentMode" "WhatIfCurrentMode" t (pf_mode r)
  /\ exists load time t1 t2 t3 t4,
       whole rd "MinLoadingMW" t load /\ what_if rd "CurrentModeTime" "WhatIfCurrentModeTime" t time
       /\ whole rd "T1" t t1 /\ whole rd "T2" t t2 /\ whole rd "T3" t t3 /\ whole rd "T4" t t4
       /\ pf_min_loading r = inject_Z load /\ pf_time r = inject_Z time
       /\ pf_len1 r = inject_Z t1 /\ pf_len2 r = inject_Z t2 /\ pf_len3 r = inject_Z t3 /\ pf_len4 r = inject_Z t4.
Definition profile_readable (rd : reader) (t : elem) : Prop :=
  el_attrs t <> [] /\
  (fast t -> attr "TraderID" t <> None
    /\ forall n, In n ["MinLoadingMW"; "CurrentMode"; "CurrentModeTime"; "T1"; "T2"; "T3"; "T4"] -> exists z, whole rd n t z)
  /\ forall n s, In n ["WhatIfCurrentMode"; "WhatIfCurrentModeTime"] -> attr n t = Some s -> exists z, whole rd n t z.

(** The semi-scheduled units are those with a forecast. *)
Definition forecast (t : elem) : Prop := attr "UIGF" t <> None.
Definition forecast_of (rd : reader) (t : elem) (r : uigf_row) : Prop :=
  named "TraderID" (ug_unit r) t /\ number rd "UIGF" t (ug_cap r).
Definition forecast_readable (rd : reader) (t : elem) : Prop :=
  el_attrs t <> [] /\ (forecast t -> attr "TraderID" t <> None /\ exists q, number rd "UIGF" t q).

(** The rows are for exactly the elements with a property, in order. *)
Inductive picks {A B : Type} (P : A -> Prop) (R : A -> B -> Prop) : list A -> list B -> Prop :=
  | picks_nil : picks P R [] []
  | picks_some : forall a b l m, P a -> R a b -> picks P R l m -> picks P R (a :: l) (b :: m)
  | picks_skip : forall a l m, ~ P a -> picks P R l m -> picks P R (a :: l) m.

(** ** The constraints of a document *)

Definition solution_of (rd : reader) (e : elem) (s : case_solution) : Prop :=
  named "ConstraintID" (cs_id s) e /\ named "Intervention" (cs_intervention s) e /\ number rd "RHS" e (cs_rhs s).
Definition factor_of (rd : reader) (id : string) (e : elem) (f : factor_row) : Prop :=
  named id (fa_of f) e /\ named "TradeType" (fa_trade f) e /\ number rd "Factor" e (fa_coef f).
Definition inter_factor_of (rd : reader) (e : elem) (f : inter_factor) : Prop :=
  named "InterconnectorID" (if_inter f) e /\ number rd "Factor" e (if_coef f).
(** The left-hand side is a possibly empty collection of terms. *)
Definition terms (rd : reader) (e : elem) (o : option lhs_factors) : Prop :=
  exists c, kids "LHSFactorCollection" e = [c]
    /\ match o with
       | None => el_attrs c = [] /\ el_kids c = []
       | Some l => Forall2 (factor_of rd "RegionID") (kids "RegionFactor" c) (lf_regions l)
                   /\ Forall2 (factor_of rd "TraderID") (kids "TraderFactor" c) (lf_traders l)
                   /\ Forall2 (inter_factor_of rd) (kids "InterconnectorFactor" c) (lf_inters l)
                   /\ el_kids c <> []
       end.
Definition constraint_of (rd : reader) (e : elem) (c : case_constraint) : Prop :=
  named "ConstraintID" (cc_id c) e /\ named "Type" (cc_type c) e /\ number rd "ViolationPrice" e (cc_price c)
  /\ terms rd e (cc_lhs c).
(** The constraints and their solutions that a document states. *)
Definition states (rd : reader) (root : elem) (x : case_file) : Prop :=
  (exists ss, collection ["NemSpdOutputs"] "ConstraintSolution" root ss /\ Forall2 (solution_of rd) ss (cf_solutions x))
  /\ exists cs, collection ["NemSpdInputs"; "GenericConstraintCollection"] "GenericConstraint" root cs
                /\ Forall2 (constraint_of rd) cs (cf_constraints x).

(** ** Violations and prices *)

(** The number with a name in the period solution of the pricing run, or else in its
    case solution. *)
Definition stated (rd : reader) (n : string) (period case : elem) (q : Q) : Prop :=
  match attr n period with Some _ => number rd n period q | None => number rd n case q end.
(** The solutions of the pricing run: the only ones, or those of the run without the
    intervention, in which intervention is 0. *)
Definition pricing (l : list elem) (e : elem) : Prop :=
  l = [e] \/ ((2 <= length l)%nat /\ (forall x, In x l -> attr "Intervention" x <> None)
              /\ filter (fun x => match attr "Intervention" x with Some s => String.eqb s "0" | None => false end) l = [e]).
Definition pricing_run (root period case : elem) : Prop :=
  exists ps cs, solutions root "PeriodSolution" ps /\ solutions root "CaseSolution" cs /\ pricing ps period /\ pricing cs case
    /\ el_attrs period <> [] /\ (length ps = 1%nat <-> length cs = 1%nat).
Definition violation_columns : list (string * string) :=
  [("regional_demand", "TotalAreaGenViolation"); ("interocnnector", "TotalInterconnectorViolation");
   ("generic_constraint", "TotalGenericViolation"); ("ramp_rate", "TotalRampRateViolation");
   ("unit_capacity", "TotalUnitMWCapacityViolation"); ("energy_constraint", "TotalEnergyConstrViolation");
   ("energy_offer", "TotalEnergyOfferViolation"); ("fcas_profile", "TotalASProfileViolation");
   ("fast_start", "TotalFastStartViolation"); ("mnsp_ramp_rate", "TotalMNSPRampRateViolation");
   ("msnp_offer", "TotalMNSPOfferViolation"); ("mnsp_capacity", "TotalMNSPCapacityViolation"); ("ugif", "TotalUIGFViolation")].

(** The one price of a violation of each kind. *)
Definition violation_price_columns : list (string * string) :=
  [("regional_demand", "EnergyDeficitPrice"); ("interocnnector", "InterconnectorPrice"); ("generic_constraint", "GenericConstraintPrice");
   ("ramp_rate", "RampRatePrice"); ("unit_capacity", "CapacityPrice"); ("energy_offer", "OfferPrice");
   ("fcas_profile", "ASProfilePrice"); ("fcas_max_avail", "ASMaxAvailPrice"); ("fcas_enablement_min", "ASEnablementMinPrice");
   ("fcas_enablement_max", "ASEnablementMaxPrice"); ("fast_start", "FastStartPrice"); ("mnsp_ramp_rate", "MNSPRampRatePrice");
   ("msnp_offer", "MNSPOfferPrice"); ("mnsp_capacity", "MNSPCapacityPrice"); ("uigf", "UIGFSurplusPrice"); ("voll", "VoLL");
   ("tiebreak", "TieBreakPrice")].
Definition case_prices (rd : reader) (root : elem) (vs : dict Q) : Prop :=
  case_root root /\ exists c, only ["NemSpdInputs"; "Case"] root c
    /\ Forall2 (fun n v => fst v = fst n /\ number rd (snd n) c (snd v)) violation_price_columns vs.

(** The attributes with the prices of a region, and the markets they are for; the names
    follow one pattern. *)
Definition service_columns : list (string * string) :=
  [("EnergyPrice", "ENERGY"); ("LRegPrice", "LOWERREG"); ("RRegPrice", "RAISEREG"); ("R5Price", "RAISE5MIN");
   ("L5Price", "LOWER5MIN"); ("R60Price", "RAISE60SEC"); ("L60Price", "LOWER60SEC"); ("R6Price", "RAISE6SEC");
   ("L6Price", "LOWER6SEC"); ("R1Price", "RAISE1SEC"); ("L1Price", "LOWER1SEC")].
(** The attributes that are looked for: those, but for the one of the five minute lower
    service. *)
Definition read_columns : list (string * string) :=
  map (fun p : string * string => if String.eqb (fst p) "L5Price" then ("RL5Price", snd p) else p) service_columns.
(** The prices in the solution of a region. *)
Definition region_prices (columns : list (string * string)) (g : elem) (rows : list (string * string * string)) : Prop :=
  picks (fun p => attr (fst p) g <> None)
        (fun p r => named "RegionID" (fst (fst r)) g /\ snd (fst r) = snd p /\ named (fst p) (snd r) g) columns rows.
Definition region_solutions : elem -> list elem -> Prop := collection ["NemSpdOutputs"] "RegionSolution".

(** The offers of the market interconnectors. *)
Definition link_list : elem -> list elem -> Prop :=
  collection ["NemSpdInputs"; "PeriodCollection"; "Period"; "InterconnectorPeriodCollection"] "InterconnectorPeriod".
Definition link_offers (i : elem) (l : list elem) : Prop :=
  exists c, only ["MNSPOfferCollection"] i c /\ kids "MNSPOffer" c = l /\ (2 <= length l)%nat.
Definition offer_rows (rd : reader) (i : elem) (rows : list link_bid) : Prop :=
  exists l, link_offers i l
    /\ Forall2 (fun o r => named "InterconnectorID" (lb_id r) i /\ named "RegionID" (lb_to r) o
                           /\ exists q, number rd "MaxAvail" o q /\ lb_avail r = Some q) l rows.
Definition market_link (i : elem) : Prop := named "MNSP" "1" i.
Definition link_readable (rd : reader) (i : elem) : Prop :=
  attr "MNSP" i <> None
  /\ (market_link i -> attr "InterconnectorID" i <> None
      /\ exists l, link_offers i l /\ forall o, In o l -> attr "RegionID" o <> None /\ exists q, number rd "MaxAvail" o q).
