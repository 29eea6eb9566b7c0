(** Model of nempy/historical_inputs/xml_cache.py: how the tables are read from a case
    file.  Definitions only. *)

From Coq Require Import QArith String Ascii List Bool ZArith.
Import ListNotations.
From Verif Require Import PandasModel TablesModel MarketModel ReportsModel CacheModel OffersModel ModesModel LossModel ConstraintsModel.
Open Scope string_scope.
Open Scope list_scope.

(** ** What [xmltodict.parse] returns *)

(** An element of a document: its tag, attributes and children.  Text between tags is
    not modelled, the case files have none.
    Read at /repo/src/nempy/historical_inputs/xml_cache.py:94-95. *)
Inductive elem := Elem (tag : string) (attrs : list (string * string)) (kids : list elem).
(** As above.  /repo/src/nempy/historical_inputs/xml_cache.py:94-95. *)
Definition el_tag (e : elem) : string := let 'Elem t _ _ := e in t.
(** As above.  /repo/src/nempy/historical_inputs/xml_cache.py:94-95. *)
Definition el_attrs (e : elem) : list (string * string) := let 'Elem _ a _ := e in a.
(** As above.  /repo/src/nempy/historical_inputs/xml_cache.py:94-95. *)
Definition el_kids (e : elem) : list elem := let 'Elem _ _ k := e in k.

(** The values of the library: a text (of an attribute), None (an empty element), a
    list (elements with the same tag), or a dict.  The keys of a dict are the names of
    the attributes with an [@] before them and then the tags; both parts are kept
    apart here.  /repo/src/nempy/historical_inputs/xml_cache.py:95. *)
Inductive xml :=
| XText (s : string)
| XNone
| XList (items : list xml)
| XNode (attrs : list (string * string)) (kids : list (string * xml)).

(** A child is stored under its tag; a second one makes a list of them.
    xmltodict, push_data, as called at /repo/src/nempy/historical_inputs/xml_cache.py:95. *)
Definition push (d : list (string * xml)) (p : string * xml) : list (string * xml) :=
  match dget (fst p) d with
  | None => d ++ [p]
  | Some (XList l) => dset (fst p) (XList (l ++ [snd p])) d
  | Some v => dset (fst p) (XList [v; snd p]) d
  end.
(** As above.  /repo/src/nempy/historical_inputs/xml_cache.py:95. *)
Fixpoint parse (e : elem) : xml :=
  let 'Elem _ attrs kids := e in
  match attrs, kids with
  | [], [] => XNone
  | _, _ => XNode attrs (fold_left push (map (fun c => (el_tag c, parse c)) kids) [])
  end.
(** The whole document: a dict with the root.
    /repo/src/nempy/historical_inputs/xml_cache.py:95. *)
Definition document (root : elem) : xml := XNode [] [(el_tag root, parse root)].

(** ** Python's operations on these values *)

(** KeyError, TypeError, ValueError, AttributeError and UnboundLocalError, which the
    accesses of /repo/src/nempy/historical_inputs/xml_cache.py:260-1174 can raise. *)
Inductive xerr := KeyE | TypeE | ValueE | AttributeE | UnboundE.
(** As above.  /repo/src/nempy/historical_inputs/xml_cache.py:260-1174. *)
Inductive xres (A : Type) := Got (a : A) | Raise (e : xerr).
Arguments Got {A} a.
Arguments Raise {A} e.
(** As above.  /repo/src/nempy/historical_inputs/xml_cache.py:260-1174. *)
Definition xbind {A B : Type} (r : xres A) (f : A -> xres B) : xres B :=
  match r with Got a => f a | Raise e => Raise e end.
Notation "'do' x <- r ; k" := (xbind r (fun x => k)) (at level 200, x name, right associativity).
(** A loop that appends one value per item.
    /repo/src/nempy/historical_inputs/xml_cache.py:268, 446-453, 646. *)
Fixpoint each {A B : Type} (f : A -> xres B) (l : list A) : xres (list B) :=
  match l with
  | [] => Got []
  | a :: r => do b <- f a; do t <- each f r; Got (b :: t)
  end.

(** The value of a key of a dict.
    /repo/src/nempy/historical_inputs/xml_cache.py:260-1174. *)
Definition look (k : string) (attrs : list (string * string)) (kids : list (string * xml)) : option xml :=
  match k with
  | String c n => if Ascii.eqb c "@" then option_map XText (dget n attrs) else dget k kids
  | EmptyString => dget k kids
  end.
(** [v[k]].  Used all over /repo/src/nempy/historical_inputs/xml_cache.py:260-1174. *)
Definition at_key (k : string) (v : xml) : xres xml :=
  match v with
  | XNode a d => match look k a d with Some x => Got x | None => Raise KeyE end
  | _ => Raise TypeE
  end.
(** As above.  /repo/src/nempy/historical_inputs/xml_cache.py:260-1174. *)
Fixpoint down (ks : list string) (v : xml) : xres xml :=
  match ks with [] => Got v | k :: r => do x <- at_key k v; down r x end.
(** [k in v].  /repo/src/nempy/historical_inputs/xml_cache.py:343, 436, 524, 605, 649,
    657, 867, 931, 989, 1170. *)
Definition has_key (k : string) (v : xml) : xres bool :=
  match v with
  | XNode a d => Got (match look k a d with Some _ => true | None => false end)
  | XList l => Got (existsb (fun x => match x with XText s => String.eqb s k | _ => false end) l)
  | XText s => Got (contains k s)
  | XNone => Raise TypeE
  end.
(** [for x in v]: the items of a list, the keys of a dict, the letters of a text.
    /repo/src/nempy/historical_inputs/xml_cache.py:268, 272, 341, 446, 537, 604, 764. *)
Fixpoint letters (s : string) : list xml :=
  match s with EmptyString => [] | String c r => XText (String c EmptyString) :: letters r end.
(** As above.  /repo/src/nempy/historical_inputs/xml_cache.py:268, 272, 341, 446, 537, 604, 764. *)
Definition iter (v : xml) : xres (list xml) :=
  match v with
  | XList l => Got l
  | XNode a d => Got (map (fun p : string * string => XText (String "@" (fst p))) a ++ map (fun p => XText (fst p)) d)
  | XText s => Got (letters s)
  | XNone => Raise TypeE
  end.
(** The values of [v.items()].  /repo/src/nempy/historical_inputs/xml_cache.py:449, 542. *)
Definition values_of (v : xml) : xres (list xml) :=
  match v with
  | XNode a d => Got (map (fun p => XText (snd p)) a ++ map snd d)
  | _ => Raise AttributeE
  end.
(** [type(v) == list].  /repo/src/nempy/historical_inputs/xml_cache.py:447, 538, 645, 722. *)
Definition is_list (v : xml) : bool := match v with XList _ => true | _ => false end.
(** [v == s].  /repo/src/nempy/historical_inputs/xml_cache.py:273, 648, 765, 1035. *)
Definition is_text (s : string) (v : xml) : bool := match v with XText t => String.eqb s t | _ => false end.

(** How texts are read as numbers; NaN and infinities are not modelled.
    [float] and [int] at /repo/src/nempy/historical_inputs/xml_cache.py:275, 346, 440. *)
Record reader := Reader { rd_float : string -> option Q; rd_int : string -> option Z }.
(** As above.  /repo/src/nempy/historical_inputs/xml_cache.py:275, 346, 440. *)
Definition to_float (rd : reader) (v : xml) : xres Q :=
  match v with
  | XText s => match rd_float rd s with Some q => Got q | None => Raise ValueE end
  | _ => Raise TypeE
  end.
(** As above.  /repo/src/nempy/historical_inputs/xml_cache.py:275, 346, 440. *)
Definition to_whole (rd : reader) (v : xml) : xres Z :=
  match v with
  | XText s => match rd_int rd s with Some z => Got z | None => Raise ValueE end
  | _ => Raise TypeE
  end.
(** A column of ids, or a text: the attributes are texts.  Other values, which no document has
    there, would be stored as they are.
    /repo/src/nempy/historical_inputs/xml_cache.py:269-270, 434, 521. *)
Definition to_text (v : xml) : xres string := match v with XText s => Got s | _ => Raise TypeE end.
(** As above.  /repo/src/nempy/historical_inputs/xml_cache.py:269-270, 434, 521. *)
Definition float_at (rd : reader) (k : string) (v : xml) : xres Q := do x <- at_key k v; to_float rd x.
(** As above.  /repo/src/nempy/historical_inputs/xml_cache.py:269-270, 434, 521. *)
Definition whole_at (rd : reader) (k : string) (v : xml) : xres Z := do x <- at_key k v; to_whole rd x.
(** As above.  /repo/src/nempy/historical_inputs/xml_cache.py:269-270, 434, 521. *)
Definition text_at (k : string) (v : xml) : xres string := do x <- at_key k v; to_text x.

(** ** Where the tables are *)

(** /repo/src/nempy/historical_inputs/xml_cache.py:260, 336, 511. *)
Definition traders (v : xml) : xres xml := down ["NEMSPDCaseFile"; "NemSpdInputs"; "TraderCollection"; "Trader"] v.
(** /repo/src/nempy/historical_inputs/xml_cache.py:419-420, 601-602. *)
Definition trader_periods (v : xml) : xres xml :=
  down ["NEMSPDCaseFile"; "NemSpdInputs"; "PeriodCollection"; "Period"; "TraderPeriodCollection"; "TraderPeriod"] v.
(** /repo/src/nempy/historical_inputs/xml_cache.py:630. *)
Definition outputs (v : xml) : xres xml := down ["NEMSPDCaseFile"; "NemSpdOutputs"] v.

(** [is_intervention_period].
    /repo/src/nempy/historical_inputs/xml_cache.py:722. *)
Definition is_intervention (v : xml) : xres bool :=
  do p <- down ["NEMSPDCaseFile"; "NemSpdOutputs"; "PeriodSolution"] v; Got (is_list p).

(** ** Initial conditions *)

(** The inner loop: the first condition with the name, NaN without one.  Without any
    condition the name [value] would be unbound or keep its last value; a parsed
    document has no such list.
    /repo/src/nempy/historical_inputs/xml_cache.py:272-279. *)
Fixpoint find_condition (rd : reader) (n : string) (l : list xml) : xres (option Q) :=
  match l with
  | [] => Got None
  | c :: r =>
      do i <- at_key "@InitialConditionID" c;
      if is_text n i then do q <- float_at rd "@Value" c; Got (Some q) else find_condition rd n r
  end.
(** As above.  /repo/src/nempy/historical_inputs/xml_cache.py:272-279. *)
Definition condition (rd : reader) (n : string) (cons : xml) : xres (option Q) :=
  do l <- iter cons;
  match l with [] => Raise UnboundE | _ => find_condition rd n l end.
(** [get_unit_initial_conditions].
    /repo/src/nempy/historical_inputs/xml_cache.py:260-281. *)
Definition initial_conditions (rd : reader) (v : xml) : xres (list initial) :=
  do ts <- traders v;
  do i <- is_intervention v;
  do l <- iter ts;
  each (fun t =>
    do duid <- text_at "@TraderID" t;
    do type <- text_at "@TraderType" t;
    do cons <- down ["TraderInitialConditionCollection"; "TraderInitialCondition"] t;
    do mw <- condition rd (if i then "WhatIfInitialMW" else "InitialMW") cons;
    do up <- condition rd "SCADARampUpRate" cons;
    do dn <- condition rd "SCADARampDnRate" cons;
    do agc <- condition rd "AGCStatus" cons;
    Got (Initial duid type mw up dn agc)) l.

(** ** Fast start parameters *)

(** A whole number, which a what-if number replaces where there is one.
    /repo/src/nempy/historical_inputs/xml_cache.py:346-350. *)
Definition whole_or (rd : reader) (k what_if : string) (t : xml) : xres Z :=
  do z <- whole_at rd k t;
  do b <- has_key what_if t;
  if b then whole_at rd what_if t else Got z.
(** [get_unit_fast_start_parameters].
    /repo/src/nempy/historical_inputs/xml_cache.py:336-356. *)
Fixpoint fast_start_rows (rd : reader) (l : list xml) : xres (list profile) :=
  match l with
  | [] => Got []
  | t :: r =>
      do b <- has_key "@CurrentMode" t;
      if b then
        do load <- whole_at rd "@MinLoadingMW" t;
        do mode <- whole_or rd "@CurrentMode" "@WhatIfCurrentMode" t;
        do time <- whole_or rd "@CurrentModeTime" "@WhatIfCurrentModeTime" t;
        do t1 <- whole_at rd "@T1" t;
        do t2 <- whole_at rd "@T2" t;
        do t3 <- whole_at rd "@T3" t;
        do t4 <- whole_at rd "@T4" t;
        do duid <- text_at "@TraderID" t;
        do rest <- fast_start_rows rd r;
        Got (Profile duid (inject_Z load) mode (inject_Z time) (inject_Z t1) (inject_Z t2) (inject_Z t3) (inject_Z t4) :: rest)
      else fast_start_rows rd r
  end.
(** As above.  /repo/src/nempy/historical_inputs/xml_cache.py:336-356. *)
Definition fast_start_parameters (rd : reader) (v : xml) : xres (list profile) :=
  do ts <- traders v; do l <- iter ts; fast_start_rows rd l.

(** ** Forecasts of semi-scheduled units *)

(** [get_UIGF_values].
    /repo/src/nempy/historical_inputs/xml_cache.py:601-609. *)
Fixpoint uigf_rows (rd : reader) (l : list xml) : xres (list uigf_row) :=
  match l with
  | [] => Got []
  | t :: r =>
      do b <- has_key "@UIGF" t;
      if b then
        do duid <- text_at "@TraderID" t;
        do q <- float_at rd "@UIGF" t;
        do rest <- uigf_rows rd r;
        Got (Uigf duid q :: rest)
      else uigf_rows rd r
  end.
(** As above.  /repo/src/nempy/historical_inputs/xml_cache.py:601-609. *)
Definition uigf_values (rd : reader) (v : xml) : xres (list uigf_row) :=
  do ts <- trader_periods v; do l <- iter ts; uigf_rows rd l.

(** ** Bids *)

(** A value of a column of the bid tables: a text, a number or None.
    /repo/src/nempy/historical_inputs/xml_cache.py:443, 534. *)
Inductive value := VStr (s : string) | VNum (q : Q) | VNone.

(** [bid_type_map] of both tables.
    /repo/src/nempy/historical_inputs/xml_cache.py:456-458, 552-555. *)
Definition trade_types : dict string :=
  [("ENOF", "ENERGY"); ("LDOF", "ENERGY"); ("DROF", "ENERGY"); ("BDOF", "ENERGY"); ("L5RE", "LOWERREG"); ("R5RE", "RAISEREG");
   ("R5MI", "RAISE5MIN"); ("L5MI", "LOWER5MIN"); ("R60S", "RAISE60SEC"); ("L60S", "LOWER60SEC"); ("R6SE", "RAISE6SEC");
   ("L6SE", "LOWER6SEC"); ("R1SE", "RAISE1SEC"); ("L1SE", "LOWER1SEC")].
(** [map[x]] of a value of a column.
    /repo/src/nempy/historical_inputs/xml_cache.py:459, 462, 556, 559. *)
Definition mapped {A : Type} (m : dict A) (v : value) : xres A :=
  match v with
  | VStr s => match dget s m with Some x => Got x | None => Raise KeyE end
  | _ => Raise KeyE
  end.
(** A column of a row.
    /repo/src/nempy/historical_inputs/xml_cache.py:459, 462, 556, 559. *)
Definition cell_of (n : string) (r : list (string * value)) : value :=
  match dget n r with Some v => v | None => VNone end.

(** The value of an attribute that is there.
    /repo/src/nempy/historical_inputs/xml_cache.py:437-440, 525-528. *)
Definition given_value (rd : reader) (k : string) (trade : xml) : xres value :=
  if String.eqb k "@TradeType" || String.eqb k "@Direction"
  then do s <- text_at k trade; Got (VStr s)
  else do q <- float_at rd k trade; Got (VNum q).

(** [name_map] of the volume bids.
    /repo/src/nempy/historical_inputs/xml_cache.py:425-431. *)
Definition volume_names : list (string * string) :=
  [("BIDTYPE", "@TradeType"); ("DIRECTION", "@Direction"); ("MAXAVAIL", "@MaxAvail"); ("ENABLEMENTMIN", "@EnablementMin");
   ("ENABLEMENTMAX", "@EnablementMax"); ("LOWBREAKPOINT", "@LowBreakpoint"); ("HIGHBREAKPOINT", "@HighBreakpoint");
   ("BANDAVAIL1", "@BandAvail1"); ("BANDAVAIL2", "@BandAvail2"); ("BANDAVAIL3", "@BandAvail3"); ("BANDAVAIL4", "@BandAvail4");
   ("BANDAVAIL5", "@BandAvail5"); ("BANDAVAIL6", "@BandAvail6"); ("BANDAVAIL7", "@BandAvail7"); ("BANDAVAIL8", "@BandAvail8");
   ("BANDAVAIL9", "@BandAvail9"); ("BANDAVAIL10", "@BandAvail10"); ("RAMPDOWNRATE", "@RampDnRate"); ("RAMPUPRATE", "@RampUpRate")].
(** The loop of [append_values]; [prev] is the value the name [value] has from the
    column before.  /repo/src/nempy/historical_inputs/xml_cache.py:435-443. *)
Fixpoint volume_values (rd : reader) (trade : xml) (prev : option value) (ns : list (string * string)) : xres (list (string * value)) :=
  match ns with
  | [] => Got []
  | (our, aemo) :: r =>
      do b <- has_key aemo trade;
      do v <- (if b then do x <- given_value rd aemo trade; Got (Some x)
               else Got (if String.eqb aemo "@Direction" then Some (VStr "missing") else prev));
      match v with
      | None => Raise UnboundE
      | Some x => do t <- volume_values rd trade (Some x) r; Got ((our, x) :: t)
      end
  end.

(** A row of the bid tables: DUID, BIDTYPE, DIRECTION and the columns of numbers.
    /repo/src/nempy/historical_inputs/xml_cache.py:421-424, 512-514. *)
Record bid_row := BidIn { bi_duid : string; bi_type : string; bi_dir : option string; bi_cells : list (string * value) }.

(** The trades of a trader, one or a list.
    /repo/src/nempy/historical_inputs/xml_cache.py:447-453, 538-549. *)
Definition trades_of (path : list string) (tag : string) (t : xml) : xres (list xml) :=
  do c <- down path t;
  do x <- at_key tag c;
  if is_list x then iter x else values_of c.

(** The rows of a trader before BIDTYPE and DIRECTION are renamed, and the columns
    beside these two.  /repo/src/nempy/historical_inputs/xml_cache.py:433-455. *)
Definition volume_raw (rd : reader) (t : xml) : xres (list (string * list (string * value))) :=
  do trades <- trades_of ["TradeCollection"] "Trade" t;
  each (fun trade => do duid <- text_at "@TraderID" t;
                     do vs <- volume_values rd trade None volume_names; Got (duid, vs)) trades.
(** As above.  /repo/src/nempy/historical_inputs/xml_cache.py:433-455. *)
Definition numbers_of (r : list (string * value)) : list (string * value) :=
  filter (fun p => negb (mem_str (fst p) ["BIDTYPE"; "DIRECTION"])) r.
(** The two renamings, column after column.
    /repo/src/nempy/historical_inputs/xml_cache.py:459-462, 556-559. *)
Definition renamed (directions : dict (option string)) (l : list (string * list (string * value))) : xres (list bid_row) :=
  do types <- each (fun r => mapped trade_types (cell_of "BIDTYPE" (snd r))) l;
  do dirs <- each (fun r => mapped directions (cell_of "DIRECTION" (snd r))) l;
  Got (map (fun p => BidIn (fst (fst p)) (fst (snd p)) (snd (snd p)) (numbers_of (snd (fst p)))) (combine l (combine types dirs))).
(** [get_unit_volume_bids].
    /repo/src/nempy/historical_inputs/xml_cache.py:419-463. *)
Definition volume_directions : dict (option string) := [("GEN", Some "GENERATOR"); ("LOAD", Some "LOAD"); ("missing", None)].
(** As above.  /repo/src/nempy/historical_inputs/xml_cache.py:419-463. *)
Definition volume_bids (rd : reader) (v : xml) : xres (list bid_row) :=
  do ts <- trader_periods v; do l <- iter ts; do rows <- each (volume_raw rd) l; renamed volume_directions (concat rows).

(** [name_map] of the price bids.
    /repo/src/nempy/historical_inputs/xml_cache.py:515-518. *)
Definition price_names : list (string * string) :=
  [("BIDTYPE", "@TradeType"); ("DIRECTION", "@Direction"); ("PRICEBAND1", "@PriceBand1"); ("PRICEBAND2", "@PriceBand2");
   ("PRICEBAND3", "@PriceBand3"); ("PRICEBAND4", "@PriceBand4"); ("PRICEBAND5", "@PriceBand5"); ("PRICEBAND6", "@PriceBand6");
   ("PRICEBAND7", "@PriceBand7"); ("PRICEBAND8", "@PriceBand8"); ("PRICEBAND9", "@PriceBand9"); ("PRICEBAND10", "@PriceBand10")].
(** The direction that the type of a trader stands for.
    /repo/src/nempy/historical_inputs/xml_cache.py:530-533. *)
Definition usual_direction (type : string) : value :=
  if mem_str type ["GENERATOR"; "NORMALLY_ON_LOAD"; "WDR"; "BIDIRECTIONAL"] then VStr "GEN"
  else if mem_str type ["LOAD"] then VStr "LOAD" else VNone.
(** [append_values].
    /repo/src/nempy/historical_inputs/xml_cache.py:520-535. *)
Definition price_value (rd : reader) (t trade : xml) (k : string) : xres value :=
  do b <- has_key k trade;
  if b then given_value rd k trade
  else do d <- has_key "@Direction" trade;
       if d then Got VNone else do type <- text_at "@TraderType" t; Got (usual_direction type).
(** As above.  /repo/src/nempy/historical_inputs/xml_cache.py:520-535. *)
Definition price_raw (rd : reader) (t : xml) : xres (list (string * list (string * value))) :=
  do trades <- trades_of ["TradePriceStructureCollection"; "TradePriceStructure"; "TradeTypePriceStructureCollection"] "TradeTypePriceStructure" t;
  each (fun trade => do duid <- text_at "@TraderID" t;
                     do vs <- each (fun n : string * string => do x <- price_value rd t trade (snd n); Got (fst n, x)) price_names;
                     Got (duid, vs)) trades.
(** [get_unit_price_bids].
    /repo/src/nempy/historical_inputs/xml_cache.py:511-560. *)
Definition price_directions : dict (option string) := [("GEN", Some "GENERATOR"); ("LOAD", Some "LOAD")].
(** As above.  /repo/src/nempy/historical_inputs/xml_cache.py:511-560. *)
Definition price_bids (rd : reader) (v : xml) : xres (list bid_row) :=
  do ts <- traders v; do l <- iter ts; do rows <- each (price_raw rd) l; renamed price_directions (concat rows).

(** ** Violations *)

(** [name_map] of the violations.
    /repo/src/nempy/historical_inputs/xml_cache.py:631-643. *)
Definition violation_names : list (string * string) :=
  [("regional_demand", "@TotalAreaGenViolation"); ("interocnnector", "@TotalInterconnectorViolation");
   ("generic_constraint", "@TotalGenericViolation"); ("ramp_rate", "@TotalRampRateViolation");
   ("unit_capacity", "@TotalUnitMWCapacityViolation"); ("energy_constraint", "@TotalEnergyConstrViolation");
   ("energy_offer", "@TotalEnergyOfferViolation"); ("fcas_profile", "@TotalASProfileViolation");
   ("fast_start", "@TotalFastStartViolation"); ("mnsp_ramp_rate", "@TotalMNSPRampRateViolation");
   ("msnp_offer", "@TotalMNSPOfferViolation"); ("mnsp_capacity", "@TotalMNSPCapacityViolation"); ("ugif", "@TotalUIGFViolation")].
(** The loops over the solutions of an intervention period for one name: the period
    solutions, of which the last one counts, and then the case solutions, of which the
    first one does.  /repo/src/nempy/historical_inputs/xml_cache.py:647-654. *)
Fixpoint from_periods (rd : reader) (k : string) (cur : option Q) (l : list xml) : xres (option Q) :=
  match l with
  | [] => Got cur
  | s :: r =>
      do i <- at_key "@Intervention" s;
      if is_text "0" i then
        do b <- has_key k s;
        if b then do q <- float_at rd k s; from_periods rd k (Some q) r else from_periods rd k cur r
      else from_periods rd k cur r
  end.
(** As above.  /repo/src/nempy/historical_inputs/xml_cache.py:647-654. *)
Fixpoint from_cases (rd : reader) (k : string) (cur : option Q) (l : list xml) : xres (option Q) :=
  match l with
  | [] => Got cur
  | s :: r =>
      do i <- at_key "@Intervention" s;
      match is_text "0" i, cur with
      | true, None => do q <- float_at rd k s; from_cases rd k (Some q) r
      | _, _ => from_cases rd k cur r
      end
  end.
(** [get_violations].  A name without a value is not in the dict.
    /repo/src/nempy/historical_inputs/xml_cache.py:630-662. *)
Definition violation (rd : reader) (outs : xml) (k : string) : xres (option Q) :=
  do p <- at_key "PeriodSolution" outs;
  if is_list p then
    do ps <- iter p;
    do q <- from_periods rd k None ps;
    do c <- at_key "CaseSolution" outs;
    do cs <- iter c;
    from_cases rd k q cs
  else
    do b <- has_key k p;
    if b then do q <- float_at rd k p; Got (Some q)
    else do c <- at_key "CaseSolution" outs; do q <- float_at rd k c; Got (Some q).
(** As above.  /repo/src/nempy/historical_inputs/xml_cache.py:630-662. *)
Definition violations (rd : reader) (v : xml) : xres (dict Q) :=
  do outs <- outputs v;
  do l <- each (fun n : string * string => do q <- violation rd outs (snd n); Got (fst n, q)) violation_names;
  Got (flat_map (fun p => match snd p with Some q => [(fst p, q)] | None => [] end) l).

(** [get_constraint_violation_prices].
    /repo/src/nempy/historical_inputs/xml_cache.py:682-703. *)
Definition violation_price_names : list (string * string) :=
  [("regional_demand", "@EnergyDeficitPrice"); ("interocnnector", "@InterconnectorPrice"); ("generic_constraint", "@GenericConstraintPrice");
   ("ramp_rate", "@RampRatePrice"); ("unit_capacity", "@CapacityPrice"); ("energy_offer", "@OfferPrice");
   ("fcas_profile", "@ASProfilePrice"); ("fcas_max_avail", "@ASMaxAvailPrice"); ("fcas_enablement_min", "@ASEnablementMinPrice");
   ("fcas_enablement_max", "@ASEnablementMaxPrice"); ("fast_start", "@FastStartPrice"); ("mnsp_ramp_rate", "@MNSPRampRatePrice");
   ("msnp_offer", "@MNSPOfferPrice"); ("mnsp_capacity", "@MNSPCapacityPrice"); ("uigf", "@UIGFSurplusPrice"); ("voll", "@VoLL");
   ("tiebreak", "@TieBreakPrice")].
(** As above.  /repo/src/nempy/historical_inputs/xml_cache.py:682-703. *)
Definition violation_prices (rd : reader) (v : xml) : xres (dict Q) :=
  do ins <- down ["NEMSPDCaseFile"; "NemSpdInputs"] v;
  each (fun n : string * string => do c <- at_key "Case" ins; do q <- float_at rd (snd n) c; Got (fst n, q)) violation_price_names.

(** ** Constraints *)

(** [get_constraint_rhs].
    /repo/src/nempy/historical_inputs/xml_cache.py:762-768. *)
Fixpoint rhs_rows (rd : reader) (l : list xml) : xres (list (string * Q)) :=
  match l with
  | [] => Got []
  | c :: r =>
      do i <- at_key "@Intervention" c;
      if is_text "0" i then
        do n <- text_at "@ConstraintID" c;
        do q <- float_at rd "@RHS" c;
        do rest <- rhs_rows rd r; Got ((n, q) :: rest)
      else rhs_rows rd r
  end.
(** As above.  /repo/src/nempy/historical_inputs/xml_cache.py:762-768. *)
Definition read_rhs (rd : reader) (v : xml) : xres (list (string * Q)) :=
  do outs <- outputs v; do s <- at_key "ConstraintSolution" outs; do l <- iter s; rhs_rows rd l.

(** /repo/src/nempy/historical_inputs/xml_cache.py:810, 863, 927, 985. *)
Definition generic_constraints (v : xml) : xres (list xml) :=
  do c <- down ["NEMSPDCaseFile"; "NemSpdInputs"; "GenericConstraintCollection"; "GenericConstraint"] v; iter c.
(** [get_constraint_type].
    /repo/src/nempy/historical_inputs/xml_cache.py:810-816. *)
Definition read_types (rd : reader) (v : xml) : xres (list type_row) :=
  do l <- generic_constraints v;
  each (fun c => do n <- text_at "@ConstraintID" c; do t <- text_at "@Type" c; do q <- float_at rd "@ViolationPrice" c;
                 Got (TypeRow n t q)) l.
(** The terms of a kind of a constraint: none, one or a list.
    /repo/src/nempy/historical_inputs/xml_cache.py:866-880, 930-944, 988-1000. *)
Definition terms_of (tag : string) (c : xml) : xres (list xml) :=
  do lhs <- at_key "LHSFactorCollection" c;
  match lhs with
  | XNone => Got []
  | _ => do b <- has_key tag lhs;
         if b then do x <- at_key tag lhs; if is_list x then iter x else Got [x] else Got []
  end.
(** [get_constraint_region_lhs], [get_constraint_unit_lhs] and
    [get_constraint_interconnector_lhs].
    /repo/src/nempy/historical_inputs/xml_cache.py:863-880, 927-944, 985-1000. *)
Definition read_lhs (rd : reader) (tag id : string) (v : xml) : xres (list lhs_row) :=
  do l <- generic_constraints v;
  do rows <- each (fun c =>
    do ts <- terms_of tag c;
    each (fun t => do n <- text_at "@ConstraintID" c; do o <- text_at id t; do s <- text_at "@TradeType" t;
                   do q <- float_at rd "@Factor" t; Got (LhsRow n o s q)) ts) l;
  Got (concat rows).
(** As above.  /repo/src/nempy/historical_inputs/xml_cache.py:863-880, 927-944, 985-1000. *)
Definition read_region_lhs (rd : reader) : xml -> xres (list lhs_row) := read_lhs rd "RegionFactor" "@RegionID".
(** As above.  /repo/src/nempy/historical_inputs/xml_cache.py:863-880, 927-944, 985-1000. *)
Definition read_unit_lhs (rd : reader) : xml -> xres (list lhs_row) := read_lhs rd "TraderFactor" "@TraderID".
(** As above.  /repo/src/nempy/historical_inputs/xml_cache.py:863-880, 927-944, 985-1000. *)
Definition read_inter_lhs (rd : reader) (v : xml) : xres (list (string * string * Q)) :=
  do l <- generic_constraints v;
  do rows <- each (fun c =>
    do ts <- terms_of "InterconnectorFactor" c;
    each (fun t => do n <- text_at "@ConstraintID" c; do o <- text_at "@InterconnectorID" t;
                   do q <- float_at rd "@Factor" t; Got (n, o, q)) ts) l;
  Got (concat rows).

(** ** Market interconnectors and prices *)

(** [get_market_interconnector_link_bid_availability].
    /repo/src/nempy/historical_inputs/xml_cache.py:1030-1041. *)
Fixpoint link_bid_rows (rd : reader) (l : list xml) : xres (list link_bid) :=
  match l with
  | [] => Got []
  | i :: r =>
      do m <- at_key "@MNSP" i;
      if is_text "1" m then
        do c <- down ["MNSPOfferCollection"; "MNSPOffer"] i;
        do os <- iter c;
        do rows <- each (fun o => do n <- text_at "@InterconnectorID" i; do g <- text_at "@RegionID" o; do q <- float_at rd "@MaxAvail" o;
                                  Got (LinkBid n g (Some q))) os;
        do rest <- link_bid_rows rd r; Got (rows ++ rest)
      else link_bid_rows rd r
  end.
(** As above.  /repo/src/nempy/historical_inputs/xml_cache.py:1030-1041. *)
Definition read_link_bids (rd : reader) (v : xml) : xres (list link_bid) :=
  do c <- down ["NEMSPDCaseFile"; "NemSpdInputs"; "PeriodCollection"; "Period"; "InterconnectorPeriodCollection"; "InterconnectorPeriod"] v;
  do l <- iter c; link_bid_rows rd l.

(** [service_type_map].  /repo/src/nempy/historical_inputs/xml_cache.py:1162-1165. *)
Definition price_attributes : list (string * string) :=
  [("@EnergyPrice", "ENERGY"); ("@LRegPrice", "LOWERREG"); ("@RRegPrice", "RAISEREG"); ("@R5Price", "RAISE5MIN");
   ("@RL5Price", "LOWER5MIN"); ("@R60Price", "RAISE60SEC"); ("@L60Price", "LOWER60SEC"); ("@R6Price", "RAISE6SEC");
   ("@L6Price", "LOWER6SEC"); ("@R1Price", "RAISE1SEC"); ("@L1Price", "LOWER1SEC")].
(** [get_service_prices]; the prices stay texts.
    /repo/src/nempy/historical_inputs/xml_cache.py:1162-1174. *)
Definition service_prices (v : xml) : xres (list (string * string * string)) :=
  do outs <- outputs v;
  do rs <- at_key "RegionSolution" outs;
  do l <- iter rs;
  do rows <- each (fun g =>
    do ps <- each (fun p : string * string =>
      do b <- has_key (fst p) g;
      if b then do n <- text_at "@RegionID" g; do q <- text_at (fst p) g; Got [(n, snd p, q)] else Got []) price_attributes;
    Got (concat ps)) l;
  Got (concat rows).
