(** What a case file says about the right hand side equations and their inputs, in terms
    of the elements and attributes of the document. *)

From Coq Require Import QArith String List Bool.
Import ListNotations.
From Verif Require Import PandasModel XmlModel RhsModel SpecXml.
Open Scope string_scope.
Open Scope list_scope.

(** The elements of a document that matter: sets of SCADA data, generic equations,
    constraints, units, entered values, interconnectors and the stated solutions of the
    constraints; and the name of the measurement of the output of units. *)
Record parts := Parts {
  pa_scada : list elem; pa_generic : list elem; pa_rhs : list elem; pa_units : list elem;
  pa_entered : list elem; pa_links : list elem; pa_solutions : list elem; pa_mw : string }.
Definition consists_of (root : elem) (p : parts) : Prop :=
  collection ["NemSpdInputs"; "ConstraintScadaDataCollection"] "ConstraintScadaData" root (pa_scada p)
  /\ collection ["NemSpdInputs"; "GenericEquationCollection"] "GenericEquation" root (pa_generic p)
  /\ collection ["NemSpdInputs"; "GenericConstraintCollection"] "GenericConstraint" root (pa_rhs p)
  /\ trader_list root (pa_units p)
  /\ collection ["NemSpdInputs"; "PeriodCollection"; "Period"; "EnteredValuePeriodCollection"] "EnteredValuePeriod" root (pa_entered p)
  /\ link_list root (pa_links p)
  /\ collection ["NemSpdOutputs"] "ConstraintSolution" root (pa_solutions p)
  /\ ((plain_period root /\ pa_mw p = "InitialMW") \/ (intervention_period root /\ pa_mw p = "WhatIfInitialMW")).

(** The values of a set of SCADA data: those that are marked as good, and those marked as
    bad if there are any. *)
Definition measurements (s : elem) (l : list elem) : Prop :=
  exists c, kids "ScadaValuesCollection" s = [c] /\ kids "ScadaValues" c <> []
  /\ ((kids "BadScadaValuesCollection" s = [] /\ l = kids "ScadaValues" c)
      \/ exists b, kids "BadScadaValuesCollection" s = [b] /\ kids "ScadaValues" b <> [] /\ l = kids "ScadaValues" c ++ kids "ScadaValues" b).
Definition with_id (id : string) (e : elem) : bool := match attr "SpdID" e with Some s => String.eqb s id | None => false end.

(** The value of an input.  The SCADA values of an id are added up. *)
Definition offer_to (rd : reader) (end_ : string) (id : string) (i : elem) (q : Q) : Prop :=
  market_link i /\ named "InterconnectorID" id i
  /\ exists l o, link_offers i l /\ In o l /\ attr end_ i = attr "RegionID" o /\ number rd "MaxAvail" o q.
Definition says (rd : reader) (p : parts) (ty id : string) (q : Q) : Prop :=
  (In ty ["A"; "S"; "R"; "I"; "W"]
   /\ exists s l qs, In s (pa_scada p) /\ named "SpdType" ty s /\ measurements s l /\ filter (with_id id) l <> []
                     /\ Forall2 (number rd "Value") (filter (with_id id) l) qs /\ q == qsum qs)
  \/ (ty = "T" /\ exists t l, In t (pa_units p) /\ named "TraderID" id t /\ conditions t l /\ initially rd (pa_mw p) l (Some q))
  \/ (ty = "E" /\ exists e, In e (pa_entered p) /\ named "SpdID" id e /\ number rd "Value" e q)
  \/ (ty = "M" /\ exists i, In i (pa_links p) /\ offer_to rd "FromRegion" id i q)
  \/ (ty = "N" /\ exists i, In i (pa_links p) /\ offer_to rd "ToRegion" id i q).

(** The terms of an equation. *)
Definition maybe (rd : reader) (n : string) (e : elem) (o : option Q) : Prop :=
  match o with Some q => number rd n e q | None => attr n e = None end.
Definition term_of (rd : reader) (e : elem) (t : term) : Prop :=
  named "SpdType" (t_type t) e /\ named "SpdID" (t_id t) e /\ attr "Operation" e = t_op t /\ number rd "Multiplier" e (t_mult t)
  /\ maybe rd "Value" e (t_value t) /\ maybe rd "Default" e (t_default t) /\ attr "GroupTerm" e = t_group t.
Definition equation_terms (e : elem) (l : list elem) : Prop :=
  exists c, kids "RHSTermCollection" e = [c] /\ kids "RHSTerm" c = l /\ l <> [].
Definition equation_of (rd : reader) (n id : string) (e : elem) (ts : list term) : Prop :=
  named n id e /\ exists l, equation_terms e l /\ Forall2 (term_of rd) l ts.

(** A document with numbers where they are needed, and in which ids are not repeated. *)
Definition number_or_none (rd : reader) (n : string) (e : elem) : Prop := attr n e = None \/ exists q, number rd n e q.
Definition term_readable (rd : reader) (e : elem) : Prop :=
  attr "SpdType" e <> None /\ attr "SpdID" e <> None /\ (exists q, number rd "Multiplier" e q)
  /\ number_or_none rd "Value" e /\ number_or_none rd "Default" e.
Definition equations_readable (rd : reader) (n : string) (es : list elem) : Prop :=
  NoDup (map (attr n) es)
  /\ forall e, In e es -> attr n e <> None
       /\ (kids "RHSTermCollection" e = [] \/ exists l, equation_terms e l /\ forall t, In t l -> term_readable rd t).
Definition offers_readable (rd : reader) (i : elem) : Prop :=
  attr "MNSP" i <> None
  /\ (market_link i -> attr "InterconnectorID" i <> None
      /\ exists f t l, named "FromRegion" f i /\ named "ToRegion" t i /\ f <> t /\ link_offers i l /\ NoDup (map (attr "RegionID") l)
           /\ forall o, In o l -> (named "RegionID" f o \/ named "RegionID" t o) /\ exists q, number rd "MaxAvail" o q).
Definition inputs_readable (rd : reader) (p : parts) : Prop :=
  (NoDup (map (attr "SpdType") (pa_scada p))
   /\ forall s, In s (pa_scada p) -> attr "SpdType" s <> None
        /\ exists l, measurements s l /\ forall e, In e l -> attr "SpdID" e <> None /\ exists q, number rd "Value" e q)
  /\ equations_readable rd "EquationID" (pa_generic p)
  /\ equations_readable rd "ConstraintID" (pa_rhs p)
  /\ (NoDup (map (attr "TraderID") (pa_units p))
      /\ forall t, In t (pa_units p) -> measured rd t /\ exists l q, conditions t l /\ initially rd (pa_mw p) l (Some q))
  /\ (NoDup (map (attr "SpdID") (pa_entered p))
      /\ forall e, In e (pa_entered p) -> attr "SpdID" e <> None /\ exists q, number rd "Value" e q)
  /\ (NoDup (map (attr "InterconnectorID") (pa_links p)) /\ forall i, In i (pa_links p) -> offers_readable rd i)
  /\ (NoDup (map (attr "ConstraintID") (filter (fun e => match attr "Intervention" e with Some s => String.eqb s "0" | None => false end) (pa_solutions p)))
      /\ forall e, In e (pa_solutions p) -> attr "ConstraintID" e <> None /\ attr "Intervention" e <> None /\ exists q, number rd "RHS" e q).

(** What a term without an operation adds to the right hand side: its multiplier times the
    value of its input; the multiplier if it has no input. *)
Definition adds (rd : reader) (p : parts) (e : elem) (q : Q) : Prop :=
  exists ty id m, named "SpdType" ty e /\ named "SpdID" id e /\ number rd "Multiplier" e m
  /\ ((exists v, says rd p ty id v /\ q == m * v)
      \/ ((forall v, ~ says rd p ty id v) /\ ~ In ty ["A"; "S"; "R"; "I"; "W"] /\ attr "Value" e = None /\ q == m)).
Inductive adds_up (rd : reader) (p : parts) : list elem -> Q -> Prop :=
| adds_nothing : adds_up rd p [] 0
| adds_more : forall e l a q, adds rd p e a -> adds_up rd p l q -> adds_up rd p (e :: l) (a + q).
Definition plain_term (e : elem) : Prop :=
  attr "Operation" e = None /\ attr "GroupTerm" e = None /\ forall ty, attr "SpdType" e = Some ty -> ~ In ty ["U"; "G"; "B"; "X"].
