(** Model of nempy/historical_inputs/rhs_calculator.py: how the calculator is set up from
    a case file.  Definitions only. *)

From Coq Require Import QArith String List Bool.
Import ListNotations.
From Verif Require Import PandasModel OffersModel XmlModel RhsModel.
Open Scope string_scope.
Open Scope list_scope.

(** An attribute that need not be there.
    /repo/src/nempy/historical_inputs/rhs_calculator.py:546, 553, 591, 596, 657. *)
Definition maybe_text (k : string) (v : xml) : xres (option string) :=
  do b <- has_key k v; if b then do s <- text_at k v; Got (Some s) else Got None.
(** As above.  /repo/src/nempy/historical_inputs/rhs_calculator.py:546, 553, 591, 596, 657. *)
Definition maybe_float (rd : reader) (k : string) (v : xml) : xres (option Q) :=
  do b <- has_key k v; if b then do q <- float_at rd k v; Got (Some q) else Got None.

(** A term of an equation.  The calculator keeps the texts and reads the attributes when
    it evaluates the equation; here they are read at once, so a text that is no number
    is noticed here.
    /repo/src/nempy/historical_inputs/rhs_calculator.py:119-198, 580-1070. *)
Definition read_term (rd : reader) (v : xml) : xres term :=
  do ty <- text_at "@SpdType" v;
  do id <- text_at "@SpdID" v;
  do op <- maybe_text "@Operation" v;
  do m <- float_at rd "@Multiplier" v;
  do q <- maybe_float rd "@Value" v;
  do df <- maybe_float rd "@Default" v;
  do g <- maybe_text "@GroupTerm" v;
  Got (RTerm ty id op m q df g).

(** [if type(v) != list: v = [v]].
    /repo/src/nempy/historical_inputs/rhs_calculator.py:98-110, 151-152, 194-195. *)
Definition as_list (v : xml) : list xml := match v with XList l => l | _ => [v] end.

(** [_format_generic_equations] and [_format_rhs_constraint_equations]; [k] is the
    attribute with the id.
    /repo/src/nempy/historical_inputs/rhs_calculator.py:147-155, 190-198. *)
Fixpoint equations (rd : reader) (k : string) (d : dict (list term)) (l : list xml) : xres (dict (list term)) :=
  match l with
  | [] => Got d
  | e :: r =>
      do b <- has_key "RHSTermCollection" e;
      if b then
        do x <- down ["RHSTermCollection"; "RHSTerm"] e;
        do ts <- each (read_term rd) (as_list x);
        do id <- text_at k e;
        equations rd k (dset id ts d) r
      else equations rd k d r
  end.

(** [add_entry]; only the values of an entry are kept.  They are read when they are used;
    here they are read at once.
    /repo/src/nempy/historical_inputs/rhs_calculator.py:89-94, 485. *)
Definition add_entry (rd : reader) (d : dict (list Q)) (e : xml) : xres (dict (list Q)) :=
  do id <- text_at "@SpdID" e;
  do q <- float_at rd "@Value" e;
  Got (dset id (match dget id d with Some l => l ++ [q] | None => [q] end) d).
(** As above.  /repo/src/nempy/historical_inputs/rhs_calculator.py:89-94, 485. *)
Fixpoint add_entries (rd : reader) (d : dict (list Q)) (l : list xml) : xres (dict (list Q)) :=
  match l with
  | [] => Got d
  | e :: r => do d' <- add_entry rd d e; add_entries rd d' r
  end.
(** [_reformat_scada_data].
    /repo/src/nempy/historical_inputs/rhs_calculator.py:87-116. *)
Fixpoint scada_data (rd : reader) (d : dict (dict (list Q))) (l : list xml) : xres (dict (dict (list Q))) :=
  match l with
  | [] => Got d
  | s :: r =>
      do ty <- text_at "@SpdType" s;
      do x <- down ["ScadaValuesCollection"; "ScadaValues"] s;
      do e <- add_entries rd [] (as_list x);
      do b <- has_key "BadScadaValuesCollection" s;
      do e' <- (if b then do y <- down ["BadScadaValuesCollection"; "ScadaValues"] s; add_entries rd e (as_list y) else Got e);
      scada_data rd (dset ty e' d) r
  end.

(** [_format_initial_conditions].  A unit without initial output has NaN, which is not
    modelled; here it is an error.
    /repo/src/nempy/historical_inputs/rhs_calculator.py:214. *)
Fixpoint initial_mw (d : dict Q) (l : list initial) : xres (dict Q) :=
  match l with
  | [] => Got d
  | r :: t => match ic_mw r with Some q => initial_mw (dset (OffersModel.ic_duid r) q d) t | None => Raise ValueE end
  end.

(** [_format_nemde_rhs_values] and [get_nemde_rhs].
    /repo/src/nempy/historical_inputs/rhs_calculator.py:230, 318. *)
Definition nemde_rhs_values (l : list (string * Q)) : dict Q := fold_left (fun d r => dset (fst r) (snd r) d) l [].
(** As above.  /repo/src/nempy/historical_inputs/rhs_calculator.py:230, 318. *)
Definition nemde_rhs (d : dict Q) (id : string) : xres Q := match dget id d with Some q => Got q | None => Raise KeyE end.

(** [_format_entered_values].
    /repo/src/nempy/historical_inputs/rhs_calculator.py:246-249. *)
Fixpoint entered_values (rd : reader) (d : dict Q) (l : list xml) : xres (dict Q) :=
  match l with
  | [] => Got d
  | e :: r => do id <- text_at "@SpdID" e; do q <- float_at rd "@Value" e; entered_values rd (dset id q d) r
  end.

(** [_format_mnsp_availability]: the availabilities in both directions.
    /repo/src/nempy/historical_inputs/rhs_calculator.py:266-277. *)
Fixpoint offers_of (rd : reader) (i : xml) (d : dict Q * dict Q) (l : list xml) : xres (dict Q * dict Q) :=
  match l with
  | [] => Got d
  | o :: r =>
      do g <- text_at "@RegionID" o;
      do from <- text_at "@FromRegion" i;
      if String.eqb g from then
        do q <- float_at rd "@MaxAvail" o; do id <- text_at "@InterconnectorID" i;
        offers_of rd i (dset id q (fst d), snd d) r
      else
        do dest <- text_at "@ToRegion" i;
        if String.eqb g dest then
          do q <- float_at rd "@MaxAvail" o; do id <- text_at "@InterconnectorID" i;
          offers_of rd i (fst d, dset id q (snd d)) r
        else Raise ValueE
  end.
(** As above.  /repo/src/nempy/historical_inputs/rhs_calculator.py:266-277. *)
Fixpoint mnsp_availability (rd : reader) (d : dict Q * dict Q) (l : list xml) : xres (dict Q * dict Q) :=
  match l with
  | [] => Got d
  | i :: r =>
      do m <- at_key "@MNSP" i;
      if is_text "1" m then
        do c <- down ["MNSPOfferCollection"; "MNSPOffer"] i;
        do os <- iter c;
        do d' <- offers_of rd i d os;
        mnsp_availability rd d' r
      else mnsp_availability rd d r
  end.

(** The constructor: the calculator and the right hand sides that the case file states.
    /repo/src/nempy/historical_inputs/rhs_calculator.py:36-50. *)
Definition items_at (path : list string) (v : xml) : xres (list xml) := do x <- down path v; iter x.
(** As above.  /repo/src/nempy/historical_inputs/rhs_calculator.py:36-50. *)
Definition rhs_calc (rd : reader) (v : xml) : xres (store * dict Q) :=
  do ins <- down ["NEMSPDCaseFile"; "NemSpdInputs"] v;
  do ss <- items_at ["ConstraintScadaDataCollection"; "ConstraintScadaData"] ins;
  do scada <- scada_data rd [] ss;
  do gs <- items_at ["GenericEquationCollection"; "GenericEquation"] ins;
  do generic <- equations rd "@EquationID" [] gs;
  do cs <- items_at ["GenericConstraintCollection"; "GenericConstraint"] ins;
  do rhs <- equations rd "@ConstraintID" [] cs;
  do ic <- initial_conditions rd v;
  do mw <- initial_mw [] ic;
  do es <- items_at ["PeriodCollection"; "Period"; "EnteredValuePeriodCollection"; "EnteredValuePeriod"] ins;
  do entered <- entered_values rd [] es;
  do is <- items_at ["PeriodCollection"; "Period"; "InterconnectorPeriodCollection"; "InterconnectorPeriod"] ins;
  do avail <- mnsp_availability rd ([], []) is;
  do rows <- read_rhs rd v;
  Got (Store scada mw entered (fst avail) (snd avail) generic rhs, nemde_rhs_values rows).

(** [_get_rhs_equations_that_dont_reference_generic_equations].
    /repo/src/nempy/historical_inputs/rhs_calculator.py:285-295. *)
Definition without_generic (st : store) : list string :=
  map fst (filter (fun p => negb (existsb (fun t => dhas (t_id t) (s_generic st)) (snd p))) (s_rhs st)).
