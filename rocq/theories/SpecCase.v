(** The bids of a market in terms of the trades of a case file. *)

From Coq Require Import QArith String List Bool.
Import ListNotations.
From Verif Require Import OffersModel XmlModel UnitDataModel SpecXml SpecUnitData.
Open Scope string_scope.
Open Scope list_scope.

(** A trade is given with its trader.  Its unit, its market and, for prices, the side
    it is on. *)
Definition of_unit (p : elem * elem) (u : string) : Prop := named "TraderID" u (fst p).
Definition of_market (p : elem * elem) (m : string) : Prop :=
  exists s, attr "TradeType" (snd p) = Some s /\ market_of s = Some m.
Definition on_side (p : elem * elem) (d : string) : Prop :=
  match attr "Direction" (snd p) with
  | Some s => direction_of s = Some d
  | None => direction_of_type (fst p) = Some d
  end.

(** The price trade [p] is for the volume trade [v]: the same unit and market, and the
    same side if [v] names one. *)
Definition partner (v p : elem * elem) : Prop :=
  exists u m d, of_unit v u /\ of_unit p u /\ of_market v m /\ of_market p m /\ on_side p d
    /\ forall s, attr "Direction" (snd v) = Some s -> direction_of s = Some d.
(** Two price trades are for the same bid. *)
Definition same_bid (p q : elem * elem) : Prop :=
  exists u m d, of_unit p u /\ of_unit q u /\ of_market p m /\ of_market q m /\ on_side p d /\ on_side q d.

(** A trade with all bands. *)
Definition bands_given (pre : string) (p : elem * elem) : Prop :=
  forall n, In n band_names -> attr (pre ++ n)%string (snd p) <> None.

(** The bands in a row are those of the trade. *)
Definition bands_of_trade (rd : reader) (pre : string) (p : elem * elem) (l : list Q) : Prop :=
  length l = 10%nat /\ forall b q, In b band_names -> number rd (pre ++ b)%string (snd p) q -> band l b q.

(** What a row of the volume bids or of the price bids says about a trade. *)
Definition volume_says (rd : reader) (p : elem * elem) (w : volume_row) : Prop :=
  of_unit p (vo_duid w) /\ of_market p (vo_type w)
  /\ match attr "Direction" (snd p) with
     | Some s => direction_of s = vo_dir w
     | None => vo_dir w = None
     end
  /\ (forall q, number rd "MaxAvail" (snd p) q -> vo_max w = q)
  /\ (forall q, number rd "EnablementMin" (snd p) q -> vo_emin w = q)
  /\ (forall q, number rd "LowBreakpoint" (snd p) q -> vo_low w = q)
  /\ (forall q, number rd "HighBreakpoint" (snd p) q -> vo_high w = q)
  /\ (forall q, number rd "EnablementMax" (snd p) q -> vo_emax w = q)
  /\ (forall q, number rd "RampDnRate" (snd p) q -> vo_down w = Some q)
  /\ (forall q, number rd "RampUpRate" (snd p) q -> vo_up w = Some q)
  /\ bands_of_trade rd "BandAvail" p (vo_bands w).
Definition price_says (rd : reader) (p : elem * elem) (r : price_offer) : Prop :=
  of_unit p (po_duid r) /\ of_market p (po_type r) /\ on_side p (po_dir r) /\ bands_of_trade rd "PriceBand" p (po_bands r).

(** The trades of a document: no two price trades are for the same bid, every trade has
    one partner. *)
Definition matched (vs ps : list (elem * elem)) : Prop :=
  ForallOrdPairs (fun p q => ~ same_bid p q) ps
  /\ ForallOrdPairs (fun v w => forall p, In p ps -> partner v p -> ~ partner w p) vs
  /\ (forall v, In v vs -> exists p, In p ps /\ partner v p)
  /\ (forall v p q, In v vs -> In p ps -> In q ps -> partner v p -> partner v q -> p = q)
  /\ (forall p, In p ps -> exists v, In v vs /\ partner v p).

(** A document in which all bids can be read, are complete and belong together. *)
Record bidding (rd : reader) (root : elem) (ts us : list elem) (vs ps : list (elem * elem)) : Prop := {
  b_traders : trader_list root ts;
  b_periods : period_list root us;
  b_run : plain_period root \/ intervention_period root;
  b_prices : with_trades price_trades ts ps;
  b_volumes : with_trades volume_trades us vs;
  b_price_ok : forall p, In p ps -> prices_readable rd p /\ bands_given "PriceBand" p;
  b_volume_ok : forall v, In v vs -> volumes_readable rd v /\ attr "MaxAvail" (snd v) <> None;
  b_measured : forall t, In t ts -> measured rd t;
  b_forecast : forall t, In t us -> forecast_readable rd t;
  b_once : NoDup (map (attr "TraderID") ts);
  b_once_period : NoDup (map (attr "TraderID") us);
  b_matched : matched vs ps }.
