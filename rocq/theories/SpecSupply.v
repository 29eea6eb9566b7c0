(** Two tables of price bids, compared cell by cell. *)

From Coq Require Import QArith String List Bool.
Import ListNotations.
From Verif Require Import PandasModel TablesModel MarketModel SpecLp SpecHistory SpecDispatch SpecPrices.
Open Scope string_scope.
Open Scope list_scope.

(** The tables have prices for the same bands. *)
Definition same_bands (t t' : bid_table) : Prop :=
  forall u s d b, (exists q, offered t u s d b q) <-> (exists q, offered t' u s d b q).
(** They differ at most in the price of one band. *)
Definition same_elsewhere (u s d b : string) (t t' : bid_table) : Prop :=
  forall u' s' d' b' q, (u', s', d', b') <> (u, s, d, b) -> (offered t u' s' d' b' q <-> offered t' u' s' d' b' q).
(** No offer is better for the market: none asks for more, and no load would pay more
    for energy. *)
Definition dearer (t t' : bid_table) : Prop :=
  forall u s d b q q', offered t u s d b q -> offered t' u s d b q' ->
    if String.eqb s "energy" && String.eqb d "load" then q' <= q else q <= q'.
(** What a change of the prices makes of the bids dispatched in [x]. *)
Definition repriced (c : config) (m : market) (t t' : bid_table) (x : assignment) : Q :=
  bids_cost c m t' x - bids_cost c m t x.
(** Energy is valued with positive loss factors. *)
Definition positive_factors (c : config) : Prop := forall ui, In ui (c_ui c) -> 0 < ui_lf ui.

(** Two histories that differ in the table of price bids and in nothing else; bids of
    equal prices are not tied together after it. *)
Definition two_prices (c : config) (tv t t' : bid_table) (m m' : market) : Prop :=
  exists m0 pre mid post, new_market c = Ok m0
    /\ let before := pre ++ OpVolumeBids tv :: mid in
       sane (before ++ OpPriceBids t :: post) m0
    /\ snd (step (OpVolumeBids tv) (run pre m0)) = None
    /\ snd (step (OpPriceBids t) (run before m0)) = None /\ snd (step (OpPriceBids t') (run before m0)) = None
    /\ leaves "bids" mid /\ leaves "bids" post /\ leaves "prices" post /\ leaves "tie_break" post
    /\ m = run (before ++ OpPriceBids t :: post) m0 /\ m' = run (before ++ OpPriceBids t' :: post) m0.
