(** Properties of the scaling and enabling of FCAS offers: C42, C43. *)

From Coq Require Import QArith Lqa String List Bool ZArith Lia.
Import ListNotations.
From Verif Require Import PandasModel TablesModel MarketModel ReportsModel OffersModel SpecOffers OffersFacts EnableFacts.
Open Scope string_scope.
Open Scope list_scope.

(** A generator, a two-way unit and a wind farm. *)
Definition of_offers : list offer :=
  [Offer "G" "GENERATOR" "ENERGY" 100 0 0 0 0 [60; 40];
   Offer "G" "GENERATOR" "RAISEREG" 20 30 50 80 100 [10; 10];
   Offer "G" "GENERATOR" "LOWER5MIN" 15 10 30 90 100 [0; 15];
   Offer "S" "GENERATOR" "ENERGY" 50 0 0 0 0 [50];
   Offer "S" "LOAD" "ENERGY" 40 0 0 0 0 [40];
   Offer "S" "GENERATOR" "RAISEREG" 10 0 0 40 50 [10];
   Offer "S" "LOAD" "RAISEREG" 10 (-40) (-30) 0 0 [10];
   Offer "S" "GENERATOR" "RAISE6SEC" 10 0 0 40 50 [10];
   Offer "S" "LOAD" "RAISE6SEC" 10 (-40) (-30) 0 0 [10];
   Offer "W" "GENERATOR" "ENERGY" 70 0 0 0 0 [70];
   Offer "W" "GENERATOR" "RAISE6SEC" 12 10 20 60 70 [12]].
Definition of_prices : list price_offer :=
  map (fun o => PriceOffer (of_duid o) (of_dir o) (of_type o) [10; 300]) of_offers.
Definition of_agc : list agc_row := [Agc "G" None None (Some 40) (Some 95); Agc "S" None None (Some (-45)) (Some 0)].
Definition of_init : list initial :=
  [Initial "G" "GENERATOR" (Some 60) (Some 120) (Some 180) (Some 1);
   Initial "S" "BIDIRECTIONAL" (Some (-10)) (Some 600) (Some 600) (Some 1);
   Initial "W" "GENERATOR" (Some 30) None None None].
Definition of_uigf : list uigf_row := [Uigf "W" 50].

(** ** C42 *)

(** AGC enablement limits: only positive limits count, the offers of other services
    stay as they are, and every regulation offer of a unit with limits is kept. *)
Theorem C42_agc :
  forall offers agc o', In o' (scale_agc offers agc) ->
  exists o, In o offers /\ tightens o o' /\ of_max o' = of_max o
    /\ (~ regulation (of_type o) -> o' = o)
    /\ (regulation (of_type o) -> exists a, In a agc /\ ag_duid a = of_duid o
          /\ keeps_limits (agc_min a (of_type o)) (agc_max a (of_type o)) o o').
Proof. exact agc_sound. Qed.
Print Assumptions C42_agc.

Theorem C42_agc_kept :
  forall offers agc o, In o offers ->
  (regulation (of_type o) -> exists a, In a agc /\ ag_duid a = of_duid o) ->
  exists o', In o' (scale_agc offers agc) /\ tightens o o'.
Proof. exact agc_complete. Qed.
Print Assumptions C42_agc_kept.

Example C42_agc_case :
  exists o o', nth_error of_offers 1 = Some o /\ In o' (scale_agc of_offers of_agc) /\ regulation (of_type o)
    /\ (exists a, In a of_agc /\ ag_duid a = of_duid o)
    /\ of_duid o' = "G" /\ of_emin o' == 40 /\ of_low o' == 60 /\ of_high o' == 75 /\ of_emax o' == 95.
Proof.
  eexists _, (nth 8 (scale_agc of_offers of_agc) (nth 0 of_offers (Offer "" "" "" 0 0 0 0 0 []))).
  split; [reflexivity|]. split; [apply nth_In; vm_compute; lia|]. split; [left; reflexivity|].
  split; [eexists; split; [left; reflexivity|reflexivity]|]. vm_compute. repeat split.
Qed.

(** Ramp rates of the telemetry: at most five minutes of ramping, in MW per hour. *)
Theorem C42_ramp :
  forall offers ics out o', rates_ok ics -> scale_ramp offers ics = Ok out -> In o' out ->
  exists o, In o offers /\ tightens o o' /\ of_emin o' = of_emin o /\ of_emax o' = of_emax o
    /\ (~ regulation (of_type o) -> o' = o)
    /\ (regulation (of_type o) -> exists i, In i ics /\ ic_duid i = of_duid o
          /\ (forall r, reg_rate i (of_type o) = Some r -> ~ r == 0 -> initials_ok ics -> of_max o' <= r / 12)
          /\ (of_max o' = of_max o \/ exists r, reg_rate i (of_type o) = Some r /\ of_max o' == r / 12)).
Proof. exact ramp_sound. Qed.
Print Assumptions C42_ramp.

Theorem C42_ramp_kept :
  forall offers ics out o, rates_ok ics -> scale_ramp offers ics = Ok out -> In o offers ->
  (regulation (of_type o) -> exists i, In i ics /\ ic_duid i = of_duid o) ->
  exists o', In o' out /\ tightens o o'.
Proof. exact ramp_complete. Qed.
Print Assumptions C42_ramp_kept.

Lemma of_rates : rates_ok of_init.
Proof.
  intros i q [<-|[<-|[<-|[]]]] [E|E]; cbn in E; try discriminate; injection E as <-; lra.
Qed.
Lemma of_initials : initials_ok of_init.
Proof. intros i j [<-|[<-|[<-|[]]]] [<-|[<-|[<-|[]]]] E; try reflexivity; discriminate. Qed.

Example C42_ramp_case :
  exists o out o', nth_error of_offers 1 = Some o /\ rates_ok of_init /\ initials_ok of_init
    /\ scale_ramp of_offers of_init = Ok out /\ In o' out /\ regulation (of_type o)
    /\ of_duid o' = "G" /\ of_max o' == 10 /\ of_emin o' == 30 /\ of_low o' == 40 /\ of_high o' == 90 /\ of_emax o' == 100.
Proof.
  eexists _, _, _. split; [reflexivity|]. split; [exact of_rates|]. split; [exact of_initials|].
  split; [vm_compute; reflexivity|]. split; [do 8 right; left; reflexivity|]. split; [left; reflexivity|]. vm_compute. repeat split.
Qed.

(** Forecasts: they bound the upper limit of all FCAS offers. *)
Theorem C42_uigf :
  forall offers uigf o', In o' (scale_uigf offers uigf) ->
  exists o, In o offers /\ tightens o o' /\ of_max o' = of_max o /\ of_emin o' = of_emin o
    /\ (of_type o = "ENERGY" \/ (forall f, In f uigf -> ug_unit f <> of_duid o) -> o' = o)
    /\ (of_type o <> "ENERGY" -> In (of_duid o) (map ug_unit uigf) -> exists f, In f uigf /\ ug_unit f = of_duid o
          /\ of_emax o' <= ug_cap f /\ (of_emax o' = of_emax o \/ of_emax o' = ug_cap f)).
Proof. exact uigf_sound. Qed.
Print Assumptions C42_uigf.

Theorem C42_uigf_kept :
  forall offers uigf o, In o offers -> exists o', In o' (scale_uigf offers uigf) /\ tightens o o'.
Proof. exact uigf_complete. Qed.
Print Assumptions C42_uigf_kept.

Example C42_uigf_case :
  exists o', In o' (scale_uigf of_offers of_uigf) /\ of_duid o' = "W" /\ of_type o' = "RAISE6SEC"
    /\ of_emin o' == 10 /\ of_low o' == 20 /\ of_high o' == 40 /\ of_emax o' == 50.
Proof.
  exists (last (scale_uigf of_offers of_uigf) (Offer "" "" "" 0 0 0 0 0 [])). vm_compute. split; [do 10 right; left; reflexivity|]. repeat split.
Qed.

(** The three steps and the filter together: a FCAS offer of the result is an offer
    of the bidder, tightened, and within every limit. *)
Theorem C42_all_steps :
  forall old offers prices agc ics uigf v p o', rates_ok ics -> initials_ok ics ->
  process_offers old offers prices agc ics uigf = Ok (v, p) -> In o' v -> of_type o' <> "ENERGY" ->
  exists o, In o offers /\ tightens o o' /\ 0 < of_max o'
    /\ (regulation (of_type o) -> exists a, In a agc /\ ag_duid a = of_duid o
         /\ (forall l, agc_min a (of_type o) = Some l -> 0 < l -> l <= of_emin o')
         /\ (forall h, agc_max a (of_type o) = Some h -> 0 < h -> of_emax o' <= h))
    /\ (forall i r, In i ics -> ic_duid i = of_duid o -> reg_rate i (of_type o) = Some r -> ~ r == 0 -> of_max o' <= r / 12)
    /\ (In (of_duid o) (map ug_unit uigf) -> exists f, In f uigf /\ ug_unit f = of_duid o /\ of_emax o' <= ug_cap f).
Proof. exact process_final. Qed.
Print Assumptions C42_all_steps.

Example C42_all_steps_case :
  exists v p, process_offers false of_offers of_prices of_agc of_init of_uigf = Ok (v, p)
    /\ map (fun o => (offer_key o, of_max o, of_emin o, of_emax o)) (skipn 4 v)
       = [(("S", "LOAD", "RAISE6SEC"), 10, -(40), 0);
          (("G", "GENERATOR", "LOWER5MIN"), 15, 10, 100); (("G", "GENERATOR", "RAISEREG"), 600 # 60, 40, 95);
          (("W", "GENERATOR", "RAISE6SEC"), 12, 10, 50); (("S", "GENERATOR", "RAISEREG"), 10, 0, 50);
          (("S", "LOAD", "RAISEREG"), 10, -(40), 0)]
    /\ length p = length v.
Proof. do 2 eexists. split; [vm_compute; reflexivity|]. split; vm_compute; reflexivity. Qed.

(** Limits that are zero or negative do not count, although a two-way unit may have
    them. *)
Theorem C42_negative_limits_refuted :
  exists offers agc o' a h, In o' (scale_agc offers agc) /\ In a agc /\ ag_duid a = of_duid o'
    /\ agc_max a (of_type o') = Some h /\ ~ of_emax o' <= h.
Proof.
  exists [Offer "S" "LOAD" "RAISEREG" 10 (-40) (-30) 0 0 [10]], [Agc "S" None None (Some (-45)) (Some (-20))].
  do 3 eexists. split; [left; reflexivity|]. split; [left; reflexivity|]. split; [reflexivity|]. split; [reflexivity|].
  intros C. vm_compute in C. congruence.
Qed.
Print Assumptions C42_negative_limits_refuted.

(** A regulation offer of a unit without AGC limits is lost. *)
Theorem C42_no_limits_refuted :
  exists offers agc o, In o offers /\ regulation (of_type o) /\ scale_agc offers agc = [].
Proof.
  exists [nth 1 of_offers (Offer "" "" "" 0 0 0 0 0 [])], []. eexists. split; [left; reflexivity|]. split; [left; reflexivity|reflexivity].
Qed.
Print Assumptions C42_no_limits_refuted.

(** Offers without any regulation offer to scale make the step raise an exception. *)
Theorem C42_no_regulation_refuted :
  exists offers prices agc ics uigf, offers <> [] /\ process_offers false offers prices agc ics uigf = Err EValue.
Proof.
  exists [Offer "G" "GENERATOR" "LOWER5MIN" 15 10 30 90 100 [0; 15]], [], of_agc, of_init, []. split; [discriminate|reflexivity].
Qed.
Print Assumptions C42_no_regulation_refuted.

(** ** C43 *)

Theorem C43_volumes :
  forall offers prices ics caps o, offers_ok offers -> caps_ok caps ->
  In o (fst (enforce offers prices ics caps)) <-> In o offers /\ (of_type o = "ENERGY" \/ enabled offers ics caps o).
Proof. exact enforce_volumes. Qed.
Print Assumptions C43_volumes.

Theorem C43_prices :
  forall offers prices ics caps p, offers_ok offers -> caps_ok caps ->
  In p (snd (enforce offers prices ics caps)) <-> In p prices /\ (po_type p = "ENERGY"
     \/ (po_type p <> "ENERGY" /\ exists o, In o (fst (enforce offers prices ics caps)) /\ same_key p o)).
Proof. exact enforce_prices. Qed.
Print Assumptions C43_prices.

(** The same for the whole processing of historical offers. *)
Theorem C43_process :
  forall old offers prices agc ics uigf v p, offers_ok offers -> agc_ok agc -> initials_ok ics -> uigf_ok uigf ->
  process_offers old offers prices agc ics uigf = Ok (v, p) ->
  exists scaled, scale_ramp (scale_agc offers agc) ics = Ok scaled
    /\ (forall o, In o v <-> In o (scale_uigf scaled uigf)
          /\ (of_type o = "ENERGY" \/ enabled (scale_uigf scaled uigf) ics (unit_availability old offers uigf) o))
    /\ (forall q, In q p <-> In q prices /\ (po_type q = "ENERGY" \/ (po_type q <> "ENERGY" /\ exists o, In o v /\ same_key q o))).
Proof. exact process_enabled. Qed.
Print Assumptions C43_process.

(** Energy offers and their prices come out as they went in, in the same order. *)
Theorem C43_energy :
  forall old offers prices agc ics uigf v p, process_offers old offers prices agc ics uigf = Ok (v, p) ->
  filter (of_type_is "ENERGY") v = filter (of_type_is "ENERGY") offers
  /\ filter (fun q => String.eqb (po_type q) "ENERGY") p = filter (fun q => String.eqb (po_type q) "ENERGY") prices.
Proof. exact process_energy. Qed.
Print Assumptions C43_energy.

(** The forecast of a unit reaches the lower limit of its offers, although the rows
    of forecasts never match in the merge with the capacities. *)
Theorem C43_forecast :
  forall old offers prices agc ics uigf v p o f,
  offers_ok offers -> agc_ok agc -> initials_ok ics -> uigf_ok uigf -> rates_ok ics ->
  process_offers old offers prices agc ics uigf = Ok (v, p) -> In o v -> of_type o <> "ENERGY" ->
  (forall i, In i ics -> ic_duid i = of_duid o -> ~ two_way i) ->
  In f uigf -> ug_unit f = of_duid o -> of_emin o <= ug_cap f.
Proof. exact process_forecast. Qed.
Print Assumptions C43_forecast.

(** The initial output is compared to five decimal places. *)
Theorem C43_rounding : forall q, nearest5 q (round5 q).
Proof. exact round5_nearest. Qed.
Print Assumptions C43_rounding.

Lemma of_offers_ok : offers_ok of_offers.
Proof.
  split; [|split].
  - intros o H. repeat (destruct H as [<-|H]; [vm_compute; intuition|]). destruct H.
  - intros o H. repeat (destruct H as [<-|H]; [vm_compute; intuition|]). destruct H.
  - intros a b Ha Hb. repeat (destruct Ha as [<-|Ha]; [repeat (destruct Hb as [<-|Hb]; [try (intros; discriminate); reflexivity|]); destruct Hb|]). destruct Ha.
Qed.
Lemma of_agc_ok : agc_ok of_agc.
Proof. intros i j [<-|[<-|[]]] [<-|[<-|[]]] E; try reflexivity; discriminate. Qed.
Lemma of_uigf_ok : uigf_ok of_uigf.
Proof. intros i j [<-|[]] [<-|[]] E; reflexivity. Qed.

(** In the case of [C42_all_steps_case] the generation side of the contingency offer
    of S is not enabled, as S starts at -10 MW; the regulation offers are, as both
    sides reach from -40 to 50 MW. *)
Example C43_case :
  offers_ok of_offers /\ agc_ok of_agc /\ initials_ok of_init /\ uigf_ok of_uigf /\ rates_ok of_init
  /\ caps_ok (unit_availability false of_offers of_uigf)
  /\ (exists v p, process_offers false of_offers of_prices of_agc of_init of_uigf = Ok (v, p)
        /\ ~ In ("S", "GENERATOR", "RAISE6SEC") (map offer_key v) /\ In ("S", "LOAD", "RAISE6SEC") (map offer_key v)
        /\ In ("S", "GENERATOR", "RAISEREG") (map offer_key v) /\ In ("W", "GENERATOR", "RAISE6SEC") (map offer_key v)
        /\ ~ In ("S", "GENERATOR", "RAISE6SEC") (map price_key p) /\ In ("S", "LOAD", "RAISE6SEC") (map price_key p)).
Proof.
  split; [exact of_offers_ok|]. split; [exact of_agc_ok|]. split; [exact of_initials|]. split; [exact of_uigf_ok|]. split; [exact of_rates|].
  split; [apply availability_ok, of_offers_ok|]. do 2 eexists. split; [vm_compute; reflexivity|]. vm_compute. intuition congruence.
Qed.
