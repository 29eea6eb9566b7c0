(** C82: how dispatch answers to price bids. *)

From Coq Require Import QArith Qabs Lqa String List Bool Arith.
Import ListNotations.
From Verif Require Import PandasModel TablesModel MarketModel SolverModel DispatchModel
  SpecLp SpecHistory SpecDispatch SpecPricing SpecPrices SpecDual SpecSolver SpecSupply
  Fixtures CheckFacts CheckLpFacts CheckPricingFacts CheckDualFacts CheckDispatchFacts DualFacts DispatchFacts SupplyFacts PropDual PropDispatch.
Open Scope string_scope.
Open Scope list_scope.

(** The change of the least cost lies between what the new prices make of the new
    dispatch and of the old one. *)
Theorem C82_cost_change :
  forall c tv t t' m m' p p' x x', two_prices c tv t t' m m' -> assemble m = Ok p -> assemble m' = Ok p' ->
  optimal p x -> optimal p' x' -> repriced c m t t' x' <= objective p' x' - objective p x <= repriced c m t t' x.
Proof. exact cost_change. Qed.
Print Assumptions C82_cost_change.

(** A band that asks for more is not dispatched more; a load that pays more for energy
    is not served less. *)
Theorem C82_law_of_supply :
  forall c tv t t' m m' p p' x x' u s d b q q', two_prices c tv t t' m m' -> assemble m = Ok p -> assemble m' = Ok p' ->
  optimal p x -> optimal p' x' -> positive_factors c -> registered c u d ->
  same_elsewhere u s d b t t' -> offered t u s d b q -> offered t' u s d b q' -> q < q' ->
  if String.eqb s "energy" && String.eqb d "load" then band_dispatch m x u s d b <= band_dispatch m' x' u s d b
  else band_dispatch m' x' u s d b <= band_dispatch m x u s d b.
Proof. exact law_of_supply. Qed.
Print Assumptions C82_law_of_supply.

(** If no offer gets better, dispatch does not get cheaper. *)
Theorem C82_dearer_bids :
  forall c tv t t' m m' p p' x x', two_prices c tv t t' m m' -> assemble m = Ok p -> assemble m' = Ok p' ->
  optimal p x -> optimal p' x' -> positive_factors c -> same_bands t t' -> dearer t t' -> objective p x <= objective p' x'.
Proof. exact dearer_costs. Qed.
Print Assumptions C82_dearer_bids.

(** The law of supply for what dispatch records. *)
Theorem C82_recorded :
  forall c tv t t' m m' u s d b q q' sv a old new sv' a' old' new', two_prices c tv t t' m m' ->
  sound sv -> dispatch_market sv a m old = (new, None) -> sound sv' -> dispatch_market sv' a' m' old' = (new', None) ->
  positive_factors c -> registered c u d -> same_elsewhere u s d b t t' -> offered t u s d b q -> offered t' u s d b q' -> q < q' ->
  exists x x', d_value new = Some x /\ d_value new' = Some x'
    /\ if String.eqb s "energy" && String.eqb d "load" then band_dispatch m x u s d b <= band_dispatch m' x' u s d b
       else band_dispatch m' x' u s d b <= band_dispatch m x u s d b.
Proof. exact recorded_supply. Qed.
Print Assumptions C82_recorded.

(** A's second band asks for 54 instead of 36, which are 60 and 40 at the node: B's 20
    MW at 50 take the place of its 30, and the load, which pays 45, is not served. *)
Definition su_config : config :=
  Config ["NSW"] [UnitInfo "A" "NSW" "generator" (9#10); UnitInfo "B" "NSW" "generator" 1; UnitInfo "L" "NSW" "load" 1] 5.
Definition su_volumes : bid_table := BidTable ["1"; "2"]
  [BidRow "A" "energy" "generator" (fx_two 30 30); BidRow "B" "energy" "generator" (fx_two 80 0); BidRow "L" "energy" "load" (fx_two 20 0)].
Definition su_prices (a l : Q) : bid_table := BidTable ["1"; "2"]
  [BidRow "A" "energy" "generator" (fx_two 18 a); BidRow "B" "energy" "generator" (fx_two 50 300); BidRow "L" "energy" "load" (fx_two l 0)].
Definition su_after : list op := [OpDemand [Demand "NSW" 50] None; OpCapacity [Limit "B" "generator" 70] None].
Definition su_market (a l : Q) : market := final su_config ([OpVolumeBids su_volumes] ++ OpPriceBids (su_prices a l) :: su_after).
Definition su_problem (a l : Q) : problem := match assemble (su_market a l) with Ok p => p | Err _ => Problem [] [] [] [] [] end.
Definition su_one : problem := Eval vm_compute in su_problem 36 45.
Definition su_two : problem := Eval vm_compute in su_problem 54 45.
Definition su_three : problem := Eval vm_compute in su_problem 36 55.
Definition su_x1 : nat -> Q := values [30; 30; 0; 10].
Definition su_x2 : nat -> Q := values [30; 0; 20; 0].
Definition su_x3 : nat -> Q := values [30; 30; 10; 20].
Definition su_pi1 : nat -> Q := values [45; 0].
Definition su_pi2 : nat -> Q := values [50; 0].
Lemma su_shadow1 : shadow_prices su_one su_x1 su_pi1.
Proof. apply shadowb_ok; [vm_compute; reflexivity|]. unfold su_one, su_pi1, su_x1. no_cheaper. Qed.
Lemma su_shadow2 : shadow_prices su_two su_x2 su_pi2.
Proof. apply shadowb_ok; [vm_compute; reflexivity|]. unfold su_two, su_pi2, su_x2. no_cheaper. Qed.
Lemma su_shadow3 : shadow_prices su_three su_x3 su_pi2.
Proof. apply shadowb_ok; [vm_compute; reflexivity|]. unfold su_three, su_pi2, su_x3. no_cheaper. Qed.
Definition su_solver (p : problem) (x pi : nat -> Q) : solver := table_solver [(p, x)] [(p, (x, pi))] by_distance.
Lemma su_sound : forall p x pi, shadow_prices p x pi -> sound (su_solver p x pi).
Proof.
  intros p x pi S. apply table_sound; [exact by_distance_sorts| |].
  - intros q y [E|[]]. injection E as <- <-. exact (shadow_optimal _ _ _ S).
  - intros q y pi' [E|[]]. injection E as <- <- <-. exact S.
Qed.
Lemma su_two_prices : forall a l a' l', In (a, l) [(36, 45); (54, 45); (36, 55)] -> In (a', l') [(36, 45); (54, 45); (36, 55)] ->
  two_prices su_config su_volumes (su_prices a l) (su_prices a' l') (su_market a l) (su_market a' l').
Proof.
  intros a l a' l' H H'. exists (empty_market su_config), [], [], su_after. split; [vm_compute; reflexivity|]. cbv zeta.
  split; [apply saneb_ok; vm_compute; reflexivity|]. split; [vm_compute; reflexivity|].
  assert (Y : forall a l, snd (step (OpPriceBids (su_prices a l)) (run ([] ++ [OpVolumeBids su_volumes]) (empty_market su_config))) = None) by (intros; vm_compute; reflexivity).
  split; [apply Y|]. split; [apply Y|]. split; [intros o []|].
  split; [intros o [<-|[<-|[]]]; cbn; intuition discriminate|]. split; [intros o [<-|[<-|[]]]; cbn; intuition discriminate|].
  split; [intros o [<-|[<-|[]]]; cbn; intuition discriminate|]. split; reflexivity.
Qed.
Lemma su_elsewhere : forall a a' l, same_elsewhere "A" "energy" "generator" "2" (su_prices a l) (su_prices a' l).
Proof.
  assert (K : forall a a' l u s d b q, (u, s, d, b) <> ("A", "energy", "generator", "2") -> offered (su_prices a l) u s d b q -> offered (su_prices a' l) u s d b q).
  { intros a a' l u s d b q N [r [R [<- [<- [<- [B ->]]]]]]. destruct R as [<-|[<-|[<-|[]]]].
    - exists (BidRow "A" "energy" "generator" (fx_two 18 a')). split; [now left|]. repeat split; auto. destruct B as [<-|[<-|[]]]; [reflexivity|]. exfalso. now apply N.
    - eexists. split; [right; left; reflexivity|]. repeat split; auto.
    - eexists. split; [right; right; left; reflexivity|]. repeat split; auto. }
  intros a a' l u s d b q N. split; now apply K.
Qed.
Lemma su_elsewhere_load : forall a l l', same_elsewhere "L" "energy" "load" "1" (su_prices a l) (su_prices a l').
Proof.
  assert (K : forall a l l' u s d b q, (u, s, d, b) <> ("L", "energy", "load", "1") -> offered (su_prices a l) u s d b q -> offered (su_prices a l') u s d b q).
  { intros a l l' u s d b q N [r [R [<- [<- [<- [B ->]]]]]]. destruct R as [<-|[<-|[<-|[]]]].
    - eexists. split; [left; reflexivity|]. repeat split; auto.
    - eexists. split; [right; left; reflexivity|]. repeat split; auto.
    - exists (BidRow "L" "energy" "load" (fx_two l' 0)). split; [right; right; now left|]. repeat split; auto. destruct B as [<-|[<-|[]]]; [|reflexivity]. exfalso. now apply N. }
  intros a l l' u s d b q N. split; now apply K.
Qed.
Example C82_case :
  two_prices su_config su_volumes (su_prices 36 45) (su_prices 54 45) (su_market 36 45) (su_market 54 45)
  /\ assemble (su_market 36 45) = Ok su_one /\ assemble (su_market 54 45) = Ok su_two /\ optimal su_one su_x1 /\ optimal su_two su_x2
  /\ positive_factors su_config /\ registered su_config "A" "generator"
  /\ same_elsewhere "A" "energy" "generator" "2" (su_prices 36 45) (su_prices 54 45)
  /\ offered (su_prices 36 45) "A" "energy" "generator" "2" 36 /\ offered (su_prices 54 45) "A" "energy" "generator" "2" 54
  /\ same_bands (su_prices 36 45) (su_prices 54 45) /\ dearer (su_prices 36 45) (su_prices 54 45)
  /\ (exists new, dispatch_market (su_solver su_one su_x1 su_pi1) no_limits (su_market 36 45) nothing = (new, None))
  /\ (exists new, dispatch_market (su_solver su_two su_x2 su_pi2) no_limits (su_market 54 45) nothing = (new, None))
  /\ sound (su_solver su_one su_x1 su_pi1) /\ sound (su_solver su_two su_x2 su_pi2)
  /\ band_dispatch (su_market 36 45) su_x1 "A" "energy" "generator" "2" == 30 /\ band_dispatch (su_market 54 45) su_x2 "A" "energy" "generator" "2" == 0
  /\ repriced su_config (su_market 36 45) (su_prices 36 45) (su_prices 54 45) su_x2 == 0
  /\ objective su_two su_x2 - objective su_one su_x1 == 250
  /\ repriced su_config (su_market 36 45) (su_prices 36 45) (su_prices 54 45) su_x1 == 600.
Proof.
  split; [apply su_two_prices; cbn; auto|]. split; [vm_compute; reflexivity|]. split; [vm_compute; reflexivity|].
  split; [exact (shadow_optimal _ _ _ su_shadow1)|]. split; [exact (shadow_optimal _ _ _ su_shadow2)|].
  split; [intros ui [<-|[<-|[<-|[]]]]; reflexivity|]. split; [eexists; split; [left; reflexivity|auto]|]. split; [apply su_elsewhere|].
  split; [eexists; split; [left; reflexivity|]; cbn; auto 10|]. split; [eexists; split; [left; reflexivity|]; cbn; auto 10|].
  split; [|split].
  - intros u s d b. split; intros [q [r [R [<- [<- [<- [B _]]]]]]]; (destruct R as [<-|[<-|[<-|[]]]]; eexists; eexists;
      [split; [left; reflexivity|]|split; [right; left; reflexivity|]|split; [right; right; left; reflexivity|]]; auto 10).
  - intros u s d b q q' [r [R [<- [<- [<- [B ->]]]]]] [r' [R' [E1 [E2 [E3 [_ ->]]]]]].
    destruct R as [<-|[<-|[<-|[]]]]; destruct R' as [<-|[<-|[<-|[]]]]; try discriminate; destruct B as [<-|[<-|[]]]; vm_compute; discriminate.
  - split; [eexists; vm_compute; reflexivity|]. split; [eexists; vm_compute; reflexivity|].
    split; [apply su_sound; exact su_shadow1|]. split; [apply su_sound; exact su_shadow2|]. repeat split; vm_compute; reflexivity.
Qed.

(** The load pays 55 instead of 45 and is served 20 MW instead of 10. *)
Example C82_load_case :
  two_prices su_config su_volumes (su_prices 36 45) (su_prices 36 55) (su_market 36 45) (su_market 36 55)
  /\ assemble (su_market 36 55) = Ok su_three /\ optimal su_three su_x3 /\ registered su_config "L" "load"
  /\ same_elsewhere "L" "energy" "load" "1" (su_prices 36 45) (su_prices 36 55)
  /\ offered (su_prices 36 45) "L" "energy" "load" "1" 45 /\ offered (su_prices 36 55) "L" "energy" "load" "1" 55
  /\ band_dispatch (su_market 36 45) su_x1 "L" "energy" "load" "1" == 10 /\ band_dispatch (su_market 36 55) su_x3 "L" "energy" "load" "1" == 20.
Proof.
  split; [apply su_two_prices; cbn; auto|]. split; [vm_compute; reflexivity|]. split; [exact (shadow_optimal _ _ _ su_shadow3)|].
  split; [eexists; split; [right; right; left; reflexivity|auto]|]. split; [apply su_elsewhere_load|].
  split; [eexists; split; [right; right; left; reflexivity|]; cbn; auto 10|]. split; [eexists; split; [right; right; left; reflexivity|]; cbn; auto 10|].
  split; vm_compute; reflexivity.
Qed.
