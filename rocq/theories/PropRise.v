(** C92: price bids that do not rise with the band. *)

From Coq Require Import QArith ZArith Lqa String List Bool Lia.
Import ListNotations.
From Verif Require Import PandasModel TablesModel MarketModel SolverModel FrameModel CallModel SpecFrame SpecCalls SpecTables SpecLp SpecHistory SpecDispatch
  SpecPrices SpecRise Fixtures FrameFacts CheckFacts CheckLpFacts RiseFacts PropPrices PropCalls.
Open Scope string_scope.
Open Scope list_scope.

(** With prices that rise, the bands of a unit are used in their order, those of the
    energy of a load in the opposite order.  Missing: that other prices are refused. *)
Theorem C92_rising_bands_in_order_partial :
  forall c tv tp m p x u s d b b' ui v v' q q',
    priced c tv tp m -> untied m -> assemble m = Ok p -> optimal p x -> rising tp u s d -> earlier b b' ->
    offered tv u s d b v -> offered tv u s d b' v' -> 1#10000 <= v -> 1#10000 <= v' ->
    offered tp u s d b q -> offered tp u s d b' q' ->
    In ui (c_ui c) -> ui_unit ui = u -> ui_dt ui = d -> (s = "energy" -> 0 < ui_lf ui) ->
    if String.eqb s "energy" && String.eqb d "load"
    then 0 < band_dispatch m x u s d b -> band_dispatch m x u s d b' == v'
    else 0 < band_dispatch m x u s d b' -> band_dispatch m x u s d b == v.
Proof. exact rising_in_order. Qed.
Print Assumptions C92_rising_bands_in_order_partial.

(** The market of C21: the generator's first band is full when its second is used. *)
Lemma ri_earlier : earlier "1" "2".
Proof. exists 0%nat, 1%nat. repeat split; constructor. Qed.
Lemma ri_rising : rising po_prices "A" "energy" "generator".
Proof.
  assert (F : forall i, nth_error band_order i = Some "1" -> i = 0%nat) by (intros i H; do 11 (destruct i as [|i]; [first [reflexivity|discriminate H]|]); destruct i; discriminate H).
  assert (S : forall i, nth_error band_order i = Some "2" -> i = 1%nat) by (intros i H; do 11 (destruct i as [|i]; [first [reflexivity|discriminate H]|]); destruct i; discriminate H).
  intros b b' q q' [i [j [L [Hi Hj]]]] [r [H [U [_ [_ [B ->]]]]]] [r' [H' [U' [_ [_ [B' ->]]]]]].
  destruct H as [<-|[<-|[]]]; [|discriminate U]. destruct H' as [<-|[<-|[]]]; [|discriminate U'].
  destruct B as [<-|[<-|[]]], B' as [<-|[<-|[]]]; try reflexivity; exfalso;
    first [apply F in Hi|apply S in Hi]; first [apply F in Hj|apply S in Hj]; lia.
Qed.
Example C92_case :
  priced po_config po_volumes po_prices po_market /\ untied po_market /\ assemble po_market = Ok po_problem /\ optimal po_problem po_x
  /\ rising po_prices "A" "energy" "generator" /\ earlier "1" "2"
  /\ offered po_volumes "A" "energy" "generator" "1" 40 /\ offered po_volumes "A" "energy" "generator" "2" 40
  /\ offered po_prices "A" "energy" "generator" "1" 36 /\ offered po_prices "A" "energy" "generator" "2" 45
  /\ 0 < band_dispatch po_market po_x "A" "energy" "generator" "2".
Proof.
  split; [exact po_priced|]. split; [reflexivity|]. split; [exact po_assemble|]. split; [exact po_optimal|].
  split; [exact ri_rising|]. split; [exact ri_earlier|].
  split; [exists (BidRow "A" "energy" "generator" (fx_two 40 40)); cbn; auto 10|].
  split; [exists (BidRow "A" "energy" "generator" (fx_two 40 40)); cbn; auto 10|].
  split; [exists (BidRow "A" "energy" "generator" (fx_two 36 45)); cbn; auto 10|].
  split; [exists (BidRow "A" "energy" "generator" (fx_two 36 45)); cbn; auto 10|].
  vm_compute. reflexivity.
Qed.

(** Whether a table is accepted does not depend on its prices. *)
Theorem C92_prices_never_refused :
  forall req m f f' m1 back, is_table f -> repriced f f' -> call req (FPriceBids f) m = Some (m1, None, back) ->
  exists m2 back2, call req (FPriceBids f') m = Some (m2, None, back2).
Proof. exact repriced_accepted. Qed.
Print Assumptions C92_prices_never_refused.

(** So every market that takes prices for two bands takes falling ones. *)
Theorem C92_falling_accepted_everywhere :
  forall req m f m1 back, is_table f -> call req (FPriceBids f) m = Some (m1, None, back) -> In "2" (names f) -> fm_rows f <> 0%nat ->
  exists f' m2 back2, repriced f f' /\ falls f' /\ call req (FPriceBids f') m = Some (m2, None, back2).
Proof. exact falling_accepted. Qed.
Print Assumptions C92_falling_accepted_everywhere.

Definition ri_market : market := cx_after (FVolumeBids cx_volumes) cx_start.
Definition ri_prices : frame := Frame 2 [cx_text "unit" ["A"; "B"]; cx_nums "1" [60; 90]; cx_nums "2" [40; 50]].
Example C92_met :
  is_table cx_prices /\ repriced cx_prices ri_prices /\ In "2" (names cx_prices) /\ fm_rows cx_prices <> 0%nat
  /\ exists m1 back, call false (FPriceBids cx_prices) ri_market = Some (m1, None, back).
Proof.
  split; [a_table|]. split.
  - split; [reflexivity|]. apply Forall2_cons; [left; reflexivity|]. apply Forall2_cons; [|apply Forall2_cons; [|apply Forall2_nil]]; right;
      [exists [60; 90]|exists [40; 50]]; (split; [cbn; tauto|split; reflexivity]).
  - split; [right; right; now left|]. split; [discriminate|]. do 2 eexists. vm_compute. reflexivity.
Qed.

(** The full statement is false: a table whose prices fall is accepted, and then a unit
    runs its second band and leaves its first one out. *)
Definition ri_final : market := cx_after (FDemand (cx_demand 60) None) (cx_after (FPriceBids ri_prices) ri_market).
Definition ri_problem : problem :=
  Eval vm_compute in match assemble ri_final with Ok p => p | Err _ => Problem [] [] [] [] [] end.
Lemma ri_assemble : assemble ri_final = Ok ri_problem.
Proof. vm_compute. reflexivity. Qed.
(** A 1, A 2, B 1, B 2 *)
Definition ri_x : nat -> Q := values [20; 30; 0; 10].
Lemma ri_optimal : optimal ri_problem ri_x.
Proof.
  split.
  - assert (S : solution ri_final ri_x) by solves. destruct S as [p [A F]]. rewrite ri_assemble in A. now inversion A; subst.
  - unfold ri_problem, ri_x. no_better.
Qed.
Theorem C92_refuted : exists req m f m1 back m2 back2 p x,
  is_table f /\ falls f /\ call req (FPriceBids f) m = Some (m1, None, back)
  /\ call req (FDemand (cx_demand 60) None) m1 = Some (m2, None, back2) /\ assemble m2 = Ok p /\ optimal p x
  /\ band_dispatch m2 x "B" "energy" "generator" "1" == 0 /\ band_dispatch m2 x "B" "energy" "generator" "2" == 10.
Proof.
  exists false, ri_market, ri_prices, (cx_after (FPriceBids ri_prices) ri_market). eexists. exists ri_final. eexists. exists ri_problem, ri_x.
  split; [a_table|]. split.
  - exists 0%nat, "1", "2", 60, 40. split; [exact ri_earlier|]. split; [|split; [|reflexivity]].
    + exists (cx_nums "1" [60; 90]). split; [right; now left|split; reflexivity].
    + exists (cx_nums "2" [40; 50]). split; [right; right; now left|split; reflexivity].
  - split; [vm_compute; reflexivity|]. split; [vm_compute; reflexivity|]. split; [exact ri_assemble|]. split; [exact ri_optimal|].
    split; vm_compute; reflexivity.
Qed.
Print Assumptions C92_refuted.
