(** C05: dispatch stays inside the offered volumes. *)

From Coq Require Import QArith String List Bool.
Import ListNotations.
From Verif Require Import PandasModel TablesModel MarketModel SpecLp SpecHistory SpecDispatch
  Fixtures CheckFacts LimitFacts BidFacts PropLimits.
Open Scope string_scope.
Open Scope list_scope.

Theorem C05_dispatch_within_bids :
  forall c t m x, in_force c (OpVolumeBids t) m -> solution m x ->
    (forall r b, In r (bt_rows t) -> In b (bt_bands t) ->
       let q := band_dispatch m x (br_unit r) (br_service r) (br_dt r) b in
       0 <= q /\ q <= br_val r b /\ (br_val r b < 1#10000 -> q == 0))
    /\ (forall r, In r (bt_rows t) ->
       let q := dispatch m x (br_unit r) (br_service r) (br_dt r) in
       0 <= q /\ q <= qsum (map (br_val r) (bt_bands t))
       /\ q == qsum (map (band_dispatch m x (br_unit r) (br_service r) (br_dt r)) (bt_bands t)))
    /\ (forall u s d, (forall r, In r (bt_rows t) -> ~ (br_unit r = u /\ br_service r = s /\ br_dt r = d)) ->
       dispatch m x u s d == 0).
Proof. exact volumes_respected. Qed.
Print Assumptions C05_dispatch_within_bids.

Example C05_case :
  in_force gx_config (OpVolumeBids gx_volumes) gx_market /\ solution gx_market gx_x
  /\ In (BidRow "B" "energy" "generator" (fx_two 60 60)) (bt_rows gx_volumes) /\ In "2" (bt_bands gx_volumes)
  /\ band_dispatch gx_market gx_x "B" "energy" "generator" "2" == 197#16
  /\ dispatch gx_market gx_x "B" "energy" "generator" == 1157#16.
Proof. split; [in_force_at 0%nat|]. split; [exact gx_solution|]. all_decided. Qed.

(** A market reached by any history of calls never dispatches less than nothing. *)
Theorem C05_dispatch_not_negative :
  forall c m x u s d, reached c m -> solution m x -> 0 <= dispatch m x u s d.
Proof. exact dispatch_nonneg. Qed.
Print Assumptions C05_dispatch_not_negative.

Example C05_negative_case :
  reached gx_config gx_market /\ solution gx_market gx_x
  /\ dispatch gx_market gx_x "L" "energy" "load" == 20.
Proof.
  split; [|split; [exact gx_solution|decided]].
  apply (in_force_reached gx_config (OpVolumeBids gx_volumes)). in_force_at 0%nat.
Qed.
