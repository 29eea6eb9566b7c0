(** C85, C86: intervals dispatched one after the other. *)

From Coq Require Import QArith String List Bool.
Import ListNotations.
From Verif Require Import PandasModel TablesModel MarketModel ReportsModel SequenceModel FrameModel CallModel
  SpecLp SpecHistory SpecDispatch SpecRamp SpecChain Fixtures CheckFacts ChainFacts.
Open Scope string_scope.
Open Scope list_scope.

(** ** C85 *)

(** From one interval to the next a unit moves no further than its ramp rates allow. *)
Theorem C85_consecutive_intervals :
  forall rep pre a b post u d up down, chain rep (pre ++ a :: b :: post) ->
    (forall d', offers (sg_market a) u "energy" d' -> d' = d) -> ordinary u d b up down ->
    level u d a - down * c_interval (sg_config b) / 60 <= level u d b
    /\ level u d b <= level u d a + up * c_interval (sg_config b) / 60.
Proof. exact chain_between. Qed.
Print Assumptions C85_consecutive_intervals.

(** And over any number of intervals no further than the sum of these steps from
    where it started. *)
Theorem C85_whole_sequence :
  forall h up down l, (forall s, h s = c_interval (sg_config s)) -> forall rep u d q pre s post,
    chain rep l -> reported rep u d q -> (forall s, In s l -> ordinary u d s (up s) (down s)) -> l = pre ++ s :: post ->
    q - reach h down (pre ++ [s]) <= level u d s /\ level u d s <= q + reach h up (pre ++ [s]).
Proof. exact chain_overall. Qed.
Print Assumptions C85_whole_sequence.

(** Three intervals: the generator rises by its bid rate, then by its smaller SCADA
    rate, then falls; the load falls. *)
Definition ch_config : config :=
  Config ["NSW"] [UnitInfo "A" "NSW" "generator" 1; UnitInfo "L" "NSW" "load" 1] 5.
Definition ch_volumes : bid_table :=
  BidTable ["1"] [BidRow "A" "energy" "generator" (fun _ => 200); BidRow "L" "energy" "load" (fun _ => 50)].
Definition ch_rates : list (rate_row * option string) :=
  [(Rate "A" (Some 120) (Some 240), Some "generator"); (Rate "L" (Some 60) (Some 60), Some "load")].
Definition ch_ops (rep : list (ukey * Q)) (s : option scada_table) (demand : Q) : list op :=
  [OpVolumeBids ch_volumes; OpRamp (next_table rep ch_rates) s None "no_fast_start_units" None; OpDemand [Demand "NSW" demand] None].
Definition ch_stage (rep : list (ukey * Q)) (s : option scada_table) (demand a l : Q) : stage :=
  Stage ch_config (final ch_config (ch_ops rep s demand)) (values [a; l]) ch_rates s.
Definition ch_report (s : stage) : list (ukey * Q) :=
  match unit_dispatch (sg_market s) (sg_dispatch s) with Ok r => r | Err _ => [] end.
Definition ch_start : list (ukey * Q) := [(("A", "generator", "energy"), 80); (("L", "load", "energy"), 20)].
Definition ch_scada : option scada_table := Some (ScadaTable true false [Scada "A" (Some 60) None]).
Definition ch_one : stage := ch_stage ch_start None 75 90 15.
Definition ch_two : stage := ch_stage (ch_report ch_one) ch_scada 85 95 10.
Definition ch_three : stage := ch_stage (ch_report ch_two) None 65 75 10.
Definition ch_up (s : stage) : Q := match sg_scada s with Some _ => 60 | None => 120 end.
Lemma ch_ordinary s : In s [ch_one; ch_two; ch_three] -> ordinary "A" "generator" s (ch_up s) 240.
Proof.
  intros H. assert (E : sg_config s = ch_config /\ sg_rates s = ch_rates /\ rows_or_nil (m_bids (sg_market s)) = rows_or_nil (m_bids (sg_market ch_one))
    /\ (sg_scada s = None \/ sg_scada s = ch_scada)).
  { destruct H as [<-|[<-|[<-|[]]]]; vm_compute; auto. }
  destruct E as [E1 [E2 [E3 E4]]]. unfold ordinary. rewrite E1, E2. split; [decided|]. split; [decided|]. split.
  - intros d'. unfold offers. rewrite E3. vm_compute rows_or_nil. split.
    + intros [v [[<-|[<-|[]]] [Eu [_ Ed]]]]; [symmetry; exact Ed|discriminate].
    + intros ->. eexists. split; [now left|]. auto.
  - exists (Rate "A" (Some 120) (Some 240)), (Some "generator"), 120, 240. split; [now left|]. repeat (split; [reflexivity|]).
    unfold ch_up. destruct E4 as [-> | ->]; cbn; repeat split; try reflexivity; try (vm_compute; discriminate). right. reflexivity.
Qed.
Example C85_case :
  chain ch_start [ch_one; ch_two; ch_three] /\ reported ch_start "A" "generator" 80
  /\ (forall s, In s [ch_one; ch_two; ch_three] -> ordinary "A" "generator" s (ch_up s) 240)
  /\ level "A" "generator" ch_one == 80 + 10 /\ level "A" "generator" ch_two == 90 + 5
  /\ level "A" "generator" ch_three == 95 - 20.
Proof.
  split.
  { split; [split; [in_force_at 1%nat|solves]|]. exists (ch_report ch_one). split; [vm_compute; reflexivity|].
    split; [split; [in_force_at 1%nat|solves]|]. exists (ch_report ch_two). split; [vm_compute; reflexivity|].
    split; [split; [in_force_at 1%nat|solves]|]. exists (ch_report ch_three). split; [vm_compute; reflexivity|]. exact I. }
  split.
  { split; [intros d' x [E|[E|[]]]; inversion E; reflexivity|]. left. split; [now left|].
    intros x [E|[E|[]]]; inversion E. reflexivity. }
  split; [exact ch_ordinary|]. vm_compute. auto.
Qed.

(** ** C86 *)

(** A table of ramp rates without initial outputs gives ramp details with the column
    names unit and initial_output and those of the table.  Missing for the full
    claim: the table that [get_bid_ramp_rates] returns, for which it is false. *)
Theorem C86_names_partial :
  forall rates, ~ In "initial_output" rates -> In "unit" rates ->
    parameter_names rates = "unit" :: "initial_output" :: filter (fun n => negb (String.eqb n "unit")) rates.
Proof. exact fitting_names. Qed.
Print Assumptions C86_names_partial.
Example C86_names_case :
  let rates := ["unit"; "dispatch_type"; "ramp_up_rate"; "ramp_down_rate"] in
  ~ In "initial_output" rates /\ In "unit" rates
  /\ parameter_names rates = ["unit"; "initial_output"; "dispatch_type"; "ramp_up_rate"; "ramp_down_rate"].
Proof. cbn. split; [intuition discriminate|]. split; [now left|reflexivity]. Qed.

(** With the table of [get_bid_ramp_rates], as in the example time_sequential.py, every
    table with the resulting columns is refused by every market. *)
Theorem C86_bid_ramp_rates_refuted :
  In "initial_output" bid_ramp_names
  /\ forall f req m, names f = parameter_names bid_ramp_names -> validate (ramp_schema req m) f = Some EUnexpectedColumn.
Proof. split; [vm_compute; auto 10|intros f req m; apply clashing_names; vm_compute; auto 10]. Qed.
Print Assumptions C86_bid_ramp_rates_refuted.
Example C86_case :
  parameter_names bid_ramp_names
  = ["unit"; "initial_output_x"; "dispatch_type"; "ramp_down_rate"; "ramp_up_rate"; "initial_output_y"].
Proof. vm_compute. reflexivity. Qed.

(** What becomes of the initial outputs: the table has those of the last dispatch and those of
    the data under two other names, and none under the name that the market asks for. *)
Theorem C86_initial_output_twice_refuted :
  (forall rates, In "initial_output" rates ->
     In "initial_output_x" (parameter_names rates) /\ In "initial_output_y" (parameter_names rates)
     /\ ~ In "initial_output" (parameter_names rates))
  /\ In "initial_output" bid_ramp_names.
Proof. split; [exact both_names|vm_compute; auto 10]. Qed.
Print Assumptions C86_initial_output_twice_refuted.
