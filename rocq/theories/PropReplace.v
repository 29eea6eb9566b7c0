(** C25, C26: setting constraints again and removing them. *)

From Coq Require Import QArith String List Bool Lqa Arith.
Import ListNotations.
From Verif Require Import PandasModel TablesModel MarketModel SolverModel SpecLp SpecHistory SpecElastic SpecReplace
  Fixtures SolverFacts CheckFacts ReplaceFacts RemoveFacts.
Open Scope string_scope.
Open Scope list_scope.

Lemma reachedb c ops : match new_market c with Ok m0 => saneb ops m0 | Err _ => false end = true -> reached c (final c ops).
Proof.
  unfold reached, final. destruct (new_market c) as [m0|]; [|discriminate]. intros H.
  exists m0, ops. split; [reflexivity|]. split; [now apply saneb_ok|reflexivity].
Qed.
Ltac is_reached := apply reachedb; vm_compute; reflexivity.

(** ** C25 *)

(** The second call replaces the first one if it sets again, on its own, the
    groups and the violation variables that the first one sets.  Missing for the
    full statement: calls that do not set these again, see the refutations below,
    and the methods for volume bids, interconnectors and losses. *)
Theorem C25_second_call_replaces_partial :
  forall c m o1 o2, reached c m -> same_method o1 o2 -> sane_op o1 m -> sane_op o2 m ->
    snd (step o1 m) = None -> snd (step o2 m) = None -> covers o2 o1 m ->
    snd (step o2 (fst (step o1 m))) = None /\ same_dispatch (run [o1; o2] m) (run [o2] m).
Proof. exact second_replaces. Qed.
Print Assumptions C25_second_call_replaces_partial.

(** For the methods that set one group it is enough that the first call was not
    elastic or that the second one has a numerical violation cost. *)
Theorem C25_one_group_replaced_partial :
  forall c m o1 o2, reached c m -> same_method o1 o2 -> one_group o1 -> sane_op o1 m -> sane_op o2 m ->
    snd (step o1 m) = None -> snd (step o2 m) = None ->
    cost_arg o1 = None \/ (exists q, cost_arg o2 = Some (VNum q)) ->
    snd (step o2 (fst (step o1 m))) = None /\ same_dispatch (run [o1; o2] m) (run [o2] m).
Proof. exact one_group_replaces. Qed.
Print Assumptions C25_one_group_replaced_partial.

(** Prices and links of generic constraints: nothing of the first call is left,
    whether it was accepted or not. *)
Theorem C25_tables_overwritten_partial :
  forall o1 o2 m, overwrites o1 o2 -> snd (step o2 m) = None -> step o2 (fst (step o1 m)) = step o2 m.
Proof. exact overwriting. Qed.
Print Assumptions C25_tables_overwritten_partial.

Definition rp_market : market := final gx_config gx_ops.
Definition rp_bids : market := final gx_config (firstn 2 gx_ops).

(** Ramp rates set a second time, on a market with all kinds of constraints. *)
Definition rp_ramp (q : Q) : op := OpRamp gx_ramp (Some gx_scada) None "no_fast_start_units" (Some (VNum q)).
Example C25_case :
  reached gx_config rp_market /\ same_method (rp_ramp 100) (rp_ramp 200) /\ sane_op (rp_ramp 100) rp_market
  /\ snd (step (rp_ramp 100) rp_market) = None /\ snd (step (rp_ramp 200) rp_market) = None
  /\ covers (rp_ramp 200) (rp_ramp 100) rp_market
  /\ (exists p, assemble (run [rp_ramp 200] rp_market) = Ok p /\ (20 < length (p_cons p))%nat)
  /\ assemble (run [rp_ramp 100; rp_ramp 200] rp_market) <> assemble (run [rp_ramp 200] rp_market).
Proof.
  split; [is_reached|]. split; [exact I|]. split; [exact I|]. split; [vm_compute; reflexivity|]. split; [vm_compute; reflexivity|].
  split; [|split].
  - intros k Hk. cbn in Hk. destruct Hk as [<-|[<-|[<-|[<-|[]]]]]; (split; [intros _; vm_compute; discriminate|]); vm_compute; congruence.
  - eexists. split; [vm_compute; reflexivity|]. vm_compute. repeat constructor.
  - vm_compute. discriminate.
Qed.

Example C25_one_group_case :
  let o1 := OpCapacity [Limit "A" "generator" 100] (Some (VNum 50)) in
  let o2 := OpCapacity [Limit "A" "generator" 80; Limit "B" "generator" 30] (Some (VNum 70)) in
  reached gx_config rp_market /\ same_method o1 o2 /\ one_group o1 /\ sane_op o1 rp_market /\ sane_op o2 rp_market
  /\ snd (step o1 rp_market) = None /\ snd (step o2 rp_market) = None
  /\ (exists q, cost_arg o2 = Some (VNum q))
  /\ exists p, assemble (run [o1; o2] rp_market) = Ok p /\ (20 < length (p_cons p))%nat.
Proof.
  cbv zeta. split; [is_reached|]. split; [exact I|]. split; [exact I|]. split; [exact I|]. split; [exact I|].
  split; [vm_compute; reflexivity|]. split; [vm_compute; reflexivity|]. split; [exists 70; reflexivity|].
  eexists. split; [vm_compute; reflexivity|]. vm_compute. repeat constructor.
Qed.

Example C25_overwritten_case :
  let o1 := OpLinkUnits [GUnit "G1" "B" "energy" 7] in let o2 := OpLinkUnits [GUnit "G1" "A" "energy" 3] in
  overwrites o1 o2 /\ snd (step o2 rp_market) = None /\ snd (step o1 rp_market) = None
  /\ assemble (fst (step o1 rp_market)) <> assemble (fst (step o2 rp_market)).
Proof.
  cbv zeta. split; [exact I|]. split; [vm_compute; reflexivity|]. split; [vm_compute; reflexivity|]. vm_compute. discriminate.
Qed.

(** A small market: unit F must serve a demand of 10. *)
Definition rp_config : config := Config ["NSW"] [UnitInfo "F" "NSW" "generator" 1] 5.
Definition rp_ops : list op :=
  [OpVolumeBids (BidTable ["1"] [BidRow "F" "energy" "generator" (fun _ => 20)]);
   OpPriceBids (BidTable ["1"] [BidRow "F" "energy" "generator" (fun _ => 7)]);
   OpDemand [Demand "NSW" 10] None].
Definition rp_small : market := final rp_config rp_ops.

(** A call with a violation cost followed by one without: the rows of the first
    call's violation variables stay and no constraint carries their ids any more,
    so the market cannot be dispatched. *)
Theorem C25_elastic_first_refuted :
  exists c m o1 o2 p, reached c m /\ same_method o1 o2 /\ snd (step o1 m) = None /\ snd (step o2 m) = None
    /\ snd (step o2 (fst (step o1 m))) = None
    /\ assemble (run [o2] m) = Ok p /\ assemble (run [o1; o2] m) = Err EKey.
Proof.
  exists rp_config, rp_small, (OpCapacity [Limit "F" "generator" 15] (Some (VNum 100))), (OpCapacity [Limit "F" "generator" 12] None).
  eexists. split; [is_reached|]. split; [exact I|]. split; [vm_compute; reflexivity|]. split; [vm_compute; reflexivity|]. split; [vm_compute; reflexivity|]. split; [vm_compute; reflexivity|]. vm_compute; reflexivity.
Qed.
Print Assumptions C25_elastic_first_refuted.

(** From a solution to one of its rows. *)
Lemma solution_row m p c x : assemble m = Ok p -> In c (p_cons p) -> solution m x -> con_holds x c.
Proof.
  intros A H [p' [A' F]]. rewrite A in A'. inversion A'; subst. destruct F as [_ [F _]]. now apply F.
Qed.

(** A second ramp rate table without bidirectional units leaves the bidirectional
    ramp constraints of the first one in force. *)
Definition rp_two : config :=
  Config ["VIC"] [UnitInfo "B" "VIC" "generator" 1; UnitInfo "S" "VIC" "generator" 1; UnitInfo "S" "VIC" "load" 1] 5.
Definition rp_two_market : market := final rp_two
  [OpVolumeBids (BidTable ["1"] [BidRow "B" "energy" "generator" (fun _ => 50); BidRow "S" "energy" "generator" (fun _ => 30);
                                 BidRow "S" "energy" "load" (fun _ => 30)]);
   OpDemand [Demand "VIC" 30] None].
Definition rp_ramps (l : list ramp_row) : op :=
  OpRamp (RampTable false false (map (fun r => RampIn r None None) l)) None None "no_fast_start_units" None.
Theorem C25_stale_ramp_rates_refuted :
  exists c m o1 o2 x, reached c m /\ same_method o1 o2 /\ snd (step o1 m) = None /\ snd (step o2 m) = None
    /\ solution (run [o2] m) x
    /\ forall y, solution (run [o1; o2] m) y -> ~ forall i, In i (market_vars m) -> y i == x i.
Proof.
  exists rp_two, rp_two_market, (rp_ramps [Ramp "B" "generator" 0 600 600; Ramp "S" "generator" 0 12 12; Ramp "S" "load" 0 12 12]),
    (rp_ramps [Ramp "B" "generator" 0 600 600]), (values [0; 30; 0]).
  split; [is_reached|]. split; [exact I|]. split; [vm_compute; reflexivity|]. split; [vm_compute; reflexivity|].
  split; [solves|]. intros y Y Q.
  assert (A1 := Q 1%nat ltac:(vm_compute; auto)). assert (A2 := Q 2%nat ltac:(vm_compute; auto)).
  eapply solution_row in Y; [|vm_compute; reflexivity|cbn; right; left; reflexivity].
  revert Y. cbv [con_holds relation linear pc_type pc_terms pc_rhs rhs_value]. cbn in A1, A2 |- *. intros Y.
  destruct Y as [[_ Y]|[[E _]|[E _]]]; [lra|discriminate E|discriminate E].
Qed.
Print Assumptions C25_stale_ramp_rates_refuted.

(** A second fast start table whose units are all past their profile leaves the
    constraints of the first one in force: here the market has no dispatch at all
    although the second call alone leaves the unit free. *)
Theorem C25_stale_fast_start_refuted :
  exists c m o1 o2 x, reached c m /\ same_method o1 o2 /\ snd (step o1 m) = None /\ snd (step o2 m) = None
    /\ solution (run [o2] m) x
    /\ forall y, ~ solution (run [o1; o2] m) y.
Proof.
  exists rp_config, rp_small, (OpFastStart [Fs "F" 1 2 5 5 10] None), (OpFastStart [Fs "F" 5 0 5 5 10] None), (values [10]).
  split; [is_reached|]. split; [exact I|]. split; [vm_compute; reflexivity|]. split; [vm_compute; reflexivity|].
  split; [solves|]. intros y Y. pose proof Y as Y'.
  eapply solution_row in Y; [|vm_compute; reflexivity|cbn; left; reflexivity].
  eapply solution_row in Y'; [|vm_compute; reflexivity|cbn; right; left; reflexivity].
  revert Y Y'. cbv [con_holds relation linear pc_type pc_terms pc_rhs rhs_value]. intros Y Y'.
  destruct Y as [[E Y]|[[E Y]|[E Y]]]; try discriminate E; destruct Y' as [[E' Y']|[[E' Y']|[E' Y']]]; try discriminate E'; lra.
Qed.
Print Assumptions C25_stale_fast_start_refuted.

(** Volume bids set again after prices: the costs of the first call's variables
    stay.  Interconnectors set again after losses: the rows of the first call's
    variables stay.  Neither market can be dispatched. *)
Theorem C25_other_methods_refuted :
  (exists c m o p, reached c m /\ (exists t, o = OpVolumeBids t) /\ snd (step o m) = None
    /\ assemble m = Ok p /\ assemble (run [o] m) = Err EKey)
  /\ (exists c m o p, reached c m /\ (exists l, o = OpInterconnectors l) /\ snd (step o m) = None
    /\ assemble m = Ok p /\ assemble (run [o] m) = Err EKey).
Proof.
  split.
  - exists rp_config, rp_small, (OpVolumeBids (BidTable ["1"] [BidRow "F" "energy" "generator" (fun _ => 20)])).
    eexists. split; [is_reached|]. split; [eexists; reflexivity|]. split; [vm_compute; reflexivity|]. split; [vm_compute; reflexivity|]. vm_compute; reflexivity.
  - exists gx_config, rp_market, (OpInterconnectors gx_inter).
    eexists. split; [is_reached|]. split; [eexists; reflexivity|]. split; [vm_compute; reflexivity|]. split; [vm_compute; reflexivity|]. vm_compute; reflexivity.
Qed.
Print Assumptions C25_other_methods_refuted.

(** ** C26 *)

(** Whatever was done about fast start constraints, elastic or not, accepted or
    rejected: once they are removed the tables are those of the market before,
    but for the counters of the next ids, and the linear program is the same. *)
Theorem C26_removal_undoes :
  forall c m ops, reached c m -> group m "fast_start" = None -> Forall only_fast_start ops ->
    exists a b, run (ops ++ [OpRemoveFastStart]) m = set_m_nv a (set_m_nc b m)
      /\ snd (step OpRemoveFastStart (run ops m)) = None.
Proof. exact removal_undoes. Qed.
Print Assumptions C26_removal_undoes.

Theorem C26_removal_restores :
  forall c m ops, reached c m -> group m "fast_start" = None -> Forall only_fast_start ops ->
    assemble (run (ops ++ [OpRemoveFastStart]) m) = assemble m.
Proof. exact removal_restores. Qed.
Print Assumptions C26_removal_restores.

Theorem C26_removal_of_nothing :
  forall c m, reached c m -> group m "fast_start" = None -> step OpRemoveFastStart m = (m, None).
Proof. exact removal_of_nothing. Qed.
Print Assumptions C26_removal_of_nothing.

(** On any market: no fast start constraint and no violation variable of one is
    left, the other groups and their violation variables stay. *)
Theorem C26_removal_clears :
  forall c m, reached c m -> group (fst (step OpRemoveFastStart m)) "fast_start" = None
    /\ violation_vars (fst (step OpRemoveFastStart m)) "fast_start" = []
    /\ forall k, k <> "fast_start" -> group (fst (step OpRemoveFastStart m)) k = group m k
       /\ violation_vars (fst (step OpRemoveFastStart m)) k = violation_vars m k.
Proof. exact removal_clears. Qed.
Print Assumptions C26_removal_clears.

(** Constraints made elastic twice on a market with the other kinds of constraints. *)
Definition rm_ops : list op := filter (fun o => match o with OpFastStart _ _ => false | _ => true end) gx_ops.
Definition rm_market : market := final gx_config rm_ops.
Definition rm_calls : list op := [OpFastStart gx_profile (Some (VNum 100)); OpElastic "fast_start" (VNum 50)].
Example C26_case :
  reached gx_config rm_market /\ group rm_market "fast_start" = None /\ Forall only_fast_start rm_calls
  /\ snd (step (OpFastStart gx_profile (Some (VNum 100))) rm_market) = None
  /\ violation_vars (run rm_calls rm_market) "fast_start" <> []
  /\ (exists p, assemble rm_market = Ok p)
  /\ assemble (run rm_calls rm_market) <> assemble rm_market.
Proof.
  split; [is_reached|]. split; [vm_compute; reflexivity|]. split; [repeat constructor|]. split; [vm_compute; reflexivity|].
  split; [vm_compute; discriminate|]. split; [eexists; vm_compute; reflexivity|]. vm_compute. discriminate.
Qed.
