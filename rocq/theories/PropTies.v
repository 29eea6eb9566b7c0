(** C33: tie-break constraints. *)

From Coq Require Import QArith String List Bool Lqa Arith.
Import ListNotations.
From Verif Require Import PandasModel TablesModel MarketModel SolverModel SpecLp SpecHistory SpecPrices SpecElastic SpecTies
  Fixtures CheckFacts CheckLpFacts TieFacts.
Open Scope string_scope.
Open Scope list_scope.

(** Every constraint of the group is for one pair of tied bids and, for bids with a
    positive volume, makes their dispatch proportional; every label of a tied pair
    has exactly one constraint. *)
Theorem C33_tied_pairs :
  forall c k tv tp m' m, priced c tv tp m' -> in_force_at c (OpTieBreak k) m' m ->
    exists pairs, tie_list c tp m' m pairs.
Proof. exact tie_break_pairs. Qed.
Print Assumptions C33_tied_pairs.

(** Exactly one constraint for each tied pair, whichever bid is named first.
    Missing: pairs of which the sorted names run together to the same text. *)
Theorem C33_one_each_partial :
  forall c k tv tp m' m, priced c tv tp m' -> in_force_at c (OpTieBreak k) m' m -> clear_labels c tp m' ->
    exists pairs, tie_list c tp m' m pairs
      /\ forall v w, tied c tp m' v w -> exists! i, In (i, (v, w)) pairs \/ In (i, (w, v)) pairs.
Proof. exact tie_break_each. Qed.
Print Assumptions C33_one_each_partial.

(** Three units that offer energy at 20 at the reference node of NSW; a fourth
    unit offers it at 20 in another region. *)
Definition tb_config : config :=
  Config ["NSW"; "VIC"] [UnitInfo "A" "NSW" "generator" (19#20); UnitInfo "B" "NSW" "generator" 1;
                         UnitInfo "D" "NSW" "generator" 1; UnitInfo "E" "VIC" "generator" 1] 5.
Definition tb_volumes : bid_table := BidTable ["1"]
  [BidRow "A" "energy" "generator" (fun _ => 100); BidRow "B" "energy" "generator" (fun _ => 50);
   BidRow "D" "energy" "generator" (fun _ => 30); BidRow "E" "energy" "generator" (fun _ => 10)].
Definition tb_prices : bid_table := BidTable ["1"]
  [BidRow "A" "energy" "generator" (fun _ => 19); BidRow "B" "energy" "generator" (fun _ => 20);
   BidRow "D" "energy" "generator" (fun _ => 20); BidRow "E" "energy" "generator" (fun _ => 20)].
Definition tb_demand : op := OpDemand [Demand "NSW" 90; Demand "VIC" 7] None.
Definition tb_ops : list op := [OpVolumeBids tb_volumes; OpPriceBids tb_prices; tb_demand; OpTieBreak (VNum 1)].
Definition tb_before : market := final tb_config (firstn 3 tb_ops).
Definition tb_market : market := final tb_config tb_ops.
Definition tb_x : nat -> Q := values [50; 25; 15; 7].

Lemma tb_priced : priced tb_config tb_volumes tb_prices tb_before.
Proof. apply (pricedb_ok tb_config [] [] [tb_demand]). vm_compute. reflexivity. Qed.

Lemma tb_bids : rows_or_nil (m_bids tb_before) =
  [BidVar "A" "1" "energy" "generator" 0 0 100; BidVar "B" "1" "energy" "generator" 1 0 50;
   BidVar "D" "1" "energy" "generator" 2 0 30; BidVar "E" "1" "energy" "generator" 3 0 10].
Proof. vm_compute. reflexivity. Qed.

Lemma tb_violations : violation_vars tb_market "tie_break" = [4; 5; 6; 7; 8; 9]%nat.
Proof. vm_compute. reflexivity. Qed.

Lemma tb_clear : clear_labels tb_config tb_prices tb_before.
Proof.
  intros v w v' w' [N [_ [q [r [[Hv _] [Hw _]]]]]] [N' [_ [q' [r' [[Hv' _] [Hw' _]]]]]] E.
  rewrite tb_bids in *. cbn [In] in Hv, Hw, Hv', Hw'.
  destruct Hv as [<-|[<-|[<-|[<-|[]]]]], Hw as [<-|[<-|[<-|[<-|[]]]]]; cbn in N; try congruence;
  destruct Hv' as [<-|[<-|[<-|[<-|[]]]]], Hw' as [<-|[<-|[<-|[<-|[]]]]]; cbn in N'; try congruence;
  vm_compute in E; try discriminate; auto.
Qed.

Lemma tb_tied : tied tb_config tb_prices tb_before (BidVar "A" "1" "energy" "generator" 0 0 100) (BidVar "D" "1" "energy" "generator" 2 0 30).
Proof.
  split; [discriminate|]. split; [reflexivity|]. exists 20, "NSW". unfold energy_offer. rewrite tb_bids. split.
  - split; [cbn; auto|]. split; [reflexivity|]. split.
    + exists 19, (UnitInfo "A" "NSW" "generator" (19#20)). split; [|cbn; repeat split; auto; reflexivity].
      exists (BidRow "A" "energy" "generator" (fun _ => 19)). cbn. auto 10.
    + exists (UnitInfo "A" "NSW" "generator" (19#20)). cbn. auto.
  - split; [cbn; auto|]. split; [reflexivity|]. split.
    + exists 20, (UnitInfo "D" "NSW" "generator" 1). split; [|cbn; repeat split; auto; reflexivity].
      exists (BidRow "D" "energy" "generator" (fun _ => 20)). cbn. auto 10.
    + exists (UnitInfo "D" "NSW" "generator" 1). cbn. auto.
Qed.

Example C33_case :
  priced tb_config tb_volumes tb_prices tb_before /\ in_force_at tb_config (OpTieBreak (VNum 1)) tb_before tb_market
  /\ clear_labels tb_config tb_prices tb_before
  /\ tied tb_config tb_prices tb_before (BidVar "A" "1" "energy" "generator" 0 0 100) (BidVar "D" "1" "energy" "generator" 2 0 30)
  /\ solution tb_market tb_x /\ no_violation tb_market "tie_break" tb_x
  /\ tb_x 0%nat / 100 == tb_x 1%nat / 50 /\ tb_x 0%nat / 100 == tb_x 2%nat / 30
  /\ option_map (@length crow) (dget "tie_break" (m_rhs tb_market)) = Some 3%nat.
Proof.
  split; [exact tb_priced|]. split; [in_force_met 3%nat|]. split; [exact tb_clear|]. split; [exact tb_tied|]. split; [solves|].
  split; [|repeat match goal with |- _ /\ _ => split end; vm_compute; reflexivity].
  intros i H. rewrite tb_violations in H. repeat destruct H as [<-|H]; try reflexivity. destruct H.
Qed.

(** Two units with their bands priced crosswise: the sorted names of both pairs run
    together to the same text and only one of the pairs gets a constraint. *)
Definition tn_config : config := Config ["NSW"] [UnitInfo "U" "NSW" "generator" 1; UnitInfo "V" "NSW" "generator" 1] 5.
Definition tn_volumes : bid_table := BidTable ["1"; "2"]
  [BidRow "U" "energy" "generator" (fx_two 100 100); BidRow "V" "energy" "generator" (fx_two 100 100)].
Definition tn_prices : bid_table := BidTable ["1"; "2"]
  [BidRow "U" "energy" "generator" (fx_two 10 20); BidRow "V" "energy" "generator" (fx_two 20 10)].
Definition tn_demand : op := OpDemand [Demand "NSW" 250] None.
Definition tn_ops : list op := [OpVolumeBids tn_volumes; OpPriceBids tn_prices; tn_demand; OpTieBreak (VNum 1)].
Definition tn_before : market := final tn_config (firstn 3 tn_ops).
Definition tn_market : market := final tn_config tn_ops.
(** U 1, U 2, V 1, V 2 *)
Definition tn_x : nat -> Q := values [100; 50; 0; 100].
Lemma tn_bids : rows_or_nil (m_bids tn_before) =
  [BidVar "U" "1" "energy" "generator" 0 0 100; BidVar "U" "2" "energy" "generator" 1 0 100;
   BidVar "V" "1" "energy" "generator" 2 0 100; BidVar "V" "2" "energy" "generator" 3 0 100].
Proof. vm_compute. reflexivity. Qed.

Lemma tn_violations : violation_vars tn_market "tie_break" = [4; 5]%nat.
Proof. vm_compute. reflexivity. Qed.

Theorem C33_every_pair_refuted :
  exists c k tv tp m' m x v w, priced c tv tp m' /\ in_force_at c (OpTieBreak k) m' m /\ tied c tp m' v w
    /\ 0 < bv_ub v /\ 0 < bv_ub w /\ solution m x /\ no_violation m "tie_break" x
    /\ ~ x (bv_id v) / bv_ub v == x (bv_id w) / bv_ub w.
Proof.
  exists tn_config, (VNum 1), tn_volumes, tn_prices, tn_before, tn_market, tn_x,
    (BidVar "U" "2" "energy" "generator" 1 0 100), (BidVar "V" "1" "energy" "generator" 2 0 100).
  split; [apply (pricedb_ok tn_config [] [] [tn_demand]); vm_compute; reflexivity|].
  split; [in_force_met 3%nat|].
  split; [|split; [reflexivity|split; [reflexivity|split; [solves|split]]]].
  - split; [discriminate|]. split; [reflexivity|]. exists 20, "NSW". unfold energy_offer. rewrite tn_bids. split.
    + split; [cbn; auto|]. split; [reflexivity|]. split.
      * exists 20, (UnitInfo "U" "NSW" "generator" 1). split; [|cbn; repeat split; auto; reflexivity].
        exists (BidRow "U" "energy" "generator" (fx_two 10 20)). cbn. auto 10.
      * exists (UnitInfo "U" "NSW" "generator" 1). cbn. auto.
    + split; [cbn; auto|]. split; [reflexivity|]. split.
      * exists 20, (UnitInfo "V" "NSW" "generator" 1). split; [|cbn; repeat split; auto; reflexivity].
        exists (BidRow "V" "energy" "generator" (fx_two 20 10)). cbn. auto 10.
      * exists (UnitInfo "V" "NSW" "generator" 1). cbn. auto.
  - intros i H. rewrite tn_violations in H. repeat destruct H as [<-|H]; try reflexivity. destruct H.
  - vm_compute. discriminate.
Qed.
Print Assumptions C33_every_pair_refuted.
