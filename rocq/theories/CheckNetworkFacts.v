(** Checkers for the tables in force, used by the examples. *)

From Coq Require Import QArith String List Bool Arith.
Import ListNotations.
From Verif Require Import PandasModel TablesModel MarketModel SolverModel SpecLp SpecHistory SpecDispatch SpecNetwork
  CheckFacts.
Open Scope string_scope.
Open Scope list_scope.

Definition networkb (c : config) (ops : list op) (i n : nat) : bool :=
  match new_market c with
  | Ok m0 => saneb ops m0 && standsb m0 (firstn n ops) i
      && match nth_error ops n with
         | Some o => match snd (step o (run (firstn n ops) m0)) with None => true | _ => false end
         | None => false
         end
      && leavesb "interconnectors" (skipn (S n) ops) && leavesb "losses" (skipn (S n) ops)
      && leavesb "interpolation_weights" (skipn (S n) ops)
  | Err _ => false
  end.

Lemma networkb_ok c ops i n dirs lf bps :
  nth_error (firstn n ops) i = Some (OpInterconnectors dirs) -> nth_error ops n = Some (OpLosses lf bps) ->
  networkb c ops i n = true -> network c dirs lf bps (final c ops).
Proof.
  unfold networkb, final, network. destruct (new_market c) as [m0|]; [|discriminate].
  intros E1 E2 H. rewrite E2, !andb_true_iff in H. destruct H as [[[[[H1 H2] H3] H4] H5] H6].
  exists m0, ops. split; [reflexivity|]. split; [now apply saneb_ok|]. split; [|reflexivity]. right; right.
  exists (firstn n ops), (skipn (S n) ops). split; [now apply nth_split'|].
  split; [now apply (standsb_ok m0 _ i)|]. split; [|auto using leavesb_ok].
  destruct (snd _); [discriminate|reflexivity].
Qed.
(** Interconnectors without losses. *)
Lemma networkb_lossless c ops i dirs :
  nth_error ops i = Some (OpInterconnectors dirs) ->
  match new_market c with Ok m0 => saneb ops m0 && standsb m0 ops i && leavesb "losses" ops | Err _ => false end = true ->
  network c dirs [] [] (final c ops).
Proof.
  unfold final, network. destruct (new_market c) as [m0|]; [|discriminate].
  intros E1 H. rewrite !andb_true_iff in H. destruct H as [[H1 H2] H3].
  exists m0, ops. split; [reflexivity|]. split; [now apply saneb_ok|]. split; [|reflexivity]. right; left.
  repeat (split; [reflexivity|]). split; [now apply (standsb_ok m0 _ i)|now apply leavesb_ok].
Qed.
(** Neither interconnectors nor losses. *)
Lemma networkb_none c ops :
  match new_market c with Ok m0 => saneb ops m0 && leavesb "interconnectors" ops && leavesb "losses" ops | Err _ => false end = true ->
  network c [] [] [] (final c ops).
Proof.
  unfold final, network. destruct (new_market c) as [m0|]; [|discriminate].
  intros H. rewrite !andb_true_iff in H. destruct H as [[H1 H2] H3].
  exists m0, ops. split; [reflexivity|]. split; [now apply saneb_ok|]. split; [|reflexivity]. left.
  repeat (split; [reflexivity|]). auto using leavesb_ok.
Qed.

Ltac network_at i n := apply (networkb_ok _ _ i n); [reflexivity|reflexivity|vm_compute; reflexivity].

Lemma linksb_ok c ops a b d gu gr gi :
  nth_error ops a = Some (OpLinkUnits gu) -> nth_error ops b = Some (OpLinkRegions gr) ->
  nth_error ops d = Some (OpLinkInters gi) ->
  match new_market c with Ok m0 => saneb ops m0 && standsb m0 ops a && standsb m0 ops b && standsb m0 ops d | Err _ => false end = true ->
  links c gu gr gi (final c ops).
Proof.
  unfold final, links. destruct (new_market c) as [m0|]; [|discriminate].
  intros E1 E2 E3 H. rewrite !andb_true_iff in H. destruct H as [[[H1 H2] H3] H4].
  exists m0, ops. split; [reflexivity|]. split; [now apply saneb_ok|]. split; [reflexivity|].
  repeat split; left; eapply standsb_ok; eauto.
Qed.
(** No links at all. *)
Lemma linksb_none c ops :
  match new_market c with
  | Ok m0 => saneb ops m0 && leavesb "unit links" ops && leavesb "region links" ops && leavesb "interconnector links" ops
  | Err _ => false end = true ->
  links c [] [] [] (final c ops).
Proof.
  unfold final, links. destruct (new_market c) as [m0|]; [|discriminate].
  intros H. rewrite !andb_true_iff in H. destruct H as [[[H1 H2] H3] H4].
  exists m0, ops. split; [reflexivity|]. split; [now apply saneb_ok|]. split; [reflexivity|].
  repeat split; right; (split; [reflexivity|]); intros k [<-|[]]; now apply leavesb_ok.
Qed.

Definition region_offersb (m : market) (r s : string) : bool :=
  existsb (fun u => String.eqb (ui_region u) r && offersb m (ui_unit u) s (ui_dt u)) (c_ui (m_cfg m)).
Lemma region_offersb_ok m r s : region_offersb m r s = true -> region_offers m r s.
Proof.
  unfold region_offersb. rewrite existsb_exists. intros [u [Hu E]]. apply andb_true_iff in E. destruct E as [E1 E2].
  apply String.eqb_eq in E1. exists u. split; [exact Hu|]. split; [exact E1|]. now apply offersb_ok.
Qed.

Lemma linksb_regions c ops b gr :
  nth_error ops b = Some (OpLinkRegions gr) ->
  match new_market c with
  | Ok m0 => saneb ops m0 && leavesb "unit links" ops && standsb m0 ops b && leavesb "interconnector links" ops
  | Err _ => false end = true ->
  links c [] gr [] (final c ops).
Proof.
  unfold final, links. destruct (new_market c) as [m0|]; [|discriminate].
  intros E1 H. rewrite !andb_true_iff in H. destruct H as [[[H1 H2] H3] H4].
  exists m0, ops. split; [reflexivity|]. split; [now apply saneb_ok|]. split; [reflexivity|].
  split; [right; split; [reflexivity|]; intros k [<-|[]]; now apply leavesb_ok|].
  split; [left; eapply standsb_ok; eauto|]. right; split; [reflexivity|]; intros k [<-|[]]; now apply leavesb_ok.
Qed.
Lemma linksb_inters c ops d gi :
  nth_error ops d = Some (OpLinkInters gi) ->
  match new_market c with
  | Ok m0 => saneb ops m0 && leavesb "unit links" ops && leavesb "region links" ops && standsb m0 ops d
  | Err _ => false end = true ->
  links c [] [] gi (final c ops).
Proof.
  unfold final, links. destruct (new_market c) as [m0|]; [|discriminate].
  intros E1 H. rewrite !andb_true_iff in H. destruct H as [[[H1 H2] H3] H4].
  exists m0, ops. split; [reflexivity|]. split; [now apply saneb_ok|]. split; [reflexivity|].
  split; [right; split; [reflexivity|]; intros k [<-|[]]; now apply leavesb_ok|].
  split; [right; split; [reflexivity|]; intros k [<-|[]]; now apply leavesb_ok|]. left; eapply standsb_ok; eauto.
Qed.
Lemma linksb_both c ops a d gu gi :
  nth_error ops a = Some (OpLinkUnits gu) -> nth_error ops d = Some (OpLinkInters gi) ->
  match new_market c with
  | Ok m0 => saneb ops m0 && standsb m0 ops a && leavesb "region links" ops && standsb m0 ops d
  | Err _ => false end = true ->
  links c gu [] gi (final c ops).
Proof.
  unfold final, links. destruct (new_market c) as [m0|]; [|discriminate].
  intros E1 E2 H. rewrite !andb_true_iff in H. destruct H as [[[H1 H2] H3] H4].
  exists m0, ops. split; [reflexivity|]. split; [now apply saneb_ok|]. split; [reflexivity|].
  split; [left; eapply standsb_ok; eauto|].
  split; [right; split; [reflexivity|]; intros k [<-|[]]; now apply leavesb_ok|]. left; eapply standsb_ok; eauto.
Qed.
