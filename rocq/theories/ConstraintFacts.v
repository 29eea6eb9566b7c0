(** Lemmas about the constraint tables of a case file. *)

From Coq Require Import QArith String List Bool Arith Lia.
Import ListNotations.
From Verif Require Import PandasModel ConstraintsModel SpecConstraints PandasFacts OffersFacts.
Open Scope string_scope.
Open Scope list_scope.

(** ** Names *)

Lemma type_map_iff : forall a b, dget a type_map = Some b <-> type_symbol a b.
Proof.
  intros a b. unfold type_map, type_symbol. cbn [dget].
  destruct (String.eqb_spec a "LE") as [->|N1]; [intuition congruence|]. destruct (String.eqb_spec a "EQ") as [->|N2]; [intuition congruence|].
  destruct (String.eqb_spec a "GE") as [->|N3]; intuition congruence.
Qed.
Lemma bid_map_iff : forall a b, dget a bid_type_map = Some b <-> trade_service a b.
Proof.
  intros a b. unfold bid_type_map, trade_service. cbn [dget].
  repeat match goal with |- context [String.eqb a ?s] => destruct (String.eqb_spec a s) as [->|?];
    [cbn [In]; split; [intros H; injection H as <-; intuition congruence|intros H; intuition congruence]|] end.
  cbn [In]. intuition congruence.
Qed.

Lemma map_column_ok : forall {A} (get : A -> string) put m (l : list A),
  (forall a, In a l -> exists s, dget (get a) m = Some s) -> exists l', map_column get put m l = Ok l'.
Proof.
  intros A get put m l. induction l as [|a r IH]; intros H; [eexists; reflexivity|]. cbn [map_column].
  destruct (H a (or_introl eq_refl)) as [s ->]. destruct IH as [r' ->]; [intros; apply H; now right|]. eexists; reflexivity.
Qed.
Lemma map_column_in : forall {A} (get : A -> string) put m (l l' : list A), map_column get put m l = Ok l' ->
  forall b, In b l' <-> exists a s, In a l /\ dget (get a) m = Some s /\ b = put s a.
Proof.
  intros A get put m l. induction l as [|a r IH]; intros l' H b; cbn [map_column] in H.
  - injection H as <-. split; [intros []|intros [a [s [[] _]]]].
  - destruct (dget (get a) m) as [s|] eqn:D; [|discriminate]. destruct (map_column get put m r) as [r'|e] eqn:R; [|discriminate]. injection H as <-.
    cbn [In]. rewrite (IH r' eq_refl b). split.
    + intros [<-|[x [t [Hx E]]]]; [exists a, s; auto|exists x, t; split; [now right|exact E]].
    + intros [x [t [[<-|Hx] [E F]]]]; [left; congruence|right; exists x, t; auto].
Qed.
Lemma map_column_map : forall {A B} (get : A -> string) put m (f : A -> B) (l l' : list A), (forall s a, f (put s a) = f a) -> map_column get put m l = Ok l' ->
  map f l' = map f l.
Proof.
  intros A B get put m f l. induction l as [|a r IH]; intros l' F H; cbn [map_column] in H; [injection H as <-; reflexivity|].
  destruct (dget (get a) m) as [s|]; [|discriminate]. destruct (map_column get put m r) as [r'|e]; [|discriminate]. injection H as <-. cbn. now rewrite F, (IH r').
Qed.

(** ** The tables *)

Lemma rhs_in : forall x id q, In (id, q) (constraint_rhs x) <-> exists s, In s (cf_solutions x) /\ cs_id s = id /\ cs_intervention s = "0" /\ cs_rhs s = q.
Proof.
  intros x id q. unfold constraint_rhs. rewrite in_map_iff. split.
  - intros [s [E H]]. apply filter_In in H. destruct H as [H I]. apply String.eqb_eq in I. injection E as <- <-. exists s. auto.
  - intros [s [H [<- [I <-]]]]. exists s. split; [reflexivity|]. apply filter_In. split; [exact H|]. now apply String.eqb_eq.
Qed.
Lemma lhs_in : forall part x r, In r (lhs_rows part x) <->
  exists c l f, In c (cf_constraints x) /\ cc_lhs c = Some l /\ In f (part l) /\ r = LhsRow (cc_id c) (fa_of f) (fa_trade f) (fa_coef f).
Proof.
  intros part x r. unfold lhs_rows. rewrite in_flat_map. split.
  - intros [c [Hc H]]. destruct (cc_lhs c) as [l|] eqn:L; [|destruct H]. apply in_map_iff in H. destruct H as [f [<- Hf]]. exists c, l, f. auto.
  - intros [c [l [f [Hc [L [Hf ->]]]]]]. exists c. split; [exact Hc|]. rewrite L. apply in_map_iff. exists f. auto.
Qed.
Lemma regions_in : forall c f, In f (regions_of c) <-> exists l, cc_lhs c = Some l /\ In f (lf_regions l).
Proof. intros c f. unfold regions_of. destruct (cc_lhs c) as [l|]; [split; [intros H; eauto|intros [l' [E H]]; now injection E as ->]|]. split; [intros []|intros [l [E _]]; discriminate]. Qed.

Section Tables.
  Context (x : case_file) (d : constraint_data) (H : init_constraints x = Ok d).

  Lemma data_rhs : forall r, In r (cd_rhs d) <-> exists c, invoked x c (rh_rhs r) /\ cc_id c = rh_set r /\ type_symbol (cc_type c) (rh_type r).
  Proof.
    intros r. unfold init_constraints, constraint_tables in H.
    destruct (map_column rh_type (fun s r => RhsRow (rh_set r) (rh_rhs r) s) type_map _) as [rhs|e] eqn:R; [|discriminate].
    destruct (map_column lh_service _ bid_type_map (constraint_unit_lhs x)) as [units|e]; [|discriminate].
    destruct (map_column lh_service _ bid_type_map (constraint_region_lhs x)) as [regions|e]; [|discriminate].
    injection H as <-. cbn [cd_rhs]. rewrite (map_column_in _ _ _ _ _ R). split.
    - intros [a [s [Ha [D ->]]]]. apply in_map_iff in Ha. destruct Ha as [[p t] [<- Hp]]. apply in_merge in Hp. destruct Hp as [Hp [Ht E]]. cbn in *.
      apply String.eqb_eq in E. destruct p as [id q]. cbn in *. apply rhs_in in Hp. destruct Hp as [so [S1 [S2 [S3 S4]]]].
      unfold constraint_type in Ht. apply in_map_iff in Ht. destruct Ht as [c [<- Hc]]. cbn in *. exists c. split; [|split].
      + split; [exact Hc|]. exists so. repeat split; congruence.
      + congruence.
      + now apply type_map_iff.
    - intros [c [[Hc [so [S1 [S2 [S3 S4]]]]] [E T]]]. apply type_map_iff in T.
      exists (RhsRow (rh_set r) (rh_rhs r) (cc_type c)), (rh_type r). split; [|split; [exact T|destruct r; reflexivity]].
      apply in_map_iff. exists ((rh_set r, rh_rhs r), TypeRow (cc_id c) (cc_type c) (cc_price c)). split; [reflexivity|].
      apply in_merge. split; [apply rhs_in; exists so; repeat split; congruence|]. split; [|now apply String.eqb_eq].
      unfold constraint_type. apply in_map_iff. exists c. auto.
  Qed.

  Lemma data_regions : forall r, In r (cd_regions d) <-> exists c f, In c (cf_constraints x) /\ In f (regions_of c) /\ cc_id c = lh_set r
      /\ fa_of f = lh_of r /\ trade_service (fa_trade f) (lh_service r) /\ fa_coef f = lh_coef r.
  Proof.
    intros r. unfold init_constraints, constraint_tables in H.
    destruct (map_column rh_type (fun s r => RhsRow (rh_set r) (rh_rhs r) s) type_map _) as [rhs|e]; [|discriminate].
    destruct (map_column lh_service _ bid_type_map (constraint_unit_lhs x)) as [units|e]; [|discriminate].
    destruct (map_column lh_service _ bid_type_map (constraint_region_lhs x)) as [regions|e] eqn:R; [|discriminate].
    injection H as <-. cbn [cd_regions]. rewrite (map_column_in _ _ _ _ _ R). split.
    - intros [a [s [Ha [D ->]]]]. apply lhs_in in Ha. destruct Ha as [c [l [f [Hc [L [Hf ->]]]]]]. exists c, f. cbn in *. apply bid_map_iff in D.
      split; [exact Hc|]. split; [apply regions_in; eauto|]. auto.
    - intros [c [f [Hc [Hf [E1 [E2 [E3 E4]]]]]]]. apply regions_in in Hf. destruct Hf as [l [L Hf]]. apply bid_map_iff in E3.
      exists (LhsRow (cc_id c) (fa_of f) (fa_trade f) (fa_coef f)), (lh_service r). split; [apply lhs_in; exists c, l, f; auto|].
      split; [exact E3|]. destruct r; cbn in *. congruence.
  Qed.

  Lemma data_fcas_def : cd_fcas d = map (fun p => FcasRow (lh_set (fst p)) (lh_service (fst p)) (lh_of (fst p)) (rh_type (snd p)) (rh_rhs (snd p)))
                     (merge (fun a b => String.eqb (lh_set a) (rh_set b)) (cd_regions d) (cd_rhs d)).
  Proof.
    unfold init_constraints, constraint_tables in H.
    destruct (map_column rh_type (fun s r => RhsRow (rh_set r) (rh_rhs r) s) type_map _) as [rhs|e]; [|discriminate].
    destruct (map_column lh_service _ bid_type_map (constraint_unit_lhs x)) as [units|e]; [|discriminate].
    destruct (map_column lh_service _ bid_type_map (constraint_region_lhs x)) as [regions|e] eqn:R; [|discriminate].
    injection H as <-. reflexivity.
  Qed.

  Lemma fcas_in : forall r, In r (cd_fcas d) <-> exists a b, In a (cd_regions d) /\ In b (cd_rhs d) /\ lh_set a = rh_set b
      /\ r = FcasRow (lh_set a) (lh_service a) (lh_of a) (rh_type b) (rh_rhs b).
  Proof.
    intros r. rewrite data_fcas_def, in_map_iff. split.
    - intros [[a b] [<- P]]. apply in_merge in P. destruct P as [A [B E]]. apply String.eqb_eq in E. exists a, b. auto.
    - intros [a [b [A [B [E ->]]]]]. exists (a, b). split; [reflexivity|]. apply in_merge. split; [exact A|]. split; [exact B|]. now apply String.eqb_eq.
  Qed.

  Hypothesis U : unique_ids x.

  Lemma same_constraint : forall a b, In a (cf_constraints x) -> In b (cf_constraints x) -> cc_id a = cc_id b -> a = b.
  Proof.
    destruct U as [N _]. revert N. generalize (cf_constraints x). intros l. induction l as [|c r IH]; intros N a b A B E; [destruct A|].
    cbn in N. inversion N as [|? ? NI N']; subst. destruct A as [<-|A], B as [<-|B]; auto.
    - exfalso. apply NI. rewrite E. now apply in_map.
    - exfalso. apply NI. rewrite <- E. now apply in_map.
  Qed.

  Lemma regional : forall c rhs, invoked x c rhs -> (exists s, type_symbol (cc_type c) s) -> (exists r, In r (cd_fcas d) /\ fq_set r = cc_id c) <-> regions_of c <> [].
  Proof.
    intros c rhs I [s T]. split.
    - intros [r [Hr E]]. apply fcas_in in Hr. destruct Hr as [a [b [A [B [E1 ->]]]]]. cbn in E. apply data_regions in A.
      destruct A as [c' [f [Hc' [Hf [E2 _]]]]]. assert (c' = c) by (apply same_constraint; [exact Hc'|apply I|congruence]). subst c'.
      intros N. rewrite N in Hf. destruct Hf.
    - intros N. destruct (regions_of c) as [|f r0] eqn:R; [congruence|].
      assert (Hf : In f (regions_of c)) by (rewrite R; now left).
      assert (K : exists v, trade_service (fa_trade f) v).
      { pose proof H as H'. unfold init_constraints, constraint_tables in H'.
        destruct (map_column rh_type _ type_map _) as [rhs'|e]; [|discriminate].
        destruct (map_column lh_service _ bid_type_map (constraint_unit_lhs x)) as [units|e]; [|discriminate].
        destruct (map_column lh_service _ bid_type_map (constraint_region_lhs x)) as [regions|e] eqn:M; [|discriminate].
        apply regions_in in Hf. destruct Hf as [l [L Hf]]. assert (Hin : In (LhsRow (cc_id c) (fa_of f) (fa_trade f) (fa_coef f)) (constraint_region_lhs x)) by (apply lhs_in; exists c, l, f; repeat split; auto; apply I).
        clear - M Hin. revert regions M. induction (constraint_region_lhs x) as [|a r IH]; intros regions M; [destruct Hin|]. cbn [map_column] in M.
        destruct (dget (lh_service a) bid_type_map) as [s|] eqn:D; [|discriminate]. destruct (map_column lh_service _ bid_type_map r) as [r'|e] eqn:M'; [|discriminate].
        destruct Hin as [->|Hin]; [exists s; now apply bid_map_iff|]. now apply (IH Hin r'). }
      destruct K as [v V]. exists (FcasRow (cc_id c) v (fa_of f) s rhs). split; [|reflexivity]. apply fcas_in.
      exists (LhsRow (cc_id c) (fa_of f) v (fa_coef f)), (RhsRow (cc_id c) rhs s). split; [apply data_regions; exists c, f; repeat split; auto; apply I|].
      split; [apply data_rhs; exists c; auto|]. auto.
  Qed.

  Lemma generic_iff : forall id q ty, In (RhsRow id q ty) (rhs_excluding_fcas d) <->
    exists c, invoked x c q /\ cc_id c = id /\ type_symbol (cc_type c) ty /\ regions_of c = [].
  Proof.
    intros id q ty. unfold rhs_excluding_fcas. rewrite filter_In, data_rhs. cbn [rh_set rh_rhs rh_type]. split.
    - intros [[c [I [E T]]] N]. exists c. split; [exact I|]. split; [exact E|]. split; [exact T|].
      destruct (regions_of c) as [|f r] eqn:R; [reflexivity|]. exfalso. apply negb_true_iff in N.
      assert (P : regions_of c <> []) by (rewrite R; discriminate). apply (regional c q I (ex_intro _ ty T)) in P. destruct P as [row [Hr Er]].
      assert (M : mem_str id (map fq_set (cd_fcas d)) = true) by (apply mem_str_in; rewrite <- E, <- Er; now apply in_map). congruence.
    - intros [c [I [E [T R]]]]. split; [exists c; auto|]. apply negb_true_iff. destruct (mem_str id (map fq_set (cd_fcas d))) eqn:M; [|reflexivity].
      apply mem_str_in in M. apply in_map_iff in M. destruct M as [row [Er Hr]]. exfalso.
      apply (proj1 (regional c q I (ex_intro _ ty T))); [|exact R]. exists row. split; [exact Hr|congruence].
  Qed.

  Lemma fcas_iff : forall id sv rg ty v, In (FcasRow id sv rg ty v) (cd_fcas d) <->
    exists c f, invoked x c v /\ cc_id c = id /\ type_symbol (cc_type c) ty /\ In f (regions_of c) /\ fa_of f = rg /\ trade_service (fa_trade f) sv.
  Proof.
    intros id sv rg ty v. rewrite fcas_in. split.
    - intros [a [b [A [B [E F]]]]]. injection F as F1 F2 F3 F4 F5. apply data_regions in A. apply data_rhs in B.
      destruct A as [c [f [Hc [Hf [C1 [C2 [C3 _]]]]]]], B as [c' [I [D1 D2]]].
      assert (c = c') by (apply same_constraint; [exact Hc|apply I|congruence]). subst c'.
      exists c, f. rewrite F5, F4, F2. repeat split; auto; try congruence; apply I.
    - intros [c [f [I [E [T [Hf [R S]]]]]]].
      exists (LhsRow id rg sv (fa_coef f)), (RhsRow id v ty). split; [apply data_regions; exists c, f; repeat split; auto; apply I|].
      split; [apply data_rhs; exists c; auto|]. auto.
  Qed.

  Lemma partition : forall c rhs, invoked x c rhs ->
    ((exists r, In r (cd_fcas d) /\ fq_set r = cc_id c) \/ (exists r, In r (rhs_excluding_fcas d) /\ rh_set r = cc_id c))
    /\ ~ ((exists r, In r (cd_fcas d) /\ fq_set r = cc_id c) /\ (exists r, In r (rhs_excluding_fcas d) /\ rh_set r = cc_id c)).
  Proof.
    intros c rhs I.
    assert (K : exists s, type_symbol (cc_type c) s).
    { pose proof H as H'. unfold init_constraints, constraint_tables in H'.
      destruct (map_column rh_type _ type_map _) as [rhs'|e] eqn:M; [|discriminate]. clear H'.
      destruct I as [Hc [so [S1 [S2 [S3 S4]]]]].
      assert (Hin : In (RhsRow (cc_id c) rhs (cc_type c)) (map (fun p => RhsRow (fst (fst p)) (snd (fst p)) (ty_type (snd p)))
                    (merge (fun a b => String.eqb (fst a) (ty_set b)) (constraint_rhs x) (constraint_type x)))).
      { apply in_map_iff. exists ((cc_id c, rhs), TypeRow (cc_id c) (cc_type c) (cc_price c)). split; [reflexivity|]. apply in_merge.
        split; [apply rhs_in; exists so; auto|]. split; [unfold constraint_type; apply in_map_iff; exists c; auto|apply String.eqb_refl]. }
      revert rhs' M Hin. generalize (map (fun p => RhsRow (fst (fst p)) (snd (fst p)) (ty_type (snd p)))
                    (merge (fun a b => String.eqb (fst a) (ty_set b)) (constraint_rhs x) (constraint_type x))).
      intros l. induction l as [|a r IH]; intros rhs' M Hin; [destruct Hin|]. cbn [map_column] in M.
      destruct (dget (rh_type a) type_map) as [s|] eqn:D; [|discriminate]. destruct (map_column rh_type _ type_map r) as [r'|e] eqn:M'; [|discriminate].
      destruct Hin as [->|Hin]; [exists s; now apply type_map_iff|]. now apply (IH r'). }
    destruct K as [s T]. split.
    - destruct (regions_of c) as [|f r] eqn:R.
      + right. exists (RhsRow (cc_id c) rhs s). split; [|reflexivity]. apply generic_iff. exists c. auto.
      + left. apply (regional c rhs I (ex_intro _ s T)). rewrite R. discriminate.
    - intros [A [r [Hr E]]]. destruct r as [id q ty]. cbn in E. apply generic_iff in Hr. destruct Hr as [c' [I' [E' [T' R]]]].
      assert (c' = c) by (apply same_constraint; [apply I'|apply I|congruence]). subst c'.
      apply (regional c rhs I (ex_intro _ s T)) in A. contradiction.
  Qed.

  Lemma merged_sets : forall (l : list (string * Q)) (r : list type_row), NoDup (map fst l) -> NoDup (map ty_set r) ->
    NoDup (map rh_set (map (fun p => RhsRow (fst (fst p)) (snd (fst p)) (ty_type (snd p))) (merge (fun a b => String.eqb (fst a) (ty_set b)) l r))).
  Proof.
    intros l r NL NR. induction l as [|a l IH]; [constructor|]. cbn [map] in NL. inversion NL as [|? ? NI NL']; subst. unfold merge. cbn [flat_map].
    rewrite !map_app. apply InvariantFacts.NoDup_app_iff. split; [|split; [exact (IH NL')|]].
    - clear - NR. induction r as [|t r IH]; [constructor|]. cbn [map] in NR. inversion NR as [|? ? NI NR']; subst. cbn [filter].
      destruct (String.eqb_spec (fst a) (ty_set t)) as [E|E]; [|now apply IH]. cbn [map]. constructor; [|now apply IH]. cbn.
      rewrite !map_map. intros C. apply in_map_iff in C. destruct C as [t' [E' Ht']]. apply filter_In in Ht'. destruct Ht' as [Ht' F]. apply String.eqb_eq in F.
      apply NI. rewrite <- E, F. now apply in_map.
    - intros y Hy Hy'. rewrite !map_map in Hy. apply in_map_iff in Hy. destruct Hy as [t [<- Ht]]. cbn in Hy'. apply NI.
      apply in_map_iff in Hy'. destruct Hy' as [r0 [E0 H0]]. apply in_map_iff in H0. destruct H0 as [[p q] [<- P]]. apply in_merge in P. cbn in *.
      rewrite <- E0. apply in_map. apply P.
  Qed.
  Lemma rhs_once : NoDup (map rh_set (cd_rhs d)).
  Proof.
    unfold init_constraints, constraint_tables in H.
    destruct (map_column rh_type (fun s r => RhsRow (rh_set r) (rh_rhs r) s) type_map _) as [rhs|e] eqn:R; [|discriminate].
    destruct (map_column lh_service _ bid_type_map (constraint_unit_lhs x)) as [units|e]; [|discriminate].
    destruct (map_column lh_service _ bid_type_map (constraint_region_lhs x)) as [regions|e]; [|discriminate].
    injection H as <-. cbn [cd_rhs]. rewrite (map_column_map rh_type (fun s r => RhsRow (rh_set r) (rh_rhs r) s) _ rh_set _ _ (fun s a => eq_refl) R). destruct U as [U1 U2]. apply merged_sets.
    - unfold constraint_rhs. rewrite map_map. exact U2.
    - unfold constraint_type. rewrite map_map. exact U1.
  Qed.
  Lemma generic_once : NoDup (map rh_set (rhs_excluding_fcas d)).
  Proof.
    pose proof rhs_once as N.
    unfold rhs_excluding_fcas. revert N. generalize (cd_rhs d) as l. intros l. set (f := fun r => negb (mem_str (rh_set r) (map fq_set (cd_fcas d)))).
    induction l as [|a r IH]; intros N; [constructor|]. cbn [map] in N. inversion N as [|? ? NI N']; subst. cbn [filter]. destruct (f a); [|now apply IH].
    cbn. constructor; [|now apply IH]. intros C. apply NI. apply in_map_iff in C. destruct C as [b [E B]]. apply filter_In in B. rewrite <- E. apply in_map. apply B.
  Qed.
End Tables.

Lemma known_loads : forall x, known_names x -> exists d, init_constraints x = Ok d.
Proof.
  intros x [K1 K2]. unfold init_constraints, constraint_tables.
  match goal with |- context [map_column rh_type ?p type_map ?l] => destruct (map_column_ok rh_type p type_map l) as [rhs ->] end.
  { intros a Ha. apply in_map_iff in Ha. destruct Ha as [[p t] [<- P]]. apply in_merge in P. destruct P as [P [T E]]. cbn in *. apply String.eqb_eq in E.
    destruct p as [id q]. cbn in *. apply rhs_in in P. destruct P as [so [S1 [S2 [S3 S4]]]]. unfold constraint_type in T. apply in_map_iff in T. destruct T as [c [<- Hc]].
    cbn in *. destruct (K1 c q) as [s Ts]; [split; [exact Hc|]; exists so; repeat split; congruence|]. exists s. now apply type_map_iff. }
  match goal with |- context [map_column lh_service ?p bid_type_map (constraint_unit_lhs x)] => destruct (map_column_ok lh_service p bid_type_map (constraint_unit_lhs x)) as [units ->] end.
  { intros a Ha. apply lhs_in in Ha. destruct Ha as [c [l [f [Hc [L [Hf ->]]]]]]. destruct (K2 c l f Hc L) as [s S]; [apply in_app_iff; auto|]. exists s. now apply bid_map_iff. }
  match goal with |- context [map_column lh_service ?p bid_type_map (constraint_region_lhs x)] => destruct (map_column_ok lh_service p bid_type_map (constraint_region_lhs x)) as [regions ->] end.
  { intros a Ha. apply lhs_in in Ha. destruct Ha as [c [l [f [Hc [L [Hf ->]]]]]]. destruct (K2 c l f Hc L) as [s S]; [apply in_app_iff; auto|]. exists s. now apply bid_map_iff. }
  eexists. reflexivity.
Qed.
