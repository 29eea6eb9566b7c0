(** Lemmas about the other tables read from a case file. *)

From Coq Require Import QArith String Ascii List Bool ZArith Lia.
Import ListNotations.
From Verif Require Import PandasModel TablesModel MarketModel CacheModel OffersModel ModesModel LossModel ConstraintsModel XmlModel.
From Verif Require Import SpecXml PandasFacts OffersFacts XmlFacts.
Open Scope string_scope.
Open Scope list_scope.

(** ** Initial conditions *)

Lemma document_root root : case_root root -> at_key "NEMSPDCaseFile" (document root) = Got (parse root).
Proof. intros R. unfold document. cbn. unfold case_root in R. rewrite R. reflexivity. Qed.

Lemma outputs_read root o : case_root root -> only ["NemSpdOutputs"] root o -> outputs (document root) = Got (parse o).
Proof.
  intros R O. unfold outputs. cbn [down]. rewrite (document_root root R). cbn [xbind].
  exact (down_only ["NemSpdOutputs"] ltac:(plain) root o O).
Qed.

Lemma plain_read root : plain_period root -> is_intervention (document root) = Got false.
Proof.
  intros (s & R & o & O & K). unfold is_intervention.
  pose proof (outputs_read root o R O) as E. unfold outputs in E.
  change ["NEMSPDCaseFile"; "NemSpdOutputs"; "PeriodSolution"] with (["NEMSPDCaseFile"; "NemSpdOutputs"] ++ ["PeriodSolution"]).
  rewrite down_app, E. cbn [xbind down]. rewrite (at_one "PeriodSolution" o s ltac:(plain) K). cbn [xbind].
  pose proof (parse_not_list s). destruct (parse s); cbn in *; try contradiction; reflexivity.
Qed.
Lemma intervention_read root : intervention_period root -> is_intervention (document root) = Got true.
Proof.
  intros (l & (R & o & O & K) & L). unfold is_intervention.
  pose proof (outputs_read root o R O) as E. unfold outputs in E.
  change ["NEMSPDCaseFile"; "NemSpdOutputs"; "PeriodSolution"] with (["NEMSPDCaseFile"; "NemSpdOutputs"] ++ ["PeriodSolution"]).
  rewrite down_app, E. cbn [xbind down]. rewrite (at_many "PeriodSolution" o l ltac:(plain) K L). reflexivity.
Qed.

Lemma find_read rd n l : (forall x, In x l -> attr "InitialConditionID" x <> None) -> (forall c, In c l -> exists q, number rd "Value" c q) ->
  exists v, find_condition rd n (map parse l) = Got v /\ initially rd n l v.
Proof.
  induction l as [|c l IH]; intros H N.
  - exists None. split; [reflexivity|]. left. split; [reflexivity|intros c []].
  - destruct IH as (v & E & S); [intros x Hx; apply H; right; exact Hx|intros x Hx; apply N; right; exact Hx|].
    cbn [map find_condition].
    destruct (attr "InitialConditionID" c) as [i|] eqn:A; [|exfalso; exact (H c (or_introl eq_refl) A)].
    change "@InitialConditionID" with (String "@" "InitialConditionID"). rewrite (at_attr _ c i A). cbn [xbind is_text].
    destruct (String.eqb_spec n i) as [<-|D].
    + destruct (N c (or_introl eq_refl)) as (q & Q). change "@Value" with (String "@" "Value").
      rewrite (float_attr rd "Value" c q Q). cbn [xbind]. exists (Some q). split; [reflexivity|].
      right. exists [], c, l, q. repeat split; try assumption. intros d [].
    + exists v. split; [exact E|]. destruct S as [(V & S)|(b & d & a & q & -> & S1 & S2 & S3 & S4)].
      * left. split; [exact V|]. intros d [<-|I]; [unfold named; rewrite A; congruence|apply S, I].
      * right. exists (c :: b), d, a, q. repeat split; try assumption.
        intros x [<-|I]; [unfold named; rewrite A; congruence|apply S4, I].
Qed.

Lemma condition_read rd n l : (2 <= length l)%nat ->
  (forall x, In x l -> attr "InitialConditionID" x <> None) -> (forall c, In c l -> exists q, number rd "Value" c q) ->
  exists v, condition rd n (XList (map parse l)) = Got v /\ initially rd n l v.
Proof.
  intros L H N. destruct (find_read rd n l H N) as (v & E & S). exists v. split; [|exact S].
  unfold condition. cbn [iter xbind]. destruct l as [|c l]; [cbn in L; lia|]. cbn [map] in E |- *. exact E.
Qed.

Lemma initial_row rd i t : measured rd t ->
  exists r, (do duid <- text_at "@TraderID" (parse t); do type <- text_at "@TraderType" (parse t);
             do cons <- down ["TraderInitialConditionCollection"; "TraderInitialCondition"] (parse t);
             do mw <- condition rd i cons; do up <- condition rd "SCADARampUpRate" cons;
             do dn <- condition rd "SCADARampDnRate" cons; do agc <- condition rd "AGCStatus" cons;
             Got (Initial duid type mw up dn agc)) = Got r /\ initial_of rd i t r.
Proof.
  intros (A & B & l & (c & O & K & L & H) & N).
  destruct (attr "TraderID" t) as [id|] eqn:E; [|congruence].
  destruct (attr "TraderType" t) as [ty|] eqn:F; [|congruence].
  change "@TraderID" with (String "@" "TraderID"). change "@TraderType" with (String "@" "TraderType").
  rewrite (text_attr _ t id E), (text_attr _ t ty F). cbn [xbind].
  change ["TraderInitialConditionCollection"; "TraderInitialCondition"] with (["TraderInitialConditionCollection"] ++ ["TraderInitialCondition"]).
  rewrite down_app, (down_only ["TraderInitialConditionCollection"] ltac:(plain) t c O). cbn [xbind down].
  rewrite (at_many "TraderInitialCondition" c l ltac:(plain) K L). cbn [xbind].
  destruct (condition_read rd i l L H N) as (v1 & -> & S1). cbn [xbind].
  destruct (condition_read rd "SCADARampUpRate" l L H N) as (v2 & -> & S2). cbn [xbind].
  destruct (condition_read rd "SCADARampDnRate" l L H N) as (v3 & -> & S3). cbn [xbind].
  destruct (condition_read rd "AGCStatus" l L H N) as (v4 & -> & S4). cbn [xbind].
  eexists; split; [reflexivity|]. split; [exact E|]. split; [exact F|]. exists l.
  split; [exists c; repeat split; assumption|]. cbn. auto.
Qed.

Lemma initial_read rd root ts i mw : trader_list root ts -> is_intervention (document root) = Got i ->
  mw = (if i then "WhatIfInitialMW" else "InitialMW") ->
  (forall t, In t ts -> measured rd t) ->
  exists rows, initial_conditions rd (document root) = Got rows /\ Forall2 (initial_of rd mw) ts rows.
Proof.
  intros L I -> M. unfold initial_conditions. rewrite (traders_read root ts L). cbn [xbind]. rewrite I. cbn [xbind iter].
  clear L I. induction ts as [|t ts IH].
  - exists []. split; [reflexivity|constructor].
  - destruct IH as (rows & E & S); [intros x Hx; apply M; right; exact Hx|].
    destruct (initial_row rd (if i then "WhatIfInitialMW" else "InitialMW") t (M t (or_introl eq_refl))) as (r & R & Q).
    exists (r :: rows). cbn [map each]. rewrite R. cbn [xbind]. rewrite E. cbn [xbind].
    split; [reflexivity|constructor; assumption].
Qed.

(** ** Fast start parameters and forecasts *)

Lemma whole_or_read rd n alt t : el_attrs t <> [] -> (exists z, whole rd n t z) -> (forall s, attr alt t = Some s -> exists z, whole rd alt t z) ->
  exists z, whole_or rd (String "@" n) (String "@" alt) (parse t) = Got z /\ what_if rd n alt t z.
Proof.
  intros N (z & W) A. unfold whole_or. rewrite (whole_attr rd n t z W). cbn [xbind].
  rewrite (has_attr alt t N). cbn [xbind]. unfold what_if.
  destruct (attr alt t) as [s|] eqn:E.
  - destruct (A s eq_refl) as (y & Y). exists y. split; [apply whole_attr, Y|exact Y].
  - exists z. split; [reflexivity|exact W].
Qed.

Lemma fast_read rd ts : (forall t, In t ts -> profile_readable rd t) ->
  exists rows, fast_start_rows rd (map parse ts) = Got rows /\ picks fast (profile_of rd) ts rows.
Proof.
  induction ts as [|t ts IH]; intros P.
  - exists []. split; [reflexivity|constructor].
  - destruct IH as (rows & E & S); [intros x Hx; apply P; right; exact Hx|].
    destruct (P t (or_introl eq_refl)) as (N & F & W).
    cbn [map fast_start_rows].
    change "@CurrentMode" with (String "@" "CurrentMode"). rewrite (has_attr "CurrentMode" t N). cbn [xbind].
    destruct (attr "CurrentMode" t) as [s|] eqn:C.
    + assert (Fa : fast t) by (unfold fast; congruence). destruct (F Fa) as (D & V).
      destruct (attr "TraderID" t) as [id|] eqn:I; [|congruence].
      destruct (V "MinLoadingMW") as (load & Hl); [cbn; tauto|].
      destruct (V "T1") as (t1 & H1); [cbn; tauto|]. destruct (V "T2") as (t2 & H2); [cbn; tauto|].
      destruct (V "T3") as (t3 & H3); [cbn; tauto|]. destruct (V "T4") as (t4 & H4); [cbn; tauto|].
      destruct (whole_or_read rd "CurrentMode" "WhatIfCurrentMode" t N (V "CurrentMode" ltac:(cbn; tauto)))
        as (m & Em & Hm); [intros x; apply W; cbn; tauto|].
      destruct (whole_or_read rd "CurrentModeTime" "WhatIfCurrentModeTime" t N (V "CurrentModeTime" ltac:(cbn; tauto)))
        as (u & Eu & Hu); [intros x; apply W; cbn; tauto|].
      change "@MinLoadingMW" with (String "@" "MinLoadingMW"). rewrite (whole_attr rd _ t load Hl). cbn [xbind].
      rewrite Em. cbn [xbind]. rewrite Eu. cbn [xbind].
      change "@T1" with (String "@" "T1"). rewrite (whole_attr rd _ t t1 H1). cbn [xbind].
      change "@T2" with (String "@" "T2"). rewrite (whole_attr rd _ t t2 H2). cbn [xbind].
      change "@T3" with (String "@" "T3"). rewrite (whole_attr rd _ t t3 H3). cbn [xbind].
      change "@T4" with (String "@" "T4"). rewrite (whole_attr rd _ t t4 H4). cbn [xbind].
      change "@TraderID" with (String "@" "TraderID"). rewrite (text_attr _ t id I). cbn [xbind].
      rewrite E. cbn [xbind]. eexists; split; [reflexivity|]. apply picks_some; [exact Fa| |exact S].
      split; [exact I|]. split; [exact Hm|]. exists load, u, t1, t2, t3, t4. cbn. repeat split; assumption.
    + rewrite E. exists rows. split; [reflexivity|]. apply picks_skip; [unfold fast; congruence|exact S].
Qed.

Lemma fast_start_read rd root ts : trader_list root ts -> (forall t, In t ts -> profile_readable rd t) ->
  exists rows, fast_start_parameters rd (document root) = Got rows /\ picks fast (profile_of rd) ts rows.
Proof.
  intros L P. unfold fast_start_parameters. rewrite (traders_read root ts L). cbn [xbind iter]. apply fast_read, P.
Qed.

Lemma uigf_read rd root ts : period_list root ts -> (forall t, In t ts -> forecast_readable rd t) ->
  exists rows, uigf_values rd (document root) = Got rows /\ picks forecast (forecast_of rd) ts rows.
Proof.
  intros L. unfold uigf_values. rewrite (periods_read root ts L). cbn [xbind iter]. clear L.
  induction ts as [|t ts IH]; intros P.
  - exists []. split; [reflexivity|constructor].
  - destruct IH as (rows & E & S); [intros x Hx; apply P; right; exact Hx|].
    destruct (P t (or_introl eq_refl)) as (N & F). cbn [map uigf_rows].
    change "@UIGF" with (String "@" "UIGF"). rewrite (has_attr "UIGF" t N). cbn [xbind].
    destruct (attr "UIGF" t) as [s|] eqn:C.
    + assert (Fa : forecast t) by (unfold forecast; congruence). destruct (F Fa) as (D & q & Q).
      destruct (attr "TraderID" t) as [id|] eqn:I; [|congruence].
      change "@TraderID" with (String "@" "TraderID"). rewrite (text_attr _ t id I). cbn [xbind].
      rewrite (float_attr rd "UIGF" t q Q). cbn [xbind]. rewrite E. cbn [xbind].
      eexists; split; [reflexivity|]. apply picks_some; [exact Fa|split; [exact I|exact Q]|exact S].
    + rewrite E. exists rows. split; [reflexivity|]. apply picks_skip; [unfold forecast; congruence|exact S].
Qed.

(** ** Constraints *)

Lemma rhs_read rd root x : states rd root x -> read_rhs rd (document root) = Got (constraint_rhs x).
Proof.
  intros ((ss & (R & o & O & K & L) & F) & _). unfold read_rhs. rewrite (outputs_read root o R O). cbn [xbind].
  rewrite (at_many "ConstraintSolution" o ss ltac:(plain) K L). cbn [xbind iter]. unfold constraint_rhs.
  clear -F. induction F as [|e s es l (A & B & C) _ IH]; [reflexivity|]. cbn [map rhs_rows].
  change "@Intervention" with (String "@" "Intervention"). rewrite (at_attr _ e _ B). cbn [xbind is_text filter].
  rewrite String.eqb_sym. destruct (String.eqb (cs_intervention s) "0"); [|exact IH].
  change "@ConstraintID" with (String "@" "ConstraintID"). rewrite (text_attr _ e _ A). cbn [xbind].
  change "@RHS" with (String "@" "RHS"). rewrite (float_attr rd _ e _ C). cbn [xbind]. rewrite IH. reflexivity.
Qed.

Lemma constraints_read rd root x : states rd root x ->
  exists cs, generic_constraints (document root) = Got (map parse cs) /\ Forall2 (constraint_of rd) cs (cf_constraints x).
Proof.
  intros (_ & cs & C & F). exists cs. split; [|exact F]. unfold generic_constraints.
  pose proof (down_collection ["NemSpdInputs"; "GenericConstraintCollection"] "GenericConstraint" root cs ltac:(plain) ltac:(plain) C) as E.
  cbn [app] in E. rewrite E. reflexivity.
Qed.

Lemma types_read rd root x : states rd root x -> read_types rd (document root) = Got (constraint_type x).
Proof.
  intros H. destruct (constraints_read rd root x H) as (cs & E & F). unfold read_types, constraint_type. rewrite E. cbn [xbind].
  clear -F. induction F as [|e c es l (A & B & C & _) _ IH]; [reflexivity|]. cbn [map each].
  change "@ConstraintID" with (String "@" "ConstraintID") in *. change "@Type" with (String "@" "Type") in *.
  change "@ViolationPrice" with (String "@" "ViolationPrice") in *.
  rewrite (text_attr _ e _ A). cbn [xbind]. rewrite (text_attr _ e _ B). cbn [xbind]. rewrite (float_attr rd _ e _ C). cbn [xbind].
  rewrite IH. reflexivity.
Qed.

(** The terms of a kind. *)
Lemma has_tag t e : plain_tag t -> el_kids e <> [] -> has_key t (parse e) = Got (match kids t e with [] => false | _ => true end).
Proof.
  destruct e as [g a ks]; unfold kids; cbn [el_kids]. intros P N.
  assert (K : exists x, parse (Elem g a ks) = x /\ x = XNode a (fold_left push (map (fun c => (el_tag c, parse c)) ks) [])).
  { eexists; split; [|reflexivity]. cbn. destruct a, ks; try reflexivity. contradiction N; reflexivity. }
  destruct K as (x & -> & ->). cbn [has_key].
  rewrite look_tag by exact P. rewrite parse_kids.
  destruct (filter _ ks) as [|y [|z r]]; reflexivity.
Qed.

Lemma terms_read tag e c : plain_tag tag -> kids "LHSFactorCollection" e = [c] -> (el_kids c <> [] \/ el_attrs c = []) ->
  terms_of tag (parse e) = Got (map parse (kids tag c)).
Proof.
  intros P K H. unfold terms_of. rewrite (at_one "LHSFactorCollection" e c ltac:(plain) K). cbn [xbind].
  destruct (el_kids c) as [|d ds] eqn:D.
  - destruct H as [H|H]; [congruence|]. destruct c as [g a ks]; cbn in D, H; subst. reflexivity.
  - assert (N : el_kids c <> []) by congruence.
    assert (T : parse c <> XNone) by (destruct c as [g [|a l] ks]; cbn in D; subst; cbn; discriminate).
    destruct (parse c) as [tx| |xl|na nk] eqn:E; [| contradiction | |].
    1, 2: destruct c as [g [|a l] ks]; cbn in D; subst; cbn in E; discriminate.
    rewrite <- E, (has_tag tag c P N). cbn [xbind].
    destruct (kids tag c) as [|y [|z r]] eqn:Q.
    + reflexivity.
    + rewrite (at_one tag c y P Q). cbn [xbind]. pose proof (parse_not_list y). destruct (parse y) eqn:Y; cbn in *; try contradiction; rewrite Y; reflexivity.
    + rewrite (at_many tag c (y :: z :: r) P Q) by (cbn; lia). reflexivity.
Qed.

Lemma terms_shape rd e o : terms rd e o -> exists c, kids "LHSFactorCollection" e = [c] /\ (el_kids c <> [] \/ el_attrs c = []).
Proof.
  intros (c & K & H). exists c. split; [exact K|]. destruct o; [left; tauto|right; tauto].
Qed.

Section Lhs.
  Context (rd : reader) (tag id : string) (part : lhs_factors -> list factor_row).
  Context (P : plain_tag tag).
  Context (T : forall e o c, terms rd e o -> kids "LHSFactorCollection" e = [c] ->
             match o with None => kids tag c = [] | Some l => Forall2 (factor_of rd id) (kids tag c) (part l) end).
  Lemma lhs_of_read root x : states rd root x -> read_lhs rd tag (String "@" id) (document root) = Got (lhs_rows part x).
  Proof.
    intros H. destruct (constraints_read rd root x H) as (cs & E & F). unfold read_lhs. rewrite E. cbn [xbind].
    assert (K : each (fun c => do ts <- terms_of tag c;
      each (fun t => do n <- text_at "@ConstraintID" c; do o <- text_at (String "@" id) t; do s <- text_at "@TradeType" t;
                     do q <- float_at rd "@Factor" t; Got (LhsRow n o s q)) ts) (map parse cs)
      = Got (map (fun c => match cc_lhs c with
                     | None => []
                     | Some l => map (fun f => LhsRow (cc_id c) (fa_of f) (fa_trade f) (fa_coef f)) (part l)
                     end) (cf_constraints x))).
    { clear -F P T. induction F as [|e c es l (A & B & C & D) _ IH]; [reflexivity|]. cbn [map each].
      destruct (terms_shape rd e _ D) as (k & K & S). rewrite (terms_read tag e k P K S). cbn [xbind].
      pose proof (T e _ k D K) as G.
      assert (Q : each (fun t => do n <- text_at "@ConstraintID" (parse e); do o <- text_at (String "@" id) t; do s <- text_at "@TradeType" t;
                     do q <- float_at rd "@Factor" t; Got (LhsRow n o s q)) (map parse (kids tag k))
                = Got (match cc_lhs c with None => [] | Some l => map (fun f => LhsRow (cc_id c) (fa_of f) (fa_trade f) (fa_coef f)) (part l) end)).
      { destruct (cc_lhs c) as [lf|]; [|rewrite G; reflexivity].
        clear -G A. induction G as [|y f ys fs (X & Y & Z) _ IH]; [reflexivity|]. cbn [map each].
        change "@ConstraintID" with (String "@" "ConstraintID") in *. change "@TradeType" with (String "@" "TradeType") in *.
        change "@Factor" with (String "@" "Factor") in *.
        rewrite (text_attr _ e _ A) in IH |- *. cbn [xbind] in IH |- *.
        rewrite (text_attr _ y _ X). cbn [xbind]. rewrite (text_attr _ y _ Y). cbn [xbind]. rewrite (float_attr rd _ y _ Z). cbn [xbind].
        rewrite IH. reflexivity. }
      rewrite Q. cbn [xbind]. rewrite IH. reflexivity. }
    rewrite K. cbn [xbind]. unfold lhs_rows. rewrite flat_map_concat_map. reflexivity.
  Qed.
End Lhs.

Lemma no_kids tag c : el_kids c = [] -> kids tag c = [].
Proof. intros H. unfold kids. rewrite H. reflexivity. Qed.

Lemma region_lhs_read rd root x : states rd root x -> read_region_lhs rd (document root) = Got (constraint_region_lhs x).
Proof.
  apply (lhs_of_read rd "RegionFactor" "RegionID" lf_regions ltac:(plain)).
  intros e o c (d & K & H) K'. rewrite K in K'; inversion K'; subst d. destruct o; [tauto|]. apply no_kids; tauto.
Qed.
Lemma unit_lhs_read rd root x : states rd root x -> read_unit_lhs rd (document root) = Got (constraint_unit_lhs x).
Proof.
  apply (lhs_of_read rd "TraderFactor" "TraderID" lf_traders ltac:(plain)).
  intros e o c (d & K & H) K'. rewrite K in K'; inversion K'; subst d. destruct o; [tauto|]. apply no_kids; tauto.
Qed.
Lemma inter_lhs_read rd root x : states rd root x -> read_inter_lhs rd (document root) = Got (constraint_inter_lhs x).
Proof.
  intros H. destruct (constraints_read rd root x H) as (cs & E & F). unfold read_inter_lhs. rewrite E. cbn [xbind].
  assert (K : each (fun c => do ts <- terms_of "InterconnectorFactor" c;
    each (fun t => do n <- text_at "@ConstraintID" c; do o <- text_at "@InterconnectorID" t;
                   do q <- float_at rd "@Factor" t; Got (n, o, q)) ts) (map parse cs)
    = Got (map (fun c => match cc_lhs c with
                   | None => []
                   | Some l => map (fun f => (cc_id c, if_inter f, if_coef f)) (lf_inters l)
                   end) (cf_constraints x))).
  { clear -F. induction F as [|e c es l (A & B & C & D) _ IH]; [reflexivity|]. cbn [map each].
    destruct (terms_shape rd e _ D) as (k & K & S). rewrite (terms_read "InterconnectorFactor" e k ltac:(plain) K S). cbn [xbind].
    assert (Q : each (fun t => do n <- text_at "@ConstraintID" (parse e); do o <- text_at "@InterconnectorID" t;
                   do q <- float_at rd "@Factor" t; Got (n, o, q)) (map parse (kids "InterconnectorFactor" k))
              = Got (match cc_lhs c with None => [] | Some l => map (fun f => (cc_id c, if_inter f, if_coef f)) (lf_inters l) end)).
    { destruct D as (d & K' & G). rewrite K in K'; inversion K'; subst d.
      destruct (cc_lhs c) as [lf|]; [|rewrite (no_kids _ k) by tauto; reflexivity].
      destruct G as (_ & _ & G & _).
      clear -G A. induction G as [|y f ys fs (X & Z) _ IH]; [reflexivity|]. cbn [map each].
      change "@ConstraintID" with (String "@" "ConstraintID") in *. change "@InterconnectorID" with (String "@" "InterconnectorID") in *.
      change "@Factor" with (String "@" "Factor") in *.
      rewrite (text_attr _ e _ A) in IH |- *. cbn [xbind] in IH |- *.
      rewrite (text_attr _ y _ X). cbn [xbind]. rewrite (float_attr rd _ y _ Z). cbn [xbind].
      rewrite IH. reflexivity. }
    rewrite Q. cbn [xbind]. rewrite IH. reflexivity. }
  rewrite K. cbn [xbind]. unfold constraint_inter_lhs. rewrite flat_map_concat_map. reflexivity.
Qed.

(** ** Violations *)

Lemma only_same p : forall e c d, only p e c -> only p e d -> c = d.
Proof.
  induction p as [|t p IH]; cbn; intros e c d; [congruence|].
  intros (x & K & H) (y & K' & H'). rewrite K in K'; inversion K'; subst. eapply IH; eassumption.
Qed.

Definition is_pricing (x : elem) : bool := match attr "Intervention" x with Some s => String.eqb s "0" | None => false end.

Lemma periods_none rd n cur l : (forall x, In x l -> attr "Intervention" x <> None) -> filter is_pricing l = [] ->
  from_periods rd (String "@" n) cur (map parse l) = Got cur.
Proof.
  induction l as [|x l IH]; intros H F; [reflexivity|]. cbn [map from_periods].
  destruct (attr "Intervention" x) as [s|] eqn:A; [|exfalso; exact (H x (or_introl eq_refl) A)].
  change "@Intervention" with (String "@" "Intervention"). rewrite (at_attr _ x s A). cbn [xbind is_text].
  cbn [filter] in F. unfold is_pricing at 1 in F. rewrite A in F. rewrite String.eqb_sym.
  destruct (String.eqb s "0"); [discriminate|]. apply IH; [intros y Hy; apply H; right; exact Hy|exact F].
Qed.
Lemma periods_one rd n l p : (forall x, In x l -> attr "Intervention" x <> None) -> filter is_pricing l = [p] ->
  (forall s, attr n p = Some s -> exists q, number rd n p q) ->
  exists v, from_periods rd (String "@" n) None (map parse l) = Got v
    /\ match attr n p with Some _ => exists q, number rd n p q /\ v = Some q | None => v = None end.
Proof.
  intros H F N. induction l as [|x l IH]; [discriminate|]. cbn [map from_periods].
  destruct (attr "Intervention" x) as [s|] eqn:A; [|exfalso; exact (H x (or_introl eq_refl) A)].
  change "@Intervention" with (String "@" "Intervention"). rewrite (at_attr _ x s A). cbn [xbind is_text].
  cbn [filter] in F. unfold is_pricing at 1 in F. rewrite A in F. rewrite String.eqb_sym.
  destruct (String.eqb s "0").
  - inversion F; subst. rewrite (has_attr n p (attr_attrs _ _ _ A)). cbn [xbind].
    assert (H' : forall y, In y l -> attr "Intervention" y <> None) by (intros y Hy; apply H; right; exact Hy).
    destruct (attr n p) as [u|].
    + destruct (N u eq_refl) as (q & Q). rewrite (float_attr rd n p q Q). cbn [xbind].
      exists (Some q). split; [apply periods_none; assumption|exists q; auto].
    + exists None. split; [apply periods_none; assumption|reflexivity].
  - apply IH; [intros y Hy; apply H; right; exact Hy|exact F].
Qed.
Lemma cases_found rd n q l : (forall x, In x l -> attr "Intervention" x <> None) ->
  from_cases rd (String "@" n) (Some q) (map parse l) = Got (Some q).
Proof.
  induction l as [|x l IH]; intros H; [reflexivity|]. cbn [map from_cases].
  destruct (attr "Intervention" x) as [s|] eqn:A; [|exfalso; exact (H x (or_introl eq_refl) A)].
  change "@Intervention" with (String "@" "Intervention"). rewrite (at_attr _ x s A). cbn [xbind is_text].
  rewrite IH by (intros y Hy; apply H; right; exact Hy). destruct (String.eqb "0" s); reflexivity.
Qed.
Lemma cases_one rd n q l p : (forall x, In x l -> attr "Intervention" x <> None) -> filter is_pricing l = [p] -> number rd n p q ->
  from_cases rd (String "@" n) None (map parse l) = Got (Some q).
Proof.
  intros H F N. induction l as [|x l IH]; [discriminate|]. cbn [map from_cases].
  destruct (attr "Intervention" x) as [s|] eqn:A; [|exfalso; exact (H x (or_introl eq_refl) A)].
  change "@Intervention" with (String "@" "Intervention"). rewrite (at_attr _ x s A). cbn [xbind is_text].
  cbn [filter] in F. unfold is_pricing at 1 in F. rewrite A in F. rewrite String.eqb_sym.
  destruct (String.eqb s "0").
  - inversion F; subst. rewrite (float_attr rd n p q N). cbn [xbind].
    apply cases_found. intros y Hy; apply H; right; exact Hy.
  - apply IH; [intros y Hy; apply H; right; exact Hy|exact F].
Qed.

Lemma stated_some rd n p c q : stated rd n p c q -> forall s, attr n p = Some s -> exists q, number rd n p q.
Proof. unfold stated. intros H s E. rewrite E in H. exists q; exact H. Qed.

Lemma violation_read rd root o p c n q : case_root root -> only ["NemSpdOutputs"] root o ->
  pricing_run root p c -> stated rd n p c q -> violation rd (parse o) (String "@" n) = Got (Some q).
Proof.
  intros R O (ps & cs & (_ & o1 & O1 & K1) & (_ & o2 & O2 & K2) & Hp & Hc & N & L) S.
  pose proof (only_same _ _ _ _ O1 O); pose proof (only_same _ _ _ _ O2 O); subst o1 o2.
  unfold violation. destruct Hp as [->|(L1 & H1 & F1)].
  - destruct Hc as [->|(L2 & _)]; [|exfalso; destruct L as [L _]; specialize (L eq_refl); lia].
    rewrite (at_one "PeriodSolution" o p ltac:(plain) K1). cbn [xbind].
    assert (E : is_list (parse p) = false) by (pose proof (parse_not_list p); destruct (parse p); cbn in *; try contradiction; reflexivity).
    rewrite E, (has_attr n p N). cbn [xbind]. unfold stated in S.
    destruct (attr n p) as [s|].
    + rewrite (float_attr rd n p q S). reflexivity.
    + rewrite (at_one "CaseSolution" o c ltac:(plain) K2). cbn [xbind]. rewrite (float_attr rd n c q S). reflexivity.
  - destruct Hc as [->|(L2 & H2 & F2)]; [exfalso; destruct L as [_ L]; specialize (L eq_refl); lia|].
    rewrite (at_many "PeriodSolution" o ps ltac:(plain) K1 L1). cbn [xbind is_list iter].
    destruct (periods_one rd n ps p H1 F1 (stated_some rd n p c q S)) as (v & -> & V). cbn [xbind].
    rewrite (at_many "CaseSolution" o cs ltac:(plain) K2 L2). cbn [xbind iter].
    unfold stated in S. destruct (attr n p) as [s|].
    + destruct V as (q' & (s' & A & B) & ->). destruct S as (s'' & A' & B').
      assert (q' = q) by congruence. subst q'. apply cases_found, H2.
    + rewrite V. apply (cases_one rd n q cs c H2 F2 S).
Qed.

Lemma violations_read rd root p c vs : pricing_run root p c ->
  Forall2 (fun n v => fst v = fst n /\ stated rd (snd n) p c (snd v)) violation_columns vs ->
  violations rd (document root) = Got vs.
Proof.
  intros H F. pose proof H as (ps & cs & (R & o & O & _) & _).
  unfold violations. rewrite (outputs_read root o R O). cbn [xbind].
  change violation_names with (map at_sign violation_columns).
  assert (K : each (fun n : string * string => do q <- violation rd (parse o) (snd n); Got (fst n, q)) (map at_sign violation_columns)
              = Got (map (fun v => (fst v, Some (snd v))) vs)).
  { induction F as [|n v ns vs (A & B) _ IH]; [reflexivity|]. cbn [map each at_sign fst snd].
    rewrite (violation_read rd root o p c (snd n) (snd v) R O H B). cbn [xbind]. rewrite IH, A. reflexivity. }
  rewrite K. cbn [xbind]. f_equal. clear. induction vs as [|[k q] vs IH]; cbn; [reflexivity|]. rewrite IH. reflexivity.
Qed.

(** ** Prices *)

Lemma violation_prices_read rd root vs : case_prices rd root vs -> violation_prices rd (document root) = Got vs.
Proof.
  intros (R & c & (i & K & (d & K' & E)) & F). cbn in E. subst d. unfold violation_prices. cbn [down]. rewrite (document_root root R). cbn [xbind].
  rewrite (at_one "NemSpdInputs" root i ltac:(plain) K). cbn [xbind].
  change violation_price_names with (map at_sign violation_price_columns).
  induction F as [|n v ns vs (A & B) _ IH]; [reflexivity|]. cbn [map each at_sign fst snd].
  rewrite (at_one "Case" i c ltac:(plain) K') in IH |- *. cbn [xbind] in IH |- *.
  rewrite (float_attr rd (snd n) c (snd v) B). cbn [xbind]. rewrite IH, <- A. destruct v; reflexivity.
Qed.

Lemma price_columns_read columns g : attr "RegionID" g <> None ->
  exists rows, each (fun p : string * string =>
      do b <- has_key (fst p) (parse g);
      if b then do n <- text_at "@RegionID" (parse g); do q <- text_at (fst p) (parse g); Got [(n, snd p, q)] else Got [])
      (map (fun p => (String "@" (fst p), snd p)) columns) = Got rows
    /\ region_prices columns g (concat rows).
Proof.
  intros N. destruct (attr "RegionID" g) as [r|] eqn:R; [|congruence].
  induction columns as [|[a m] columns IH]; [exists []; split; [reflexivity|constructor]|].
  destruct IH as (rows & E & S). cbn [map each fst snd].
  rewrite (has_attr a g (attr_attrs _ _ _ R)). cbn [xbind].
  destruct (attr a g) as [x|] eqn:A.
  - change "@RegionID" with (String "@" "RegionID") in *.
    rewrite (text_attr "RegionID" g r R) in E |- *. cbn [xbind] in E |- *. rewrite (text_attr a g x A). cbn [xbind].
    rewrite E. cbn [xbind]. eexists; split; [reflexivity|]. cbn [concat app].
    apply picks_some; [cbn; congruence|cbn; repeat split; assumption|exact S].
  - cbn [xbind]. rewrite E. cbn [xbind]. exists ([] :: rows). split; [reflexivity|]. cbn [concat app].
    apply picks_skip; [cbn; congruence|exact S].
Qed.

Lemma service_prices_read root gs : region_solutions root gs -> (forall g, In g gs -> attr "RegionID" g <> None) ->
  exists parts, service_prices (document root) = Got (concat parts) /\ Forall2 (region_prices read_columns) gs parts.
Proof.
  intros (R & o & O & K & L) H. unfold service_prices. rewrite (outputs_read root o R O). cbn [xbind].
  rewrite (at_many "RegionSolution" o gs ltac:(plain) K L). cbn [xbind iter].
  change price_attributes with (map (fun p : string * string => (String "@" (fst p), snd p)) read_columns).
  clear -H. generalize read_columns. intros cols.
  assert (G : exists parts, each (fun g => do ps <- each (fun p : string * string =>
      do b <- has_key (fst p) g;
      if b then do n <- text_at "@RegionID" g; do q <- text_at (fst p) g; Got [(n, snd p, q)] else Got [])
      (map (fun p => (String "@" (fst p), snd p)) cols); Got (concat ps)) (map parse gs) = Got parts
    /\ Forall2 (region_prices cols) gs parts).
  { induction gs as [|g gs IH]; [exists []; split; [reflexivity|constructor]|].
    destruct IH as (parts & E & S); [intros x Hx; apply H; right; exact Hx|].
    destruct (price_columns_read cols g (H g (or_introl eq_refl))) as (rows & E' & S').
    exists (concat rows :: parts). cbn [map each]. rewrite E'. cbn [xbind]. rewrite E. cbn [xbind].
    split; [reflexivity|constructor; assumption]. }
  destruct G as (parts & -> & S). exists parts. split; [reflexivity|exact S].
Qed.

(** ** Offers of market interconnectors *)

Lemma link_offers_read rd i l id : attr "InterconnectorID" i = Some id -> link_offers i l ->
  (forall o, In o l -> attr "RegionID" o <> None /\ exists q, number rd "MaxAvail" o q) ->
  exists rows, each (fun o => do n <- text_at "@InterconnectorID" (parse i); do g <- text_at "@RegionID" o; do q <- float_at rd "@MaxAvail" o;
                              Got (LinkBid n g (Some q))) (map parse l) = Got rows
    /\ Forall2 (fun o r => named "InterconnectorID" (lb_id r) i /\ named "RegionID" (lb_to r) o
                           /\ exists q, number rd "MaxAvail" o q /\ lb_avail r = Some q) l rows.
Proof.
  intros I _ H. induction l as [|o l IH]; [exists []; split; [reflexivity|constructor]|].
  destruct IH as (rows & E & S); [intros x Hx; apply H; right; exact Hx|].
  destruct (H o (or_introl eq_refl)) as (A & q & Q). destruct (attr "RegionID" o) as [g|] eqn:G; [|congruence].
  cbn [map each]. change "@InterconnectorID" with (String "@" "InterconnectorID") in *. change "@RegionID" with (String "@" "RegionID") in *.
  change "@MaxAvail" with (String "@" "MaxAvail") in *.
  rewrite (text_attr _ i id I) in E |- *. cbn [xbind] in E |- *.
  rewrite (text_attr _ o g G). cbn [xbind]. rewrite (float_attr rd _ o q Q). cbn [xbind]. rewrite E. cbn [xbind].
  eexists; split; [reflexivity|]. constructor; [|exact S]. cbn. split; [exact I|]. split; [exact G|]. exists q; auto.
Qed.

Lemma link_bids_read rd root is : link_list root is -> (forall i, In i is -> link_readable rd i) ->
  exists parts, read_link_bids rd (document root) = Got (concat parts) /\ picks market_link (offer_rows rd) is parts.
Proof.
  intros L. unfold read_link_bids.
  pose proof (down_collection ["NemSpdInputs"; "PeriodCollection"; "Period"; "InterconnectorPeriodCollection"] "InterconnectorPeriod" root is
    ltac:(plain) ltac:(plain) L) as E. cbn [app] in E. rewrite E. cbn [xbind iter]. clear.
  induction is as [|i is IH]; intros H; [exists []; split; [reflexivity|constructor]|].
  destruct IH as (parts & E & S); [intros x Hx; apply H; right; exact Hx|].
  destruct (H i (or_introl eq_refl)) as (M & P). cbn [map link_bid_rows].
  destruct (attr "MNSP" i) as [s|] eqn:A; [|congruence].
  change "@MNSP" with (String "@" "MNSP"). rewrite (at_attr _ i s A). cbn [xbind is_text].
  destruct (String.eqb_spec "1" s) as [<-|D].
  - destruct (P A) as (I & l & O & Q). destruct (attr "InterconnectorID" i) as [id|] eqn:J; [|congruence].
    change ["MNSPOfferCollection"; "MNSPOffer"] with (["MNSPOfferCollection"] ++ ["MNSPOffer"]).
    pose proof O as (c & O1 & O2 & O3).
    rewrite down_app, (down_only ["MNSPOfferCollection"] ltac:(plain) i c O1). cbn [xbind down].
    rewrite (at_many "MNSPOffer" c l ltac:(plain) O2 O3). cbn [xbind iter].
    destruct (link_offers_read rd i l id J O Q) as (rows & E' & S'). rewrite E'. cbn [xbind]. rewrite E. cbn [xbind].
    exists (rows :: parts). split; [reflexivity|]. apply picks_some; [exact A|exists l; auto|exact S].
  - rewrite E. exists parts. split; [reflexivity|]. apply picks_skip; [unfold market_link, named; congruence|exact S].
Qed.
