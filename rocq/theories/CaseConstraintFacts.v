(** Lemmas about markets whose constraints come from a case file. *)

From Coq Require Import QArith Lqa String List Bool Lia Setoid.
Import ListNotations.
From Verif Require Import PandasModel TablesModel MarketModel ConstraintsModel XmlModel CaseConstraintsModel SolverModel.
From Verif Require Import SpecXml SpecLp SpecHistory SpecDispatch SpecNetwork SpecConstraints SpecCaseConstraints SpecElastic.
From Verif Require Import PandasFacts LimitFacts ConstraintFacts XmlReadFacts RhsReadFacts GenericFacts ElasticFacts ElasticTheoremFacts.
Open Scope string_scope.
Open Scope list_scope.

Lemma load_states rd root x : states rd root x -> load_constraints rd (document root) = Got (init_constraints x).
Proof.
  intros S. unfold load_constraints.
  rewrite (rhs_read rd root x S). cbn [xbind]. rewrite (types_read rd root x S). cbn [xbind].
  rewrite (unit_lhs_read rd root x S). cbn [xbind]. rewrite (region_lhs_read rd root x S). cbn [xbind]. rewrite (inter_lhs_read rd root x S). reflexivity.
Qed.

Lemma column_forall2 {A} (get : A -> string) put m l : forall l', map_column get put m l = Ok l' ->
  Forall2 (fun a b => exists s, dget (get a) m = Some s /\ b = put s a) l l'.
Proof.
  induction l as [|a l IH]; intros l' E; cbn in E; [injection E as <-; constructor|].
  destruct (dget (get a) m) as [s|] eqn:G; [|discriminate]. destruct (map_column get put m l) as [r|] eqn:R; [|discriminate].
  injection E as <-. constructor; [exists s; auto|exact (IH r eq_refl)].
Qed.

Lemma service_known t s : dget t bid_type_map = Some s -> service_for t = s.
Proof.
  intros H. apply dget_in in H. cbn in H.
  repeat (destruct H as [H|H]; [injection H as <- <-; reflexivity|]). destruct H.
Qed.

Lemma filter_forall2 {A B} (R : A -> B -> Prop) (f : A -> bool) (g : B -> bool) l m : Forall2 R l m ->
  (forall a b, R a b -> f a = g b) -> Forall2 R (filter f l) (filter g m).
Proof.
  intros F K. induction F as [|a b l m H F IH]; cbn; [constructor|]. rewrite (K a b H). destruct (g b); [constructor; assumption|exact IH].
Qed.
Lemma qsum_forall2 {A B} (R : A -> B -> Prop) (f : A -> Q) (g : B -> Q) l m : Forall2 R l m -> (forall a b, R a b -> f a == g b) ->
  qsum (map f l) == qsum (map g m).
Proof.
  intros F K. induction F as [|a b l m H F IH]; cbn [map]; [reflexivity|].
  change (f a + qsum (map f l) == g b + qsum (map g m)). rewrite (K a b H), IH. reflexivity.
Qed.

(** The rows of one constraint in a table made of the rows of all. *)
Lemma rows_of_one {B} (id : B -> string) (rows : case_constraint -> list B) cs c :
  NoDup (map cc_id cs) -> In c cs -> (forall d b, In b (rows d) -> id b = cc_id d) ->
  filter (fun b => String.eqb (cc_id c) (id b)) (flat_map rows cs) = rows c.
Proof.
  intros N I K.
  assert (All : forall l, (forall b, In b l -> id b = cc_id c) -> filter (fun b => String.eqb (cc_id c) (id b)) l = l).
  { induction l as [|b l IH]; intros E; [reflexivity|]. cbn. rewrite (E b (or_introl eq_refl)), String.eqb_refl, IH; [reflexivity|]. intros y Y. apply E. now right. }
  assert (No : forall l, (forall b, In b l -> id b <> cc_id c) -> filter (fun b => String.eqb (cc_id c) (id b)) l = []).
  { induction l as [|b l IH]; intros E; [reflexivity|]. cbn. destruct (String.eqb_spec (cc_id c) (id b)) as [Z|Z]; [exfalso; apply (E b); [now left|congruence]|].
    apply IH. intros y Y. apply E. now right. }
  induction cs as [|d cs IH]; [destruct I|]. cbn [flat_map]. rewrite filter_app. cbn [map] in N. inversion N as [|? ? N1 N2]; subst.
  destruct I as [->|I].
  - rewrite (All (rows c) (fun b Hb => K c b Hb)), (No (flat_map rows cs)); [apply app_nil_r|].
    intros b Hb. apply in_flat_map in Hb. destruct Hb as (e & E1 & E2). rewrite (K e b E2). intros Z. apply N1. rewrite <- Z. apply in_map, E1.
  - rewrite (No (rows d)); [exact (IH N2 I)|]. intros b Hb. rewrite (K d b Hb). intros Z. apply N1. rewrite Z. apply in_map, I.
Qed.

Section Data.
Variable x : case_file.
Variable d : constraint_data.
Hypothesis H : init_constraints x = Ok d.

Lemma data_tables :
  Forall2 (fun a b => lh_set b = lh_set a /\ lh_of b = lh_of a /\ lh_coef b = lh_coef a /\ lh_service b = service_for (lh_service a)) (constraint_unit_lhs x) (cd_units d)
  /\ Forall2 (fun a b => lh_set b = lh_set a /\ lh_of b = lh_of a /\ lh_coef b = lh_coef a /\ lh_service b = service_for (lh_service a)) (constraint_region_lhs x) (cd_regions d)
  /\ cd_inters d = constraint_inter_lhs x
  /\ cd_fcas d = map (fun p => FcasRow (lh_set (fst p)) (lh_service (fst p)) (lh_of (fst p)) (rh_type (snd p)) (rh_rhs (snd p)))
                     (merge (fun a b => String.eqb (lh_set a) (rh_set b)) (cd_regions d) (cd_rhs d))
  /\ cd_costs d = map (fun t => (ty_set t, ty_cost t)) (constraint_type x).
Proof.
  unfold init_constraints, constraint_tables in H. destruct (map_column rh_type _ _ _) as [rhs|]; [|discriminate].
  destruct (map_column lh_service _ bid_type_map (constraint_unit_lhs x)) as [us|] eqn:EU; [|discriminate].
  destruct (map_column lh_service _ bid_type_map (constraint_region_lhs x)) as [rs|] eqn:ER; [|discriminate].
  injection H as <-. cbn [cd_units cd_regions cd_inters cd_fcas cd_rhs cd_costs].
  assert (K : forall a b : lhs_row, (exists s, dget (lh_service a) bid_type_map = Some s /\ b = LhsRow (lh_set a) (lh_of a) s (lh_coef a)) ->
            lh_set b = lh_set a /\ lh_of b = lh_of a /\ lh_coef b = lh_coef a /\ lh_service b = service_for (lh_service a)).
  { intros a b (s & G & ->). apply service_known in G. cbn. auto. }
  split; [|split; [|split; [reflexivity|split; reflexivity]]].
  - apply column_forall2 in EU. exact (forall2_weaken _ _ _ _ K EU).
  - apply column_forall2 in ER. exact (forall2_weaken _ _ _ _ K ER).
Qed.

Hypothesis U : unique_ids x.

Lemma unit_rows k : In k (cf_constraints x) ->
  filter (fun r => String.eqb (cc_id k) (lh_set r)) (constraint_unit_lhs x) = map (fun f => LhsRow (cc_id k) (fa_of f) (fa_trade f) (fa_coef f)) (traders_of k).
Proof.
  intros I. unfold constraint_unit_lhs, lhs_rows. rewrite (rows_of_one lh_set _ (cf_constraints x) k (proj1 U) I).
  - unfold traders_of. destruct (cc_lhs k); reflexivity.
  - intros e b Hb. destruct (cc_lhs e); [|destruct Hb]. apply in_map_iff in Hb. destruct Hb as (f & <- & _). reflexivity.
Qed.
Lemma region_rows k : In k (cf_constraints x) ->
  filter (fun r => String.eqb (cc_id k) (lh_set r)) (constraint_region_lhs x) = map (fun f => LhsRow (cc_id k) (fa_of f) (fa_trade f) (fa_coef f)) (regions_of k).
Proof.
  intros I. unfold constraint_region_lhs, lhs_rows. rewrite (rows_of_one lh_set _ (cf_constraints x) k (proj1 U) I).
  - unfold regions_of. destruct (cc_lhs k); reflexivity.
  - intros e b Hb. destruct (cc_lhs e); [|destruct Hb]. apply in_map_iff in Hb. destruct Hb as (f & <- & _). reflexivity.
Qed.
Lemma inter_rows k : In k (cf_constraints x) ->
  filter (fun r => String.eqb (cc_id k) (fst (fst r))) (constraint_inter_lhs x) = map (fun f => (cc_id k, if_inter f, if_coef f)) (links_of k).
Proof.
  intros I. unfold constraint_inter_lhs. rewrite (rows_of_one (fun r => fst (fst r)) _ (cf_constraints x) k (proj1 U) I).
  - unfold links_of. destruct (cc_lhs k); reflexivity.
  - intros e b Hb. destruct (cc_lhs e); [|destruct Hb]. apply in_map_iff in Hb. destruct Hb as (f & <- & _). reflexivity.
Qed.

Lemma linked_terms m y k : In k (cf_constraints x) -> linked m y (units_of d) [] (inters_of d) (cc_id k) == terms_value m y k.
Proof.
  intros I. destruct data_tables as (TU & _ & TI & _). unfold linked, terms_value, units_of, inters_of. rewrite TI.
  rewrite !filter_map_swap. cbn [filter map gu_set gi_set]. rewrite !map_map. cbn [gu_coef gu_unit gu_service gi_coef gi_inter].
  rewrite (inter_rows k I), map_map. cbn [fst snd].
  assert (F := filter_forall2 _ (fun r => String.eqb (cc_id k) (lh_set r)) (fun r => String.eqb (cc_id k) (lh_set r)) _ _ TU).
  rewrite (unit_rows k I) in F.
  rewrite <- (qsum_forall2 _ (fun r => lh_coef r * unit_output m y (lh_of r) (service_for (lh_service r))) (fun g => lh_coef g * unit_output m y (lh_of g) (lh_service g)) _ _
    (F (fun a b Hab => f_equal (String.eqb (cc_id k)) (eq_sym (proj1 Hab))))).
  - rewrite map_map. cbn [lh_coef lh_of lh_service qsum fold_right]. ring.
  - intros a b (_ & -> & -> & ->). reflexivity.
Qed.

Lemma linked_some m k : In k (cf_constraints x) -> has_term m k -> some_linked m (units_of d) [] (inters_of d) (cc_id k).
Proof.
  intros I [(f & s & Hf & R & O)|(f & v & Hf & V & E)]; destruct data_tables as (TU & _ & TI & _).
  - left. assert (Hin : In (LhsRow (cc_id k) (fa_of f) (fa_trade f) (fa_coef f)) (constraint_unit_lhs x)).
    { assert (Z : In (LhsRow (cc_id k) (fa_of f) (fa_trade f) (fa_coef f)) (filter (fun r => String.eqb (cc_id k) (lh_set r)) (constraint_unit_lhs x)))
        by (rewrite (unit_rows k I); apply in_map_iff; exists f; auto). now apply filter_In in Z. }
    destruct (forall2_in_l _ _ _ TU _ Hin) as (b & Hb & E1 & E2 & E3 & E4). cbn [lh_set lh_of lh_coef lh_service] in *.
    exists (GUnit (lh_set b) (lh_of b) (lh_service b) (lh_coef b)), s. split; [apply in_map_iff; exists b; auto|]. cbn [gu_set gu_unit gu_service]. rewrite E1, E2, E4. auto.
  - right. right. exists (GInter (cc_id k) (if_inter f) (if_coef f)), v. split; [|cbn; auto]. unfold inters_of. rewrite TI. apply in_map_iff.
    exists (cc_id k, if_inter f, if_coef f). split; [reflexivity|].
    assert (Z : In (cc_id k, if_inter f, if_coef f) (filter (fun r => String.eqb (cc_id k) (fst (fst r))) (constraint_inter_lhs x)))
      by (rewrite (inter_rows k I); apply in_map_iff; exists f; auto). now apply filter_In in Z.
Qed.

(** A constraint without terms of regions. *)
Lemma case_generic_upheld c w m y : upheld c (OpGeneric (generic_of d) w) m y -> links c (units_of d) [] (inters_of d) m -> solution m y ->
  forall k q ty, invoked x k q -> regions_of k = [] -> type_symbol (cc_type k) ty -> has_term m k -> relation ty (terms_value m y k) q.
Proof.
  intros F L S k q ty I R T Te.
  assert (G : In (Generic (cc_id k) ty q) (generic_of d)).
  { unfold generic_of. apply in_map_iff. exists (RhsRow (cc_id k) q ty). split; [reflexivity|]. apply (generic_iff x d H U). exists k. auto. }
  pose proof (generic_upheld c _ _ _ _ _ m y F L S _ G (linked_some m k (proj1 I) Te)) as Z. cbn [ge_type ge_set ge_rhs] in Z.
  eapply relation_same; [|reflexivity|exact Z]. symmetry. apply linked_terms, I.
Qed.

Lemma case_generic c m y : in_force c (OpGeneric (generic_of d) None) m -> links c (units_of d) [] (inters_of d) m -> solution m y ->
  forall k q ty, invoked x k q -> regions_of k = [] -> type_symbol (cc_type k) ty -> has_term m k -> relation ty (terms_value m y k) q.
Proof. eauto using case_generic_upheld, in_force_upheld. Qed.

Lemma one_match (a : lhs_row) b : In b (cd_rhs d) -> rh_set b = lh_set a -> filter (fun b => String.eqb (lh_set a) (rh_set b)) (cd_rhs d) = [b].
Proof.
  intros B E. pose proof (rhs_once x d H U) as N. revert B N. generalize (cd_rhs d) as l. induction l as [|c l IH]; intros B N; [destruct B|].
  cbn [map] in N. inversion N as [|? ? N1 N2]; subst. cbn [filter]. destruct B as [->|B].
  - rewrite E, String.eqb_refl. f_equal. assert (No : forall r, In r l -> String.eqb (lh_set a) (rh_set r) = false).
    { intros r Hr. apply String.eqb_neq. intros Z. apply N1. rewrite E, Z. now apply in_map. }
    clear - No. induction l as [|r l IH]; [reflexivity|]. cbn. rewrite (No r (or_introl eq_refl)). apply IH. intros s Hs. apply No. now right.
  - destruct (String.eqb_spec (lh_set a) (rh_set c)) as [Z|Z]; [|exact (IH B N2)]. exfalso. apply N1. rewrite <- Z, <- E. now apply in_map.
Qed.

Lemma set_rows k q ty : invoked x k q -> type_symbol (cc_type k) ty ->
  filter (fun r => String.eqb (cc_id k) (TablesModel.fq_set r)) (requirements_of d)
  = map (fun r => FcasReq (lh_set r) (lh_of r) (lh_service r) q ty) (filter (fun r => String.eqb (cc_id k) (lh_set r)) (cd_regions d)).
Proof.
  intros I T. assert (B : In (RhsRow (cc_id k) q ty) (cd_rhs d)) by (apply (data_rhs x d H); exists k; auto).
  unfold requirements_of. rewrite (data_fcas_def x d H), map_map. cbn [ConstraintsModel.fq_set ConstraintsModel.fq_region ConstraintsModel.fq_service ConstraintsModel.fq_volume ConstraintsModel.fq_type].
  generalize (cd_regions d) as l. unfold merge. induction l as [|a l IH]; [reflexivity|]. cbn [flat_map]. rewrite map_app, filter_app, IH. cbn [filter].
  destruct (String.eqb_spec (cc_id k) (lh_set a)) as [E|E].
  - rewrite (one_match a _ B); [|exact E]. cbn [map filter fst snd rh_rhs rh_type TablesModel.fq_set]. rewrite E, String.eqb_refl. reflexivity.
  - rewrite map_map. cbn [fst snd]. rewrite filter_map_swap. cbn [TablesModel.fq_set].
    assert (No : forall (B : Type) (l : list B), filter (fun _ => false) l = []) by (intros C l0; induction l0 as [|z l0 IH0]; [reflexivity|exact IH0]).
    rewrite (proj2 (String.eqb_neq _ _) E), No. reflexivity.
Qed.

Lemma supply_terms m y k q ty : invoked x k q -> type_symbol (cc_type k) ty -> set_supply m y (requirements_of d) (cc_id k) == regions_supply m y k.
Proof.
  intros I T. destruct data_tables as (_ & TR & _). unfold set_supply, regions_supply. rewrite (set_rows k q ty I T), map_map. cbn [TablesModel.fq_region TablesModel.fq_service].
  assert (F := filter_forall2 _ (fun r => String.eqb (cc_id k) (lh_set r)) (fun r => String.eqb (cc_id k) (lh_set r)) _ _ TR).
  rewrite (region_rows k (proj1 I)) in F.
  rewrite <- (qsum_forall2 _ (fun r => region_supply m y (lh_of r) (service_for (lh_service r))) (fun r => region_supply m y (lh_of r) (lh_service r)) _ _
    (F (fun a b Hab => f_equal (String.eqb (cc_id k)) (eq_sym (proj1 Hab))))).
  - rewrite map_map. reflexivity.
  - intros a b (_ & -> & _ & ->). reflexivity.
Qed.

Lemma first_of {A} (p : A -> bool) l a r : filter p l = a :: r -> exists pre post, l = pre ++ a :: post /\ forall b, In b pre -> p b = false.
Proof.
  induction l as [|b l IH]; cbn; [discriminate|]. destruct (p b) eqn:P; intros E.
  - injection E as <- _. exists [], l. split; [reflexivity|intros ? []].
  - destruct (IH E) as (pre & post & -> & K). exists (b :: pre), post. split; [reflexivity|]. intros c [<-|Hc]; [exact P|exact (K c Hc)].
Qed.

(** A constraint with terms of regions. *)
Lemma case_fcas_upheld c vc m y : upheld c (OpFcasReq (requirements_of d) vc) m y -> links c (units_of d) [] (inters_of d) m -> solution m y ->
  (forall k f, In k (cf_constraints x) -> In f (regions_of k) -> service_for (fa_trade f) <> "energy") ->
  forall k q ty, invoked x k q -> type_symbol (cc_type k) ty ->
  regions_of k <> [] -> has_regional_term m k \/ has_term m k -> relation ty (regions_supply m y k + terms_value m y k) q.
Proof.
  intros F L S NE k q ty I T R Te. destruct data_tables as (_ & TR & _).
  assert (G := filter_forall2 _ (fun r => String.eqb (cc_id k) (lh_set r)) (fun r => String.eqb (cc_id k) (lh_set r)) _ _ TR
    (fun a b Hab => f_equal (String.eqb (cc_id k)) (eq_sym (proj1 Hab)))).
  rewrite (region_rows k (proj1 I)) in G.
  pose proof (set_rows k q ty I T) as SR.
  destruct (regions_of k) as [|f fs] eqn:RO; [congruence|]. cbn [map] in G. inversion G as [|? b ? bs Hb Hbs]; subst. rewrite <- H2 in SR. cbn [map] in SR.
  destruct (first_of _ _ _ _ SR) as (pre & post & El & Pre).
  assert (Eb : lh_set b = cc_id k) by (destruct Hb as [-> _]; reflexivity).
  assert (Z : relation ty (set_supply m y (requirements_of d) (cc_id k) + linked m y (units_of d) [] (inters_of d) (cc_id k)) q).
  { pose proof (fcas_upheld c (requirements_of d) _ (units_of d) [] (inters_of d) m y F L S) as K.
    specialize (K ltac:(
      intros r Hr; unfold requirements_of in Hr; apply in_map_iff in Hr; destruct Hr as (w & <- & Hw); cbn [TablesModel.fq_service];
      rewrite (data_fcas_def x d H) in Hw; apply in_map_iff in Hw; destruct Hw as ((u & v) & <- & Huv); apply in_merge in Huv; cbn [fst snd ConstraintsModel.fq_service];
      destruct (forall2_in_r _ _ _ TR _ (proj1 Huv)) as (g & Hg & _ & _ & _ & ->);
      unfold constraint_region_lhs in Hg; apply lhs_in in Hg; destruct Hg as (k' & l' & f' & A1 & A2 & A3 & ->); cbn [lh_service];
      apply (NE k' f' A1); apply regions_in; exists l'; auto)).
    specialize (K pre _ post El). cbn [TablesModel.fq_set TablesModel.fq_type TablesModel.fq_volume] in K. rewrite Eb in K. apply K.
    - intros r Hr Z. specialize (Pre r Hr). rewrite Z, String.eqb_refl in Pre. discriminate.
    - destruct Te as [(f' & Hf' & O)|Te]; [left|right; exact (linked_some m k (proj1 I) Te)].
      assert (Hin : In (LhsRow (cc_id k) (fa_of f') (fa_trade f') (fa_coef f')) (constraint_region_lhs x)).
      { unfold constraint_region_lhs. apply lhs_in. apply regions_in in Hf'. destruct Hf' as (l' & E1 & E2). exists k, l', f'. repeat split; auto. apply I. }
      destruct (forall2_in_l _ _ _ TR _ Hin) as (g & Hg & E1 & E2 & E3 & E4). cbn [lh_set lh_of lh_service] in *.
      exists (FcasReq (lh_set g) (lh_of g) (lh_service g) q ty).
      assert (Hm : In (FcasReq (lh_set g) (lh_of g) (lh_service g) q ty) (filter (fun r => String.eqb (cc_id k) (TablesModel.fq_set r)) (requirements_of d))).
      { rewrite (set_rows k q ty I T). apply in_map_iff. exists g. split; [reflexivity|]. apply filter_In. split; [exact Hg|]. rewrite E1. apply String.eqb_refl. }
      apply filter_In in Hm. split; [apply Hm|]. cbn [TablesModel.fq_set TablesModel.fq_region TablesModel.fq_service]. rewrite E1, E2, E4. auto. }
  eapply relation_same; [|reflexivity|exact Z]. rewrite (supply_terms m y k q ty I T), (linked_terms m y k (proj1 I)). reflexivity.
Qed.

Lemma case_fcas c m y : in_force c (OpFcasReq (requirements_of d) None) m -> links c (units_of d) [] (inters_of d) m -> solution m y ->
  (forall k f, In k (cf_constraints x) -> In f (regions_of k) -> service_for (fa_trade f) <> "energy") ->
  forall k q ty, invoked x k q -> type_symbol (cc_type k) ty ->
  regions_of k <> [] -> has_regional_term m k \/ has_term m k -> relation ty (regions_supply m y k + terms_value m y k) q.
Proof. eauto using case_fcas_upheld, in_force_upheld. Qed.
End Data.

Lemma load_known rd root x : states rd root x -> known_names x ->
  exists d, load_constraints rd (document root) = Got (Ok d) /\ init_constraints x = Ok d.
Proof. intros S K. destruct (known_loads x K) as [d E]. exists d. split; [rewrite (load_states rd root x S), E; reflexivity|exact E]. Qed.
Lemma load_inv rd root x d : states rd root x -> load_constraints rd (document root) = Got (Ok d) -> init_constraints x = Ok d.
Proof. intros S L. rewrite (load_states rd root x S) in L. injection L as ->. reflexivity. Qed.
