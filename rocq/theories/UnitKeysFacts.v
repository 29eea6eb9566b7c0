(** Keys stay unique through the processing of offers. *)

From Coq Require Import QArith String List Bool Lia.
Import ListNotations.
From Verif Require Import PandasModel PandasFacts TablesModel MarketModel ReportsModel OffersModel SpecOffers OffersFacts EnableFacts InvariantFacts ReportFacts.
Open Scope string_scope.
Open Scope list_scope.

Lemma nodup_filter {A} (f : A -> bool) l : NoDup l -> NoDup (filter f l).
Proof. apply NoDup_filter. Qed.

Lemma nodup_map_filter {A B} (k : A -> B) f l : NoDup (map k l) -> NoDup (map k (filter f l)).
Proof.
  induction l as [|a t IH]; cbn; [auto|]. intros H. inversion H as [|x y N D]; subst. destruct (f a); cbn; auto.
  constructor; auto. intros C. apply N. apply in_map_iff in C. destruct C as [b [<- C]]. apply filter_In in C. apply in_map. tauto.
Qed.

Lemma nodup_weaken {A B C} (k : A -> B) (h : A -> C) l : NoDup (map k l) ->
  (forall a b, In a l -> In b l -> h a = h b -> k a = k b) -> NoDup (map h l).
Proof.
  induction l as [|a t IH]; cbn; [constructor|]. intros H W. inversion H as [|x y N D]; subst. constructor.
  - intros C'. apply in_map_iff in C'. destruct C' as [b [E Hb]]. apply N. rewrite (W a b); auto. now apply in_map.
  - apply IH; auto.
Qed.

Lemma nodup_map_app {A B} (k : A -> B) l r : NoDup (map k l) -> NoDup (map k r) ->
  (forall a b, In a l -> In b r -> k a <> k b) -> NoDup (map k (l ++ r)).
Proof.
  intros L R D. rewrite map_app. apply NoDup_app_iff. split; [exact L|]. split; [exact R|].
  intros x Hx Hy. apply in_map_iff in Hx, Hy. destruct Hx as [a [<- Ha]], Hy as [b [E Hb]]. exact (D a b Ha Hb (eq_sym E)).
Qed.

Lemma nodup_key_eq {A B} (k : A -> B) l a b : NoDup (map k l) -> In a l -> In b l -> k a = k b -> a = b.
Proof.
  induction l as [|x t IH]; [contradiction|]. cbn. intros H Ha Hb E. inversion H as [|y z N D]; subst.
  destruct Ha as [->|Ha], Hb as [->|Hb]; auto.
  - exfalso. apply N. rewrite E. now apply in_map.
  - exfalso. apply N. rewrite <- E. now apply in_map.
Qed.

Lemma nodup_merge {A B C D} (f : A -> C) (g : B -> D) on l r : NoDup (map f l) -> NoDup (map g r) ->
  NoDup (map (fun p => (f (fst p), g (snd p))) (merge on l r)).
Proof.
  intros L R. induction l as [|a t IH]; [constructor|]. cbn in L. inversion L as [|x y N D0]; subst. cbn. apply nodup_map_app.
  - rewrite map_map. cbn. apply (nodup_map_filter g (on a)) in R. revert R. generalize (filter (on a) r). intros q Q0.
    apply (nodup_weaken g); auto. intros x y _ _ E. congruence.
  - now apply IH.
  - intros p q Hp Hq E. apply in_map_iff in Hp. destruct Hp as [b [<- Hb]]. apply in_merge_p in Hq. cbn in E. injection E as E _.
    apply N. rewrite E. apply in_map. tauto.
Qed.

Lemma nodup_merge_left {A B C D} (f : A -> C) (g : B -> D) on l r : NoDup (map f l) -> NoDup (map g r) ->
  NoDup (map (fun p => (f (fst p), option_map g (snd p))) (merge_left on l r)).
Proof.
  intros L R. induction l as [|a t IH]; [constructor|]. cbn in L. inversion L as [|x y N D0]; subst. cbn. apply nodup_map_app.
  - apply (nodup_map_filter g (on a)) in R. revert R. destruct (filter (on a) r) as [|b bs] eqn:F; [intros _; cbn; constructor; [intros []|constructor]|].
    clear F. intros Q0. change ((a, Some b) :: map (fun b => (a, Some b)) bs) with (map (fun b => (a, Some b)) (b :: bs)).
    rewrite map_map. cbn [fst snd option_map].
    apply (nodup_weaken g); auto. intros x y _ _ E. congruence.
  - now apply IH.
  - intros p q Hp Hq E. assert (P : fst p = a).
    { destruct (filter (on a) r); [destruct Hp as [<-|[]]; reflexivity|]. destruct Hp as [<-|Hp]; [reflexivity|].
      apply in_map_iff in Hp. destruct Hp as [b' [<- _]]. reflexivity. }
    apply in_merge_left in Hq. injection E as E _. apply N. rewrite <- P, E. apply in_map. tauto.
Qed.

(** A merge whose right side has one row for each value of what is compared. *)
Lemma nodup_merge_fst {A B C D} (f : A -> C) (g : B -> D) on l r : NoDup (map f l) -> NoDup (map g r) ->
  (forall a b a' b', In a l -> In a' l -> on a b = true -> on a' b' = true -> f a = f a' -> g b = g b') ->
  NoDup (map (fun p => f (fst p)) (merge on l r)).
Proof.
  intros L R W. apply (nodup_weaken (fun p => (f (fst p), g (snd p)))); [now apply nodup_merge|].
  intros p q Hp Hq E. apply in_merge_p in Hp, Hq. rewrite (W (fst p) (snd p) (fst q) (snd q)); try tauto. now rewrite E.
Qed.

Lemma nodup_merge_left_fst {A B C D} (f : A -> C) (g : B -> D) on l r : NoDup (map f l) -> NoDup (map g r) ->
  (forall a b a' b', In a l -> In a' l -> on a b = true -> on a' b' = true -> f a = f a' -> g b = g b') ->
  NoDup (map (fun p => f (fst p)) (merge_left on l r)).
Proof.
  intros L R W. apply (nodup_weaken (fun p => (f (fst p), option_map g (snd p)))); [now apply nodup_merge_left|].
  intros [a x] [b y] Hp Hq E. apply in_merge_left in Hp, Hq. cbn [fst snd] in *.
  assert (a = b) by (eapply nodup_key_eq; eauto; tauto). subst b. f_equal.
  destruct x as [x|], y as [y|]; cbn; auto; destruct Hp as [Hp P], Hq as [Hq Q0].
  - f_equal. eapply (W a x a y); tauto.
  - exfalso. destruct P as [P P']. rewrite (Q0 x P) in P'. discriminate.
  - exfalso. destruct Q0 as [Q0 Q']. rewrite (P y Q0) in Q'. discriminate.
Qed.

(** ** Scaling *)

Section Keys.
Variables (agc : list agc_row) (ics : list initial) (uigf : list uigf_row).
Hypothesis Ka : NoDup (map ag_duid agc).
Hypothesis Ki : NoDup (map OffersModel.ic_duid ics).
Hypothesis Ku : NoDup (map ug_unit uigf).

Lemma key_type a b : offer_key a = offer_key b -> of_type a = of_type b.
Proof. unfold offer_key. congruence. Qed.
Lemma key_duid a b : offer_key a = offer_key b -> of_duid a = of_duid b.
Proof. unfold offer_key. congruence. Qed.
Lemma key_dir a b : offer_key a = offer_key b -> of_dir a = of_dir b.
Proof. unfold offer_key. congruence. Qed.

Ltac by_type :=
  let a := fresh in let b := fresh in let A := fresh "A" in let B := fresh "B" in let E := fresh "E" in
  intros a b A B E; apply key_type in E.

Lemma scale_agc_keys offers : NoDup (map offer_key offers) -> NoDup (map offer_key (scale_agc offers agc)).
Proof.
  intros N. unfold scale_agc.
  assert (M : forall s f, (forall p, offer_key (f p) = offer_key (fst p)) ->
    NoDup (map offer_key (map f (merge (fun o a => String.eqb (of_duid o) (ag_duid a)) (filter (of_type_is s) offers) agc)))).
  { intros s f F. rewrite map_map. rewrite (map_ext _ (fun p => offer_key (fst p)) F). apply nodup_merge_fst with (g := ag_duid); auto.
    - now apply nodup_map_filter.
    - intros a b a' b' _ _ H H' E. apply String.eqb_eq in H, H'. apply key_duid in E. congruence. }
  assert (T : forall s (f : offer * agc_row -> offer) o, (forall p, offer_key (f p) = offer_key (fst p)) ->
    In o (map f (merge (fun o a => String.eqb (of_duid o) (ag_duid a)) (filter (of_type_is s) offers) agc)) -> of_type o = s).
  { intros s f o F H. apply in_map_iff in H. destruct H as [p [<- H]]. apply in_merge_p in H. destruct H as [H _].
    apply filter_In in H. destruct H as [_ H]. apply String.eqb_eq in H. rewrite <- H. apply key_type. apply F. }
  apply nodup_map_app; [now apply nodup_map_filter|apply nodup_map_app|].
  - apply M. reflexivity.
  - apply M. reflexivity.
  - intros a b A B E. apply T in A; [|reflexivity]. apply T in B; [|reflexivity]. apply key_type in E. congruence.
  - intros a b A B E. apply key_type in E. apply filter_In in A. destruct A as [_ A]. unfold is_reg, of_type_is in A.
    apply in_app_iff in B. destruct B as [B|B]; apply T in B; try reflexivity; rewrite E, B in A; discriminate.
Qed.

Lemma ramp_scaled_key r o : offer_key (ramp_scaled r o) = offer_key o.
Proof. destruct r; reflexivity. Qed.

Lemma scale_ramp_keys offers out : NoDup (map offer_key offers) -> scale_ramp offers ics = Ok out -> NoDup (map offer_key out).
Proof.
  intros N. unfold scale_ramp, bind. destruct (apply_rows _ _) as [scaled|e] eqn:Z; [|discriminate]. intros H. injection H as <-.
  apply apply_rows_ok in Z. rewrite map_app, !map_map in Z. cbn [fst snd] in Z. subst scaled.
  set (M := fun s (f : offer -> bool) live => merge (fun o i => String.eqb (of_duid o) (OffersModel.ic_duid i))
              (filter (fun o => of_type_is s o && f o) offers) (filter live ics)).
  assert (MN : forall s f live (h : offer * initial -> offer), (forall p, offer_key (h p) = offer_key (fst p)) -> NoDup (map offer_key (map h (M s f live)))).
  { intros s f live h F. rewrite map_map. rewrite (map_ext _ (fun p => offer_key (fst p)) F). apply nodup_merge_fst with (g := OffersModel.ic_duid); auto.
    - now apply nodup_map_filter.
    - now apply nodup_map_filter.
    - intros a b a' b' _ _ H H' E. apply String.eqb_eq in H, H'. apply key_duid in E. congruence. }
  assert (MT : forall s f live (h : offer * initial -> offer) o, (forall p, offer_key (h p) = offer_key (fst p)) -> In o (map h (M s f live)) ->
      of_type o = s /\ exists o', In o' offers /\ offer_key o' = offer_key o /\ f o' = true).
  { intros s f live h o F H. apply in_map_iff in H. destruct H as [p [<- H]]. apply in_merge_p in H. destruct H as [H _].
    apply filter_In in H. destruct H as [H0 H]. apply andb_true_iff in H. destruct H as [H H1]. apply String.eqb_eq in H.
    split; [rewrite <- H; apply key_type; apply F|]. exists (fst p). rewrite F. auto. }
  assert (FT : forall s f o, In o (filter (fun o => of_type_is s o && f o) offers) -> of_type o = s /\ f o = true).
  { intros s f o H. rewrite filter_In, andb_true_iff in H. unfold of_type_is in H. rewrite String.eqb_eq in H. tauto. }
  assert (With : forall rate u, mem_str u (units_without rate ics) = true -> mem_str u (units_with rate ics) = true -> False).
  { intros rate u A B. apply mem_str_in in A. unfold units_without in A. apply filter_In in A. rewrite B in A. destruct A. discriminate. }
  assert (Sep : forall a b s t, of_type a = s -> of_type b = t -> s <> t -> offer_key a <> offer_key b).
  { intros a b s t A B C E. apply key_type in E. congruence. }
  apply nodup_map_app; [now apply nodup_map_filter|apply nodup_map_app;[now apply nodup_map_filter|apply nodup_map_app;
    [now apply nodup_map_filter|apply nodup_map_app; [apply MN; intros p; apply ramp_scaled_key|apply MN; intros p; apply ramp_scaled_key|]|]|]|].
  - intros a b A B. apply MT in A; [|intros p; apply ramp_scaled_key]. apply MT in B; [|intros p; apply ramp_scaled_key].
    apply (Sep a b _ _ (proj1 A) (proj1 B)). discriminate.
  - intros a b A B E. apply FT in A. destruct A as [A Wo]. apply in_app_iff in B. destruct B as [B|B]; (apply MT in B; [|intros p; apply ramp_scaled_key]).
    + destruct B as [_ [o' [_ [K W]]]]. cbn beta in Wo, W. rewrite <- E in K. apply key_duid in K. rewrite K in W. eauto.
    + destruct B as [B _]. apply key_type in E. congruence.
  - intros a b A B E. apply FT in A. destruct A as [A Wo]. apply in_app_iff in B. destruct B as [B|B].
    + apply FT in B. destruct B as [B _]. apply key_type in E. congruence.
    + apply in_app_iff in B. destruct B as [B|B]; (apply MT in B; [|intros p; apply ramp_scaled_key]).
      * destruct B as [B _]. apply key_type in E. congruence.
      * destruct B as [_ [o' [_ [K W]]]]. cbn beta in Wo, W. rewrite <- E in K. apply key_duid in K. rewrite K in W. eauto.
  - intros a b A B E. apply filter_In in A. destruct A as [_ A]. unfold is_reg, of_type_is in A. apply key_type in E.
    assert (T : of_type b = "RAISEREG" \/ of_type b = "LOWERREG").
    { rewrite !in_app_iff in B. destruct B as [B|[B|[B|B]]].
      - apply FT in B. tauto.
      - apply FT in B. tauto.
      - apply MT in B; [tauto|intros p; apply ramp_scaled_key].
      - apply MT in B; [tauto|intros p; apply ramp_scaled_key]. }
    destruct T as [T|T]; rewrite E, T in A; discriminate.
Qed.

Lemma scale_uigf_keys offers : NoDup (map offer_key offers) -> NoDup (map offer_key (scale_uigf offers uigf)).
Proof.
  intros N. unfold scale_uigf. apply nodup_map_app; [now apply nodup_map_filter|apply nodup_map_app; [now repeat apply nodup_map_filter| |]|].
  - rewrite map_map. apply nodup_merge_fst with (f := offer_key) (g := ug_unit); auto; [now repeat apply nodup_map_filter|].
    intros a b a' b' _ _ H H' E. apply String.eqb_eq in H, H'. apply key_duid in E. congruence.
  - intros a b A B E. apply key_duid in E. apply filter_In in A. destruct A as [_ A]. apply in_map_iff in B. destruct B as [p [<- B]].
    apply in_merge_p in B. destruct B as [B _]. apply filter_In in B. destruct B as [_ B]. cbn in E. rewrite E, B in A. discriminate.
  - intros a b A B E. apply key_type in E. apply filter_In in A. destruct A as [_ A]. unfold of_type_is in A.
    apply in_app_iff in B. destruct B as [B|B].
    + rewrite !filter_In in B. destruct B as [[_ B] _]. unfold of_type_is in B. rewrite <- E, A in B. discriminate.
    + apply in_map_iff in B. destruct B as [p [<- B]]. apply in_merge_p in B. destruct B as [B _]. rewrite !filter_In in B.
      destruct B as [[_ B] _]. unfold of_type_is in B. cbn in E. rewrite <- E, A in B. discriminate.
Qed.

(** ** Enabling *)

Definition cap_key (c : cap_row) : string * option string := (cp_unit c, cp_dir c).
Definition row_key (r : fcas_row) : string * string * string := offer_key (fc_offer r).

Section Enabling.
Variables (offers : list offer) (caps : list cap_row).
Hypothesis Ko : NoDup (map offer_key offers).
Hypothesis Kc : NoDup (map cap_key caps).
Hypothesis Kd : forall c d, In c caps -> cp_dir c = Some d -> d = "generator" \/ d = "load".

Lemma cap_on_key u d c c' : In c caps -> In c' caps -> cap_on u d c = true -> cap_on u d c' = true -> cap_key c = cap_key c'.
Proof.
  intros H H' C C'. unfold cap_on in *. apply andb_true_iff in C, C'. destruct C as [U C], C' as [U' C'].
  apply String.eqb_eq in U, U'. unfold cap_key. destruct (cp_dir c) as [x|] eqn:X; [|discriminate]. destruct (cp_dir c') as [y|] eqn:Y; [|discriminate].
  apply String.eqb_eq in C, C'. destruct (Kd c x H X) as [->| ->], (Kd c' y H' Y) as [->| ->]; cbn in C, C'; congruence.
Qed.

Lemma caps_merged {A} (f : A -> string * string * string) (u : A -> string) (d : A -> string) l :
  NoDup (map f l) -> (forall a b, f a = f b -> u a = u b /\ d a = d b) ->
  NoDup (map (fun p => f (fst p)) (merge_left (fun a c => cap_on (u a) (d a) c) l caps)).
Proof.
  intros N W. apply (nodup_weaken (fun p => (f (fst p), option_map cap_key (snd p)))); [now apply nodup_merge_left|].
  intros [a x] [b y] Hp Hq E. apply in_merge_left in Hp, Hq. cbn [fst snd] in *.
  assert (a = b) by (eapply nodup_key_eq; eauto; tauto). subst b. f_equal.
  destruct x as [x|], y as [y|]; cbn; auto; destruct Hp as [Hp P], Hq as [Hq Q0].
  - f_equal. eapply cap_on_key; try apply P; try apply Q0.
  - exfalso. destruct P as [P P']. rewrite (Q0 x P) in P'. discriminate.
  - exfalso. destruct Q0 as [Q0 Q']. rewrite (P y Q0) in Q'. discriminate.
Qed.

Lemma fcas_rows_keys : NoDup (map row_key (fcas_rows offers ics caps)).
Proof.
  unfold fcas_rows. rewrite map_map. unfold row_key. cbn [fc_offer].
  apply nodup_merge_fst with (f := fun p : offer * option Q => offer_key (fst p)) (g := OffersModel.ic_duid); auto.
  - apply nodup_map_filter. rewrite map_map. cbn [fst].
    apply (caps_merged offer_key of_duid of_dir); [now repeat apply nodup_map_filter|]. intros a b E. split; [now apply key_duid|now apply key_dir].
  - intros a b a' b' _ _ H H' E. apply String.eqb_eq in H, H'. apply key_duid in E. congruence.
Qed.

Let rows := fcas_rows offers ics caps.

(** [r] comes from a row with property [P]. *)
Definition from (P : fcas_row -> Prop) (r : fcas_row) : Prop := exists r', In r' rows /\ row_key r' = row_key r /\ P r'.

Lemma from_apart P Q a b : from P a -> from Q b -> (forall r, P r -> Q r -> False) -> row_key a <> row_key b.
Proof.
  intros [a' [A [KA PA]]] [b' [B [KB QB]]] D E. assert (a' = b') by (apply (nodup_key_eq row_key rows); auto; [apply fcas_rows_keys|congruence]).
  subst b'. eauto.
Qed.

Definition reg_key (p : fcas_row * Q * Q) : string * string * string := row_key (fst (fst p)).

Lemma gen_reg_keys gen load : NoDup (map row_key gen) -> NoDup (map row_key load) ->
  (forall r r', In r load -> In r' load -> of_dir (fc_offer r) = of_dir (fc_offer r')) ->
  NoDup (map reg_key (gen_reg_rows gen load)).
Proof.
  intros G L D. unfold gen_reg_rows. apply nodup_map_filter. rewrite map_map. unfold reg_key. cbn [fst].
  apply (nodup_weaken (fun p => (row_key (fst p), option_map row_key (snd p)))); [now apply nodup_merge_left|].
  intros [a x] [b y] Hp Hq E. apply in_merge_left in Hp, Hq. cbn [fst snd] in *.
  assert (a = b) by (apply (nodup_key_eq row_key gen); tauto). subst b. f_equal.
  destruct x as [x|], y as [y|]; cbn; auto; destruct Hp as [Hp P], Hq as [Hq Q0].
  - f_equal. unfold row_key, offer_key. unfold other_side in *. rewrite !andb_true_iff, !String.eqb_eq in *.
    destruct P as [P [P1 P2]], Q0 as [Q0 [Q1 Q2]]. rewrite (D x y P Q0). congruence.
  - exfalso. destruct P as [P P']. rewrite (Q0 x P) in P'. discriminate.
  - exfalso. destruct Q0 as [Q0 Q']. rewrite (P y Q0) in Q'. discriminate.
Qed.

Lemma load_reg_keys gen load : NoDup (map row_key gen) -> NoDup (map row_key load) ->
  (forall r r', In r gen -> In r' gen -> of_dir (fc_offer r) = of_dir (fc_offer r')) ->
  NoDup (map reg_key (load_reg_rows gen load)).
Proof.
  intros G L D. unfold load_reg_rows. apply nodup_map_filter. rewrite map_map. unfold reg_key. cbn [fst].
  apply (nodup_weaken (fun p => (row_key (fst p), option_map row_key (snd p)))); [now apply nodup_merge_left|].
  intros [a x] [b y] Hp Hq E. apply in_merge_left in Hp, Hq. cbn [fst snd] in *.
  assert (a = b) by (apply (nodup_key_eq row_key load); tauto). subst b. f_equal.
  destruct x as [x|], y as [y|]; cbn; auto; destruct Hp as [Hp P], Hq as [Hq Q0].
  - f_equal. unfold row_key, offer_key. unfold other_side in *. rewrite !andb_true_iff, !String.eqb_eq in *.
    destruct P as [P [P1 P2]], Q0 as [Q0 [Q1 Q2]]. rewrite (D x y P Q0). congruence.
  - exfalso. destruct P as [P P']. rewrite (Q0 x P) in P'. discriminate.
  - exfalso. destruct Q0 as [Q0 Q']. rewrite (P y Q0) in Q'. discriminate.
Qed.

Lemma enabled_rows_keys : NoDup (map row_key (enabled_rows offers ics caps)).
Proof.
  assert (R := fcas_rows_keys). fold rows in R. unfold enabled_rows. fold rows. apply nodup_map_filter.
  set (gen := filter (dir_is "GENERATOR") (filter is_bdu rows)). set (load := filter (dir_is "LOAD") (filter is_bdu rows)).
  assert (G : NoDup (map row_key gen)) by now repeat apply nodup_map_filter.
  assert (L : NoDup (map row_key load)) by now repeat apply nodup_map_filter.
  assert (InG : forall r, In r gen -> In r rows /\ is_bdu r = true /\ of_dir (fc_offer r) = "GENERATOR").
  { intros r H. unfold gen in H. rewrite !filter_In in H. unfold dir_is in H. rewrite String.eqb_eq in H. tauto. }
  assert (InL : forall r, In r load -> In r rows /\ is_bdu r = true /\ of_dir (fc_offer r) = "LOAD").
  { intros r H. unfold load in H. rewrite !filter_In in H. unfold dir_is in H. rewrite String.eqb_eq in H. tauto. }
  set (PA := fun r => is_bdu r = true /\ reg_row r = false /\ of_dir (fc_offer r) = "LOAD").
  set (PB := fun r => is_bdu r = true /\ reg_row r = false /\ of_dir (fc_offer r) = "GENERATOR").
  set (PC := fun r => is_bdu r = false).
  set (PD := fun r => is_bdu r = true /\ reg_row r = true /\ of_dir (fc_offer r) = "GENERATOR").
  set (PE := fun r => is_bdu r = true /\ reg_row r = true /\ of_dir (fc_offer r) = "LOAD").
  assert (FA : forall r, In r (filter within_own (filter keep_load_con (filter (fun r => negb (reg_row r)) load))) -> from PA r).
  { intros r H. rewrite !filter_In in H. destruct H as [[[H N] _] _]. apply negb_true_iff in N. destruct (InL r H) as [X [Y Z]]. exists r. split; [exact X|]. split; [reflexivity|]. unfold PA. auto. }
  assert (FB : forall r, In r (filter within_own (gen_con_rows (filter (fun r => negb (reg_row r)) gen) caps)) -> from PB r).
  { intros r H. apply filter_In in H. destruct H as [H _]. unfold gen_con_rows in H. apply in_map_iff in H. destruct H as [[r' c] [<- H]].
    apply filter_In in H. destruct H as [H _]. apply in_merge_left in H. destruct H as [H _]. cbn [fst] in *. rewrite !filter_In in H.
    destruct H as [[H N] _]. apply negb_true_iff in N. destruct (InG r' H) as [X [Y Z]]. exists r'. split; [exact X|]. split; [reflexivity|]. unfold PB. auto. }
  assert (FC : forall r, In r (filter keep_plain (filter (fun r => negb (is_bdu r)) rows)) -> from PC r).
  { intros r H. rewrite !filter_In in H. destruct H as [[H N] _]. apply negb_true_iff in N. exists r. unfold PC. auto. }
  assert (FD : forall p, In p (gen_reg_rows (filter reg_row gen) (filter reg_row load)) -> from PD (fst (fst p))).
  { intros p H. unfold gen_reg_rows in H. apply filter_In in H. destruct H as [H _]. apply in_map_iff in H. destruct H as [[r c] [<- H]].
    apply in_merge_left in H. destruct H as [H _]. cbn [fst] in *. apply filter_In in H. destruct H as [H N]. destruct (InG r H) as [X [Y Z]].
    exists r. unfold PD. auto. }
  assert (FE : forall p, In p (load_reg_rows (filter reg_row gen) (filter reg_row load)) -> from PE (fst (fst p))).
  { intros p H. unfold load_reg_rows in H. apply filter_In in H. destruct H as [H _]. apply in_map_iff in H. destruct H as [[r c] [<- H]].
    apply in_merge_left in H. destruct H as [H _]. cbn [fst] in *. apply filter_In in H. destruct H as [H N]. destruct (InL r H) as [X [Y Z]].
    exists r. unfold PE. auto. }
  assert (FR : forall r, In r (map (fun p : fcas_row * Q * Q => fst (fst p))
                (filter (fun p => starts_within (snd (fst p)) (snd p) (ic_mw (fc_init (fst (fst p)))))
                   (gen_reg_rows (filter reg_row gen) (filter reg_row load) ++ load_reg_rows (filter reg_row gen) (filter reg_row load)))) ->
               from PD r \/ from PE r).
  { intros r H. apply in_map_iff in H. destruct H as [p [<- H]]. apply filter_In in H. destruct H as [H _]. apply in_app_iff in H. destruct H; auto. }
  unfold PA, PB, PC, PD, PE in *. clear PA PB PC PD PE.
  apply nodup_map_app; [now repeat apply nodup_map_filter| |].
  - apply nodup_map_app; [| |].
    + apply nodup_map_filter. unfold gen_con_rows. rewrite map_map. unfold row_key at 1. cbn [fc_offer].
      apply (nodup_map_filter (fun p : fcas_row * option cap_row => offer_key (fc_offer (fst p)))).
      apply (caps_merged row_key (fun r => of_duid (fc_offer r)) (fun _ => "LOAD")); [now repeat apply nodup_map_filter|].
      intros a b E. split; [now apply key_duid|reflexivity].
    + apply nodup_map_app; [now repeat apply nodup_map_filter| |].
      * rewrite map_map. change (fun x : fcas_row * Q * Q => row_key (fst (fst x))) with reg_key. apply nodup_map_filter. apply nodup_map_app.
        -- apply gen_reg_keys; [now apply nodup_map_filter|now apply nodup_map_filter|]. intros r r' H H'. apply filter_In in H, H'.
           destruct (InL r) as [_ [_ ->]]; [tauto|]. destruct (InL r') as [_ [_ ->]]; [tauto|reflexivity].
        -- apply load_reg_keys; [now apply nodup_map_filter|now apply nodup_map_filter|]. intros r r' H H'. apply filter_In in H, H'.
           destruct (InG r) as [_ [_ ->]]; [tauto|]. destruct (InG r') as [_ [_ ->]]; [tauto|reflexivity].
        -- intros a b A B. eapply from_apart; [apply FD; exact A|apply FE; exact B|]. intros r [_ [_ X]] [_ [_ Y]]. congruence.
      * intros a b A B. destruct (FR b B) as [B'|B']; (eapply from_apart; [apply FC; exact A|exact B'|]); intros r X [Y _]; cbn in X; congruence.
    + intros a b A B. apply in_app_iff in B. destruct B as [B|B].
      * eapply from_apart; [apply FB; exact A|apply FC; exact B|]. cbn. intros r [X _] Y. congruence.
      * destruct (FR b B) as [B'|B']; (eapply from_apart; [apply FB; exact A|exact B'|]); intros r [_ [X _]] [_ [Y _]]; congruence.
  - intros a b A B. rewrite !in_app_iff in B. destruct B as [B|[B|B]].
    + eapply from_apart; [apply FA; exact A|apply FB; exact B|]. intros r [_ [_ X]] [_ [_ Y]]. congruence.
    + eapply from_apart; [apply FA; exact A|apply FC; exact B|]. cbn. intros r [X _] Y. congruence.
    + destruct (FR b B) as [B'|B']; (eapply from_apart; [apply FA; exact A|exact B'|]); intros r [_ [X _]] [_ [Y _]]; congruence.
Qed.
End Enabling.
End Keys.

Lemma availability_keys old offers uigf : NoDup (map offer_key offers) -> NoDup (map ug_unit uigf) ->
  (forall o, In o offers -> of_dir o = "GENERATOR" \/ of_dir o = "LOAD") ->
  NoDup (map cap_key (unit_availability old offers uigf))
  /\ (forall c d, In c (unit_availability old offers uigf) -> cp_dir c = Some d -> d = "generator" \/ d = "load").
Proof.
  intros N Ku D. unfold unit_availability. split.
  - apply nodup_map_app.
    + rewrite map_map. unfold cap_key. cbn. apply (nodup_weaken offer_key); [now repeat apply nodup_map_filter|].
      intros a b A B E. rewrite !filter_In in A, B. destruct A as [[A TA] _], B as [[B TB] _]. unfold of_type_is in *. apply String.eqb_eq in TA, TB.
      injection E as E1 E2. unfold offer_key. destruct (D a A) as [X|X], (D b B) as [Y|Y]; rewrite X, Y in E2 |- *; cbn in E2; congruence.
    + rewrite map_map. unfold cap_key. cbn. apply (nodup_weaken ug_unit); auto. intros a b _ _ E. congruence.
    + intros a b A B E. apply in_map_iff in A, B. destruct A as [x [<- _]], B as [y [<- _]]. discriminate.
  - intros c d H E. apply in_app_iff in H. destruct H as [H|H]; apply in_map_iff in H; destruct H as [x [<- H]]; cbn in E; [|discriminate].
    injection E as <-. rewrite !filter_In in H. destruct (D x) as [X|X]; [tauto| |]; rewrite X; cbn; auto.
Qed.

Lemma process_keys old offers prices agc ics uigf v p :
  NoDup (map offer_key offers) -> (forall o, In o offers -> of_dir o = "GENERATOR" \/ of_dir o = "LOAD") ->
  NoDup (map ag_duid agc) -> NoDup (map OffersModel.ic_duid ics) -> NoDup (map ug_unit uigf) -> NoDup (map price_key prices) ->
  process_offers old offers prices agc ics uigf = Ok (v, p) ->
  NoDup (map offer_key v) /\ NoDup (map price_key p).
Proof.
  intros N D Ka Ki Ku Kp H. apply process_inv in H. destruct H as [scaled [S E]].
  assert (N1 := scale_agc_keys agc Ka offers N). assert (N2 := scale_ramp_keys ics Ki _ _ N1 S). assert (N3 := scale_uigf_keys uigf Ku _ N2).
  destruct (availability_keys old offers uigf N Ku D) as [C1 C2].
  assert (N4 := enabled_rows_keys ics Ki _ _ N3 C1 C2).
  unfold enforce in E. injection E as -> ->. split.
  - apply nodup_map_app; [now apply nodup_map_filter|now rewrite map_map|].
    intros a b A B E. apply filter_In in A. destruct A as [_ A]. apply rows_positive in B. destruct B as [_ [B _]].
    unfold of_type_is in A. apply String.eqb_eq in A. apply key_type in E. congruence.
  - apply nodup_map_app; [now apply nodup_map_filter| |].
    + rewrite map_map. apply nodup_merge_fst with (f := price_key) (g := offer_key); [now apply nodup_map_filter|now rewrite map_map|].
      intros a b a' b' _ _ H H' E. rewrite !andb_true_iff, !String.eqb_eq in *. unfold price_key, offer_key in *. destruct H as [[? ?] ?], H' as [[? ?] ?]. congruence.
    + intros a b A B E. apply filter_In in A. destruct A as [_ A]. apply String.eqb_eq in A.
      apply in_map_iff in B. destruct B as [q [<- B]]. apply in_merge_p in B. destruct B as [B _]. apply filter_In in B. destruct B as [_ B].
      apply negb_true_iff, String.eqb_neq in B. unfold price_key in E. congruence.
Qed.
