(** Lemmas about the inputs read from a case file. *)

From Coq Require Import QArith String Ascii List Bool Lia.
Import ListNotations.
From Verif Require Import PandasModel TablesModel MarketModel OffersModel XmlModel UnitDataModel CaseModel.
From Verif Require Import SpecOffers SpecXml SpecUnitData SpecCase.
From Verif Require Import PandasFacts XmlFacts XmlReadFacts RhsReadFacts.
Open Scope string_scope.
Open Scope list_scope.

(** ** A row *)

Lemma cell_got cells n q : dget n cells = Some (VNum q) -> cell_number cells n = Got q.
Proof. intros E. unfold cell_number. rewrite E. reflexivity. Qed.

Lemma volume_cells rd p r : volumes_readable rd p -> attr "MaxAvail" (snd p) <> None ->
  row_of rd volume_columns (fun _ => None) p r -> carried_over p r ->
  forall n c a, nth_error volume_columns n = Some (c, a) -> exists q, dget c (bi_cells r) = Some (VNum q).
Proof.
  intros (_ & _ & _ & O) M (_ & _ & _ & _ & G) (C & _).
  assert (K : forall c a, In (c, a) volume_columns -> attr a (snd p) <> None -> exists q, dget c (bi_cells r) = Some (VNum q)).
  { intros c a I N. destruct (attr a (snd p)) as [s|] eqn:E; [|congruence]. destruct (O c a s I E) as (q & Q).
    exists q. apply (G c a q I). exists s. split; assumption. }
  induction n as [|n IH]; intros c a E.
  - cbn in E. injection E as <- <-. apply (K "MAXAVAIL" "MaxAvail"); [now left|exact M].
  - destruct (attr a (snd p)) as [s|] eqn:A; [apply (K c a); [exact (nth_error_In _ _ E)|congruence]|].
    destruct (nth_error volume_columns n) as [[b e]|] eqn:B.
    + destruct (nth_error_split _ _ B) as (l1 & l2 & L & LL). destruct l2 as [|x post].
      * rewrite L in E. rewrite nth_error_app2 in E by lia. replace (S n - length l1)%nat with 1%nat in E by lia. discriminate.
      * assert (X : x = (c, a)).
        { rewrite L in E. rewrite nth_error_app2 in E by lia. replace (S n - length l1)%nat with 1%nat in E by lia. cbn in E. congruence. }
        subst x. rewrite (C l1 b e c a post L A). exact (IH b e eq_refl).
    + apply nth_error_None in B. assert (S n < length volume_columns)%nat by (apply nth_error_Some; congruence). lia.
Qed.

Lemma each_total {A B} (f : A -> xres B) l : (forall a, In a l -> exists b, f a = Got b) -> exists bs, XmlModel.each f l = Got bs.
Proof.
  induction l as [|a l IH]; intros H; [exists []; reflexivity|].
  destruct (H a (or_introl eq_refl)) as (b & E). destruct IH as (bs & Es); [intros x I; apply H; now right|].
  exists (b :: bs). cbn. rewrite E. cbn. rewrite Es. reflexivity.
Qed.

Lemma forall2_nth {A B} (R : A -> B -> Prop) l m : Forall2 R l m -> forall n a, nth_error l n = Some a -> exists b, nth_error m n = Some b /\ R a b.
Proof.
  induction 1 as [|a b l m H _ IH]; intros [|n] x E; try discriminate.
  - injection E as <-. exists b. split; [reflexivity|exact H].
  - exact (IH n x E).
Qed.

Definition columns_for (names : list string) (pre pre' : string) (columns : list (string * string)) : Prop :=
  forall n b, nth_error band_names n = Some b -> nth_error names n = Some (pre ++ b)%string /\ In ((pre ++ b)%string, (pre' ++ b)%string) columns.
Lemma ten_columns names pre pre' columns :
  (forall n, (n < 10)%nat -> exists b, nth_error band_names n = Some b /\ nth_error names n = Some (pre ++ b)%string /\ In ((pre ++ b)%string, (pre' ++ b)%string) columns) ->
  columns_for names pre pre' columns.
Proof.
  intros H n b E. assert (n < 10)%nat. { change 10%nat with (length band_names). apply nth_error_Some. congruence. }
  destruct (H n H0) as (b' & E' & X). congruence.
Qed.
Lemma volume_band_columns : columns_for volume_bands "BANDAVAIL" "BandAvail" volume_columns.
Proof.
  apply ten_columns. intros n H. do 10 (destruct n as [|n]; [eexists; split; [reflexivity|]; split; [reflexivity|cbn; tauto]|]). lia.
Qed.
Lemma price_band_columns : columns_for price_bands "PRICEBAND" "PriceBand" price_columns.
Proof.
  apply ten_columns. intros n H. do 10 (destruct n as [|n]; [eexists; split; [reflexivity|]; split; [reflexivity|cbn; tauto]|]). lia.
Qed.

Lemma bands_read rd pre pre' names columns p cells l : columns_for names pre pre' columns -> length names = 10%nat ->
  (forall c a q, In (c, a) columns -> number rd a (snd p) q -> dget c cells = Some (VNum q)) ->
  XmlModel.each (cell_number cells) names = Got l -> bands_of_trade rd pre' p l.
Proof.
  intros C L G E. apply each_inv in E. split.
  - rewrite <- (forall2_len _ _ _ E). exact L.
  - intros b q I N. apply In_nth_error in I. destruct I as (n & I). destruct (C n b I) as (E1 & I1).
    exists n. split; [exact I|]. destruct (forall2_nth _ _ _ E n _ E1) as (x & X & Y).
    unfold cell_number in Y. rewrite (G _ _ q I1 N) in Y. congruence.
Qed.

Lemma volume_in_says rd p r : volumes_readable rd p -> attr "MaxAvail" (snd p) <> None ->
  row_of rd volume_columns (fun _ => None) p r -> carried_over p r -> exists w, volume_in r = Got w /\ volume_says rd p w.
Proof.
  intros O M R C. pose proof (volume_cells rd p r O M R C) as K. destruct R as (R1 & R2 & R3 & _ & G).
  destruct (K 0%nat _ _ eq_refl) as (q0 & Q0). destruct (K 1%nat _ _ eq_refl) as (q1 & Q1). destruct (K 2%nat _ _ eq_refl) as (q2 & Q2).
  destruct (K 3%nat _ _ eq_refl) as (q3 & Q3). destruct (K 4%nat _ _ eq_refl) as (q4 & Q4).
  destruct (K 15%nat _ _ eq_refl) as (q5 & Q5). destruct (K 16%nat _ _ eq_refl) as (q6 & Q6).
  assert (EB : exists l, XmlModel.each (cell_number (bi_cells r)) volume_bands = Got l).
  { apply each_total. intros b I. apply In_nth_error in I. destruct I as (n & I).
    assert (n < 10)%nat by (change 10%nat with (length volume_bands); apply nth_error_Some; congruence).
    assert (exists a, nth_error volume_columns (5 + n) = Some (b, a)) as (a & E).
    { do 10 (destruct n as [|n]; [cbn in I; injection I as <-; eexists; reflexivity|]). lia. }
    destruct (K _ _ _ E) as (q & Q). exists q. exact (cell_got _ _ _ Q). }
  destruct EB as (l & EB).
  eexists. split.
  - unfold volume_in. rewrite (cell_got _ _ _ Q0), (cell_got _ _ _ Q1), (cell_got _ _ _ Q2), (cell_got _ _ _ Q3), (cell_got _ _ _ Q4), EB, (cell_got _ _ _ Q5), (cell_got _ _ _ Q6).
    cbn [xbind]. reflexivity.
  - assert (V : forall c a q x, In (c, a) volume_columns -> dget c (bi_cells r) = Some (VNum x) -> number rd a (snd p) q -> x = q).
    { intros c a q x I D N. rewrite (G c a q I N) in D. congruence. }
    split; [exact R1|]. split; [exact R2|]. split; [exact R3|]. cbn [vo_max vo_emin vo_low vo_high vo_emax vo_down vo_up vo_bands].
    split; [intros q N; refine (V _ _ q _ _ Q0 N); cbn; tauto|].
    split; [intros q N; refine (V _ _ q _ _ Q1 N); cbn; tauto|].
    split; [intros q N; refine (V _ _ q _ _ Q3 N); cbn; tauto|].
    split; [intros q N; refine (V _ _ q _ _ Q4 N); cbn; tauto|].
    split; [intros q N; refine (V _ _ q _ _ Q2 N); cbn; tauto|].
    split; [intros q N; f_equal; refine (V _ _ q _ _ Q5 N); cbn; tauto|].
    split; [intros q N; f_equal; refine (V _ _ q _ _ Q6 N); cbn; tauto|].
    exact (bands_read rd _ _ _ _ p _ l volume_band_columns eq_refl G EB).
Qed.

Lemma price_in_says rd p r : prices_readable rd p -> bands_given "PriceBand" p ->
  row_of rd price_columns direction_of_type p r -> exists w, price_in r = Got w /\ price_says rd p w.
Proof.
  intros (_ & (_ & OD & O) & T) B (R1 & R2 & R3 & _ & G).
  assert (D : exists d, bi_dir r = Some d /\ on_side p d).
  { unfold on_side. destruct (attr "Direction" (snd p)) as [s|] eqn:E.
    - specialize (OD s eq_refl). rewrite R3 in OD. destruct (bi_dir r) as [d|]; [|congruence]. exists d. split; [reflexivity|exact R3].
    - specialize (T eq_refl). rewrite <- R3 in T. destruct (bi_dir r) as [d|]; [|congruence]. exists d. split; [reflexivity|now rewrite R3]. }
  destruct D as (d & D & S).
  assert (EB : exists l, XmlModel.each (cell_number (bi_cells r)) price_bands = Got l).
  { apply each_total. intros b I. apply In_nth_error in I. destruct I as (n & I).
    assert (n < length band_names)%nat by (change (length band_names) with (length price_bands); apply nth_error_Some; congruence).
    destruct (nth_error band_names n) as [x|] eqn:X; [|apply nth_error_None in X; lia].
    destruct (price_band_columns n x X) as (E & J). rewrite I in E. injection E as ->.
    specialize (B x (nth_error_In _ _ X)). destruct (attr ("PriceBand" ++ x) (snd p)) as [s|] eqn:A; [|congruence].
    destruct (O _ _ s J A) as (q & Q). exists q. apply cell_got. apply (G _ _ q J). exists s. split; assumption. }
  destruct EB as (l & EB). exists (PriceOffer (bi_duid r) d (bi_type r) l). split.
  - unfold price_in. rewrite D, EB. reflexivity.
  - split; [exact R1|]. split; [exact R2|]. split; [exact S|]. exact (bands_read rd _ _ _ _ p _ l price_band_columns eq_refl G EB).
Qed.

(** ** The tables *)

Lemma each_says {A B C} (S : A -> C -> Prop) (f : B -> xres C) (R : A -> B -> Prop) l m : Forall2 R l m ->
  (forall a b, In a l -> R a b -> exists c, f b = Got c /\ S a c) -> exists cs, XmlModel.each f m = Got cs /\ Forall2 S l cs.
Proof.
  induction 1 as [|a b l m H _ IH]; intros K; [exists []; split; [reflexivity|constructor]|].
  destruct (K a b (or_introl eq_refl) H) as (c & E & X). destruct IH as (cs & Es & Xs); [intros x y I; apply K; now right|].
  exists (c :: cs). cbn. rewrite E. cbn. rewrite Es. split; [reflexivity|now constructor].
Qed.
Lemma forall2_both {A B} (R S : A -> B -> Prop) l m : Forall2 R l m -> Forall2 S l m -> Forall2 (fun a b => R a b /\ S a b) l m.
Proof. induction 1 as [|a b l m H _ IH]; intros F; inversion F; subst; constructor; auto. Qed.

Definition read_from (rd : reader) (ts us : list elem) (vs ps : list (elem * elem)) (i : inputs) : Prop :=
  Forall2 (price_says rd) ps (in_prices i) /\ Forall2 (volume_says rd) vs (in_volumes i)
  /\ (exists mw, Forall2 (initial_of rd mw) ts (in_initials i)) /\ picks forecast (forecast_of rd) us (in_uigf i).

Lemma load_read rd root ts us vs ps details agc old : bidding rd root ts us vs ps ->
  exists i, load rd (document root) details agc old = Got i /\ in_details i = details /\ in_agc i = agc /\ in_old i = old
    /\ Forall2 (price_says rd) ps (in_prices i) /\ Forall2 (volume_says rd) vs (in_volumes i)
    /\ (plain_period root -> Forall2 (initial_of rd "InitialMW") ts (in_initials i))
    /\ (intervention_period root -> Forall2 (initial_of rd "WhatIfInitialMW") ts (in_initials i))
    /\ picks forecast (forecast_of rd) us (in_uigf i).
Proof.
  intros [T U RUN P V PO VO M F _ _ _].
  destruct (price_bids_rows rd root ts ps T P (fun p I => proj1 (PO p I))) as (pr & PE & PF).
  destruct (each_says (price_says rd) price_in _ _ _ PF (fun p r I => price_in_says rd p r (proj1 (PO p I)) (proj2 (PO p I)))) as (prs & PE' & PF').
  destruct (volume_bids_rows rd root us vs U V (fun p I => proj1 (VO p I))) as (vr & VE & VF).
  pose proof (volume_gaps rd root us vs vr U V (fun p I => proj1 (VO p I)) VE) as VG.
  destruct (each_says (volume_says rd) volume_in _ _ _ (forall2_both _ _ _ _ VF VG)
              (fun p r I K => volume_in_says rd p r (proj1 (VO p I)) (proj2 (VO p I)) (proj1 K) (proj2 K))) as (vrs & VE' & VF').
  destruct (uigf_read rd root us U F) as (ur & UE & UF).
  assert (exists ir, initial_conditions rd (document root) = Got ir
            /\ (plain_period root -> Forall2 (initial_of rd "InitialMW") ts ir)
            /\ (intervention_period root -> Forall2 (initial_of rd "WhatIfInitialMW") ts ir)) as (ir & IE & IF1 & IF2).
  { assert (PQ : plain_period root -> intervention_period root -> False).
    { intros A B. pose proof (plain_read root A) as X. pose proof (intervention_read root B) as Y. congruence. }
    destruct RUN as [A|A].
    - destruct (initial_read rd root ts false "InitialMW" T (plain_read root A) eq_refl M) as (ir & E & X). exists ir. split; [exact E|]. split; [auto|]. intros B; destruct (PQ A B).
    - destruct (initial_read rd root ts true "WhatIfInitialMW" T (intervention_read root A) eq_refl M) as (ir & E & X). exists ir. split; [exact E|]. split; [intros B; destruct (PQ B A)|auto]. }
  exists (Inputs prs vrs ir ur details agc old). split.
  { unfold load. rewrite PE. cbn [xbind]. rewrite PE'. cbn [xbind]. rewrite VE. cbn [xbind]. rewrite VE'. cbn [xbind]. rewrite IE. cbn [xbind]. rewrite UE. reflexivity. }
  split; [reflexivity|]. split; [reflexivity|]. split; [reflexivity|]. split; [exact PF'|]. split; [exact VF'|]. split; [exact IF1|]. split; [exact IF2|exact UF].
Qed.

(** ** Inputs that belong together *)

Lemma unit_same p u w : of_unit p u -> of_unit p w -> u = w.
Proof. unfold of_unit, named. congruence. Qed.
Lemma market_same p u w : of_market p u -> of_market p w -> u = w.
Proof. intros (s & A & B) (s' & A' & B'). congruence. Qed.
Lemma side_same p u w : on_side p u -> on_side p w -> u = w.
Proof. unfold on_side. destruct (attr "Direction" (snd p)); congruence. Qed.

Lemma market_name m s : market_of s = Some m -> In m ("ENERGY" :: fcas_types).
Proof.
  intros H.
  assert (D : forall k, In k ["ENOF"; "LDOF"; "DROF"; "BDOF"; "R5RE"; "L5RE"; "R1SE"; "L1SE"; "R6SE"; "L6SE"; "R60S"; "L60S"; "R5MI"; "L5MI"] -> market_of k <> None) by (cbn; intuition; subst; discriminate).
  unfold market_of in H.
  repeat match type of H with context [match ?x with _ => _ end] => destruct x; try discriminate H end; injection H as <-; cbn; tauto.
Qed.
Lemma side_name p d : on_side p d -> direction d.
Proof.
  unfold on_side, direction. destruct (attr "Direction" (snd p)) as [s|].
  - unfold direction_of. intros H. repeat match type of H with context [match ?x with _ => _ end] => destruct x; try discriminate H end; injection H as <-; tauto.
  - unfold direction_of_type. intros H. repeat match type of H with context [match ?x with _ => _ end] => destruct x; try discriminate H end; injection H as <-; tauto.
Qed.

Section Belong.
Variable rd : reader.
Variables ps vs : list (elem * elem).
Variables prs : list price_offer.
Variables vrs : list UnitDataModel.volume_row.
Hypothesis M : matched vs ps.
Hypothesis FP : Forall2 (price_says rd) ps prs.
Hypothesis FV : Forall2 (volume_says rd) vs vrs.

Hypothesis R : forall v, In v vs -> volumes_readable rd v.

Lemma partner_belongs v w p r : In v vs -> volume_says rd v w -> price_says rd p r -> (partner v p <-> belongs w r).
Proof.
  intros I (V1 & V2 & V3 & _) (P1 & P2 & P3 & _). unfold partner, belongs. split.
  - intros (u & m & d & A & B & C & D & E & G).
    rewrite (unit_same _ _ _ V1 A), (unit_same _ _ _ P1 B), (market_same _ _ _ V2 C), (market_same _ _ _ P2 D), (side_same _ _ _ P3 E).
    split; [reflexivity|]. split; [reflexivity|]. destruct (attr "Direction" (snd v)) as [s|]; [right; rewrite <- V3; exact (G s eq_refl)|left; exact V3].
  - intros (A & B & C). exists (vo_duid w), (vo_type w), (po_dir r). split; [exact V1|]. split; [now rewrite A|]. split; [exact V2|]. split; [now rewrite B|].
    split; [exact P3|]. intros s S. rewrite S in V3. destruct C as [C|C]; [|congruence].
    exfalso. destruct (R v I) as (_ & _ & N & _). apply (N s S). congruence.
Qed.

Lemma pairs_in {A B} (S : A -> B -> Prop) l m : Forall2 S l m -> forall x, In x (combine l m) -> In (fst x) l /\ In (snd x) m /\ S (fst x) (snd x).
Proof.
  induction 1 as [|a b l m H _ IH]; intros x I; [destruct I|]. destruct I as [<-|I]; [cbn; auto|].
  destruct (IH x I) as (X & Y & Z). cbn. auto.
Qed.
Lemma in_pairs {A B} (S : A -> B -> Prop) l m : Forall2 S l m -> forall b, In b m -> exists a, In (a, b) (combine l m) /\ In a l /\ S a b.
Proof.
  induction 1 as [|a b l m H _ IH]; intros x I; [destruct I|]. destruct I as [<-|I]; [exists a; cbn; auto|].
  destruct (IH x I) as (y & X & Y & Z). exists y. cbn. auto.
Qed.
Lemma fop_pairs {A B} (Q : A -> A -> Prop) l (m : list B) : ForallOrdPairs Q l -> ForallOrdPairs (fun x y => Q (fst x) (fst y)) (combine l m).
Proof.
  intros H. revert m. induction H as [|a l H _ IH]; intros [|b m]; cbn; constructor; [|apply IH].
  apply Forall_forall. intros [c d] I. apply in_combine_l in I. rewrite Forall_forall in H. exact (H c I).
Qed.
Lemma fop_rows {A B} (S : A -> B -> Prop) (Q : A -> A -> Prop) (Q' : B -> B -> Prop) l m : Forall2 S l m -> ForallOrdPairs Q l ->
  (forall a b a' b', In a l -> In a' l -> S a b -> S a' b' -> Q a a' -> Q' b b') -> ForallOrdPairs Q' m.
Proof.
  induction 1 as [|a b l m H F IH]; intros P K; [constructor|]. inversion P as [|? ? P1 P2]; subst. constructor.
  - apply Forall_forall. intros b' I. destruct (forall2_in_r _ _ _ F b' I) as (a' & I' & S'). rewrite Forall_forall in P1.
    exact (K a b a' b' (or_introl eq_refl) (or_intror I') H S' (P1 a' I')).
  - apply IH; [exact P2|]. intros x y x' y' X Y. apply K; now right.
Qed.
Lemma fop_nodup {A} (l : list A) : ForallOrdPairs (fun a b => a <> b) l -> NoDup l.
Proof.
  induction 1 as [|a l H _ IH]; constructor; [|exact IH]. intros I. rewrite Forall_forall in H. exact (H a I eq_refl).
Qed.

Lemma price_keys : NoDup (map price_key prs).
Proof.
  apply FOP_NoDup_map. refine (fop_rows _ _ _ _ _ FP (proj1 M) _).
  intros p r q s _ _ (A1 & A2 & A3 & _) (B1 & B2 & B3 & _) N E. apply N. unfold price_key in E.
  exists (po_duid r), (po_type r), (po_dir r).
  assert (K : po_duid r = po_duid s /\ po_type r = po_type s /\ po_dir r = po_dir s) by (injection E; auto). destruct K as (K1 & K2 & K3).
  split; [exact A1|]. split; [now rewrite K1|]. split; [exact A2|]. split; [now rewrite K2|]. split; [exact A3|now rewrite K3].
Qed.

Lemma volume_nodup : NoDup vrs.
Proof.
  apply fop_nodup. refine (fop_rows _ _ _ _ _ FV (proj1 (proj2 M)) _).
  intros v w v' w' I I' S S' N E. subst w'. destruct M as (_ & _ & K & _). destruct (K v I) as (p & Ip & P).
  destruct (forall2_in_l _ _ _ FP p Ip) as (r & _ & Sr). apply (N p Ip P).
  apply (partner_belongs v' w p r I' S' Sr). now apply (partner_belongs v w p r I S Sr).
Qed.

Lemma rows_paired i : in_prices i = prs -> in_volumes i = vrs -> paired i.
Proof.
  intros EP EV. unfold paired. rewrite EP, EV. destruct M as (M1 & M2 & M3 & M4 & M5).
  split; [exact volume_nodup|]. split.
  { intros w I. destruct (forall2_in_r _ _ _ FV w I) as (v & _ & S). apply S. }
  split.
  { intros w I. destruct (forall2_in_r _ _ _ FV w I) as (v & Iv & S). destruct (M3 v Iv) as (p & Ip & P).
    destruct (forall2_in_l _ _ _ FP p Ip) as (r & Ir & Sr). exists r. split; [exact Ir|]. now apply (partner_belongs v w p r Iv S Sr). }
  split.
  { intros w r r' I J J' B B'. destruct (forall2_in_r _ _ _ FV w I) as (v & Iv & S).
    destruct (in_pairs _ _ _ FP r J) as (p & Cp & Ip & Sp). destruct (in_pairs _ _ _ FP r' J') as (p' & Cp' & Ip' & Sp').
    assert (E : p = p').
    { apply (M4 v p p' Iv Ip Ip'); [apply (partner_belongs v w p r Iv S Sp), B|apply (partner_belongs v w p' r' Iv S Sp'), B']. }
    subst p'. destruct (ForallOrdPairs_In (fop_pairs _ ps prs M1) _ _ Cp Cp') as [X|[X|X]]; [congruence| |];
      exfalso; apply X; destruct Sp as (A1 & A2 & A3 & _); exists (po_duid r), (po_type r), (po_dir r); tauto. }
  split.
  { intros r I. destruct (forall2_in_r _ _ _ FP r I) as (p & Ip & S). destruct (M5 p Ip) as (v & Iv & P).
    destruct (forall2_in_l _ _ _ FV v Iv) as (w & Iw & Sw). exists w. split; [exact Iw|]. now apply (partner_belongs v w p r Iv Sw S). }
  intros w w' r I I' J B B'. destruct (forall2_in_r _ _ _ FP r J) as (p & Ip & S).
  destruct (in_pairs _ _ _ FV w I) as (v & Cv & Iv & Sv). destruct (in_pairs _ _ _ FV w' I') as (v' & Cv' & Iv' & Sv').
  assert (P : partner v p) by now apply (partner_belongs v w p r Iv Sv S).
  assert (P' : partner v' p) by now apply (partner_belongs v' w' p r Iv' Sv' S).
  destruct (ForallOrdPairs_In (fop_pairs _ vs vrs M2) _ _ Cv Cv') as [X|[X|X]]; [congruence| |]; exfalso.
  - exact (X p Ip P P').
  - exact (X p Ip P' P).
Qed.
Lemma rows_priced i : in_prices i = prs -> prices_ok i.
Proof.
  intros EP. unfold prices_ok. rewrite EP. split; [exact price_keys|]. split; [|split]; intros r I; destruct (forall2_in_r _ _ _ FP r I) as (p & _ & S).
  - exact (side_name p _ (proj1 (proj2 (proj2 S)))).
  - destruct S as (_ & (s & _ & S) & _). exact (market_name _ s S).
  - apply S.
Qed.
End Belong.

Lemma picks_nodup rd us (rows : list uigf_row) : NoDup (map (attr "TraderID") us) -> picks forecast (forecast_of rd) us rows -> NoDup (map ug_unit rows).
Proof.
  intros N P. induction P as [|a b l m p r H IH|a l m p H IH]; [constructor| |]; inversion N as [|? ? N1 N2]; subst; [|exact (IH N2)].
  cbn. constructor; [|exact (IH N2)]. intros I. apply in_map_iff in I. destruct I as (c & E & C).
  destruct (picks_in_r _ _ _ _ H c C) as (x & X & (Y & _)). apply N1. destruct r as (r & _). unfold named in *. rewrite r, <- E, <- Y. apply in_map, X.
Qed.
Lemma initials_nodup rd mw ts rows : NoDup (map (attr "TraderID") ts) -> Forall2 (initial_of rd mw) ts rows -> NoDup (map OffersModel.ic_duid rows).
Proof.
  intros N F. induction F as [|a b l m H F IH]; [constructor|]. inversion N as [|? ? N1 N2]; subst. cbn. constructor; [|exact (IH N2)].
  intros I. apply in_map_iff in I. destruct I as (c & E & C). destruct (forall2_in_r _ _ _ F c C) as (x & X & (Y & _)).
  apply N1. destruct H as (H & _). unfold named in *. rewrite H, <- E, <- Y. apply in_map, X.
Qed.

Section Case.
Variable rd : reader.
Variable root : elem.
Variables ts us : list elem.
Variables vs ps : list (elem * elem).
Variable details : list detail.
Variable agc : list agc_row.
Variable old : bool.
Variable i : inputs.
Hypothesis B : bidding rd root ts us vs ps.
Hypothesis ND : NoDup (map dt_duid details).
Hypothesis NA : NoDup (map ag_duid agc).
Hypothesis L : load rd (document root) details agc old = Got i.

Lemma loaded : in_details i = details /\ in_agc i = agc /\ in_old i = old
    /\ Forall2 (price_says rd) ps (in_prices i) /\ Forall2 (volume_says rd) vs (in_volumes i)
    /\ (plain_period root -> Forall2 (initial_of rd "InitialMW") ts (in_initials i))
    /\ (intervention_period root -> Forall2 (initial_of rd "WhatIfInitialMW") ts (in_initials i))
    /\ picks forecast (forecast_of rd) us (in_uigf i).
Proof.
  destruct (load_read rd root ts us vs ps details agc old B) as (j & E & R). rewrite L in E. injection E as <-. exact R.
Qed.
Lemma initials_read : exists mw, Forall2 (initial_of rd mw) ts (in_initials i).
Proof.
  destruct loaded as (_ & _ & _ & _ & _ & A & A' & _). destruct (b_run _ _ _ _ _ _ B) as [X|X]; eexists; auto.
Qed.

Lemma loaded_ok : inputs_ok i.
Proof.
  destruct loaded as (D & A & _ & FP & FV & _ & _ & U). pose proof (b_matched _ _ _ _ _ _ B) as M.
  assert (R : forall v, In v vs -> volumes_readable rd v) by (intros v I; apply (b_volume_ok _ _ _ _ _ _ B v I)).
  split; [exact (rows_priced rd ps vs _ M FP i eq_refl)|]. split; [exact (rows_paired rd ps vs _ _ M FP FV R i eq_refl eq_refl)|].
  destruct initials_read as (mw & F). unfold tables_ok. rewrite D, A. split; [exact ND|]. split; [exact (initials_nodup rd mw ts _ (b_once _ _ _ _ _ _ B) F)|].
  split; [exact NA|]. exact (picks_nodup rd us _ (b_once_period _ _ _ _ _ _ B) U).
Qed.

Lemma trade_rows v p : In v vs -> In p ps -> partner v p ->
  exists w r, In w (in_volumes i) /\ In r (in_prices i) /\ volume_says rd v w /\ price_says rd p r /\ belongs w r.
Proof.
  intros V P X. destruct loaded as (_ & _ & _ & FP & FV & _).
  destruct (forall2_in_l _ _ _ FV v V) as (w & Iw & Sw). destruct (forall2_in_l _ _ _ FP p P) as (r & Ir & Sr).
  exists w, r. split; [exact Iw|]. split; [exact Ir|]. split; [exact Sw|]. split; [exact Sr|].
  apply (partner_belongs rd vs (fun x I => proj1 (b_volume_ok _ _ _ _ _ _ B x I)) v w p r V Sw Sr). exact X.
Qed.
Lemma trader_described p u : In p ps -> of_unit p u -> In u (map dt_duid details) -> described i u.
Proof.
  intros P U I. destruct loaded as (D & _). split; [now rewrite D|].
  destruct initials_read as (mw & F).
  destruct (b_prices _ _ _ _ _ _ B) as (ls & _ & E). rewrite E in P. apply in_flat_map in P. destruct P as ((t & l) & T & P).
  apply in_combine_l in T. apply in_map_iff in P. destruct P as (x & <- & _).
  destruct (forall2_in_l _ _ _ F t T) as (r & Ir & (N & _)). unfold of_unit, named in *. cbn [fst] in U. rewrite U in N. injection N as ->. apply in_map, Ir.
Qed.
End Case.
