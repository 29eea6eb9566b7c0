(** Proofs about the historical unit data. *)

From Coq Require Import QArith String List Bool Lia.
Import ListNotations.
From Verif Require Import PandasModel PandasFacts TablesModel MarketModel ReportsModel OffersModel UnitsModel UnitDataModel SpecOffers SpecUnitData
  OffersFacts EnableFacts UnitKeysFacts.
Open Scope string_scope.
Open Scope list_scope.

(** ** Rows that may raise *)

Lemma each_in {A B} (f : A -> result B) l r : each f l = Ok r -> forall b, In b r <-> exists a, In a l /\ f a = Ok b.
Proof.
  revert r. induction l as [|a t IH]; cbn; intros r H.
  - injection H as <-. intros b. split; [intros []|intros [x [[] _]]].
  - unfold bind in H. destruct (f a) as [b0|] eqn:Fa; [|discriminate]. destruct (each f t) as [bs|]; [|discriminate]. injection H as <-.
    intros b. specialize (IH bs eq_refl b). cbn. rewrite IH. split.
    + intros [<-|[x [Hx Fx]]]; eauto.
    + intros [x [[<-|Hx] Fx]]; [left; congruence|eauto].
Qed.

Lemma each_ok {A B} (f : A -> result B) l : (forall a, In a l -> exists b, f a = Ok b) -> exists r, each f l = Ok r.
Proof.
  induction l as [|a t IH]; cbn; intros H; [eauto|]. destruct (H a) as [b ->]; [now left|]. cbn.
  destruct IH as [bs ->]; [intros x Hx; apply H; now right|]. cbn. eauto.
Qed.

Lemma each_total {A B} (f : A -> result B) l r : each f l = Ok r -> forall a, In a l -> exists b, f a = Ok b /\ In b r.
Proof.
  revert r. induction l as [|x t IH]; cbn; intros r H a Ha; [contradiction|]. unfold bind in H. destruct (f x) as [b0|] eqn:Fx; [|discriminate].
  destruct (each f t) as [bs|]; [|discriminate]. injection H as <-. destruct Ha as [<-|Ha].
  - exists b0. split; [exact Fx|now left].
  - destruct (IH bs eq_refl a Ha) as [b [E Hb]]. exists b. split; [exact E|now right].
Qed.

Lemma each_nodup {A B C D} (f : A -> result B) (k : A -> C) (h : B -> D) l r : each f l = Ok r -> NoDup (map k l) ->
  (forall a a' b b', In a l -> In a' l -> f a = Ok b -> f a' = Ok b' -> h b = h b' -> k a = k a') -> NoDup (map h r).
Proof.
  revert r. induction l as [|x t IH]; cbn; intros r H N W.
  - injection H as <-. constructor.
  - unfold bind in H. destruct (f x) as [b0|] eqn:Fx; [|discriminate]. destruct (each f t) as [bs|] eqn:Ft; [|discriminate]. injection H as <-.
    inversion N as [|y z Nx Nt]; subst. cbn. constructor.
    + intros C0. apply in_map_iff in C0. destruct C0 as [b [E Hb]]. apply (each_in f t bs Ft) in Hb. destruct Hb as [a [Ha Fa]].
      apply Nx. rewrite (W x a b0 b); auto. now apply in_map.
    + apply (IH bs); auto. intros a a' b b' Ha Ha'. apply W; auto.
Qed.

Lemma each_error {A B} (f : A -> result B) l a e : In a l -> f a = Err e -> exists e', each f l = Err e'.
Proof.
  induction l as [|x t IH]; cbn; [contradiction|]. intros [->|H] E; [rewrite E; cbn; eauto|].
  unfold bind. destruct (f x); [|eauto]. destruct (IH H E) as [e' ->]. eauto.
Qed.

(** ** Names *)

Lemma service_name_iff t s : service_name t = Ok s <-> service_of t s.
Proof.
  unfold service_name, service_of. split.
  - unfold service_names. cbn [dget].
    repeat match goal with |- context [String.eqb ?a ?b] => destruct (String.eqb_spec a b); [intros H; injection H as <-; subst; tauto|] end. discriminate.
  - intros H. repeat (destruct H as [[-> ->]|H]; [reflexivity|]). destruct H as [-> ->]. reflexivity.
Qed.

Lemma service_of_inj t t' s : service_of t s -> service_of t' s -> t = t'.
Proof.
  unfold service_of. intros H H'. repeat (destruct H as [[-> ->]|H]; [repeat (destruct H' as [[-> ?]|H']; [try reflexivity; discriminate|]); destruct H'; try discriminate; congruence|]).
  destruct H as [-> ->]. repeat (destruct H' as [[-> ?]|H']; [try reflexivity; discriminate|]). destruct H'; congruence.
Qed.

Lemma service_of_fun t s s' : service_of t s -> service_of t s' -> s = s'.
Proof. rewrite <- !service_name_iff. congruence. Qed.

Lemma service_of_energy t s : service_of t s -> (t = "ENERGY" <-> s = "energy").
Proof.
  intros H. split; intros ->; unfold service_of in H.
  - repeat (destruct H as [[? ?]|H]; [congruence|]). destruct H; congruence.
  - repeat (destruct H as [[? ?]|H]; [congruence|]). destruct H; congruence.
Qed.

Lemma known_service t : In t ("ENERGY" :: fcas_types) <-> exists s, service_of t s.
Proof.
  split.
  - cbn. intros H. unfold service_of. repeat (destruct H as [<-|H]; [eexists; tauto|]). destruct H.
  - intros [s H]. unfold service_of in H. cbn. intuition auto.
Qed.

Lemma dir_name_iff d n : dir_name d = Ok n <-> direction d /\ n = side d.
Proof.
  unfold dir_name, direction, side. split.
  - destruct (String.eqb_spec d "GENERATOR"); [intros H; injection H as <-; subst; auto|].
    destruct (String.eqb_spec d "LOAD"); [intros H; injection H as <-; subst; auto|discriminate].
  - intros [[->| ->] ->]; reflexivity.
Qed.

Lemma side_inj a b : direction a -> direction b -> side a = side b -> a = b.
Proof. intros [->| ->] [->| ->]; cbn; congruence. Qed.

Lemma band_value_band bands b q : band bands b q -> band_value bands b = q.
Proof.
  intros [n [B Q0]]. unfold band_value, ten_bands, band_names in *.
  do 10 (destruct n as [|n]; [cbn in B; injection B as <-;
    repeat (destruct bands as [|? bands]; [discriminate Q0|cbn in Q0; try (injection Q0 as <-; reflexivity)])|]).
  destruct n; discriminate.
Qed.

Lemma band_ten bands b q : band bands b q -> In b ten_bands.
Proof. intros [n [B _]]. exact (nth_error_In _ _ B). Qed.

(** ** Directions *)

Lemma map_direction_in vs ps w : In w (map_direction vs ps) <->
  (In w vs /\ vo_dir w <> None)
  \/ exists v, In v vs /\ vo_dir v = None
       /\ ((exists p, In p ps /\ vo_duid v = po_duid p /\ vo_type v = po_type p /\ w = with_dir v (Some (po_dir p)))
           \/ ((forall p, In p ps -> ~ (vo_duid v = po_duid p /\ vo_type v = po_type p)) /\ w = v)).
Proof.
  unfold map_direction. rewrite in_app_iff, in_map_iff, filter_In. unfold no_dir. split.
  - intros [[[v o] [<- H]]|[H D]].
    + right. apply in_merge_left in H. cbn [fst snd] in *. destruct H as [H M]. apply filter_In in H. destruct H as [H D].
      exists v. split; [exact H|]. assert (Dv : vo_dir v = None) by (destruct (vo_dir v); [discriminate|reflexivity]). split; [exact Dv|].
      destruct o as [p|]; cbn.
      * destruct M as [Hp M]. apply andb_true_iff in M. rewrite !String.eqb_eq in M. left. exists p. tauto.
      * right. split.
        -- intros p Hp [E1 E2]. specialize (M p Hp). rewrite E1, E2, !String.eqb_refl in M. discriminate.
        -- destruct v; cbn in *. now subst.
    + left. split; [exact H|]. destruct (vo_dir w); [discriminate|discriminate].
  - intros [[H D]|[v [H [D [[p [Hp [E1 [E2 ->]]]]|[M ->]]]]]].
    + right. split; [exact H|]. destruct (vo_dir w); [reflexivity|contradiction].
    + left. exists (v, Some p). split; [reflexivity|]. apply in_merge_left. cbn [fst snd]. rewrite filter_In, D, E1, E2, !String.eqb_refl. auto.
    + left. exists (v, None). split; [destruct v; cbn in *; now subst|]. apply in_merge_left. cbn [fst snd]. rewrite filter_In, D. split; [auto|].
      intros p Hp. destruct (String.eqb_spec (vo_duid v) (po_duid p)); [|reflexivity]. destruct (String.eqb_spec (vo_type v) (po_type p)); [|reflexivity].
      exfalso. apply (M p Hp). auto.
Qed.

Lemma bids_in i w : paired i -> In w (bids_of i) <-> exists v p, In v (in_volumes i) /\ In p (in_prices i) /\ belongs v p /\ w = with_dir v (Some (po_dir p)).
Proof.
  intros [_ [_ [E [U [_ _]]]]]. unfold bids_of. rewrite map_direction_in. split.
  - intros [[H D]|[v [H [D [[p [Hp [E1 [E2 ->]]]]|[M ->]]]]]].
    + destruct (E w H) as [p [Hp B]]. exists w, p. repeat split; auto; try apply B. destruct B as [_ [_ [B|B]]]; [contradiction|]. destruct w; cbn in *. now subst.
    + exists v, p. unfold belongs. repeat split; auto.
    + destruct (E v H) as [p [Hp B]]. exfalso. apply (M p Hp). unfold belongs in B. tauto.
  - intros [v [p [Hv [Hp [B ->]]]]]. destruct (vo_dir v) eqn:D.
    + left. destruct B as [_ [_ [B|B]]]; [congruence|]. assert (with_dir v (Some (po_dir p)) = v) by (destruct v; cbn in *; now subst). rewrite H. split; [exact Hv|congruence].
    + right. exists v. split; [exact Hv|]. split; [exact D|]. left. exists p. unfold belongs in B. tauto.
Qed.

Lemma bids_keys i : prices_ok i -> paired i -> NoDup (map offer_key (map offer_of (bids_of i))).
Proof.
  intros [P _] Pr. assert (Pr' := Pr). destruct Pr' as [N [_ [E [U [_ I]]]]]. rewrite map_map.
  assert (Same : forall v w p q, In v (in_volumes i) -> In w (in_volumes i) -> In p (in_prices i) -> In q (in_prices i) -> belongs v p -> belongs w q ->
    price_key p = price_key q -> v = w /\ p = q).
  { intros v w p q Hv Hw Hp Hq Bv Bw K. assert (p = q) by (apply (nodup_key_eq price_key (in_prices i)); auto). subst q. split; [|reflexivity]. eauto. }
  unfold bids_of, map_direction. apply nodup_map_app.
  - rewrite map_map. apply (nodup_weaken (fun p => (fst p, option_map price_key (snd p)))).
    + apply (nodup_merge_left (fun v => v) price_key); [rewrite map_id; now apply NoDup_filter|exact P].
    + intros [v x] [w y] Hv Hw K. apply in_merge_left in Hv, Hw. cbn [fst snd] in *. destruct Hv as [Hv Mv], Hw as [Hw Mw].
      apply filter_In in Hv, Hw. destruct Hv as [Hv Dv], Hw as [Hw Dw]. unfold no_dir in Dv, Dw.
      destruct (vo_dir v) eqn:DV; [discriminate|]. destruct (vo_dir w) eqn:DW; [discriminate|].
      destruct x as [p|]. 2:{ exfalso. destruct (E v Hv) as [p [Hp [B1 [B2 _]]]]. specialize (Mv p Hp). rewrite B1, B2, !String.eqb_refl in Mv. discriminate. }
      destruct y as [q|]. 2:{ exfalso. destruct (E w Hw) as [q [Hq [B1 [B2 _]]]]. specialize (Mw q Hq). rewrite B1, B2, !String.eqb_refl in Mw. discriminate. }
      destruct Mv as [Hp Mv], Mw as [Hq Mw]. rewrite andb_true_iff, !String.eqb_eq in Mv, Mw. unfold offer_key in K. cbn in K.
      destruct (Same v w p q) as [-> ->]; auto; unfold belongs, price_key; destruct Mv, Mw; auto. congruence.
  - apply (nodup_weaken (fun v => v)); [rewrite map_id; now apply NoDup_filter|].
    intros v w Hv Hw K. apply filter_In in Hv, Hw. destruct Hv as [Hv Dv], Hw as [Hw Dw]. unfold no_dir in Dv, Dw.
    destruct (E v Hv) as [p [Hp Bv]]. destruct (E w Hw) as [q [Hq Bw]].
    destruct (Same v w p q) as [-> _]; auto. destruct Bv as [B1 [B2 [B3|B3]]]; rewrite B3 in Dv; [discriminate|].
    destruct Bw as [C1 [C2 [C3|C3]]]; rewrite C3 in Dw; [discriminate|]. unfold offer_key in K. cbn in K. rewrite B3, C3 in K. unfold price_key. congruence.
  - intros a b A B K. apply in_map_iff in A. destruct A as [[v x] [<- A]]. apply in_merge_left in A. cbn [fst snd] in *. destruct A as [Hv Mv].
    apply filter_In in Hv, B. destruct Hv as [Hv Dv], B as [Hw Dw]. unfold no_dir in Dv, Dw.
    destruct x as [p|]. 2:{ destruct (E v Hv) as [p [Hp [B1 [B2 _]]]]. specialize (Mv p Hp). rewrite B1, B2, !String.eqb_refl in Mv. discriminate. }
    destruct Mv as [Hp Mv]. rewrite andb_true_iff, !String.eqb_eq in Mv. destruct (E b Hw) as [q [Hq Bw]].
    assert (Bv : belongs v p) by (unfold belongs; destruct (vo_dir v); [discriminate|tauto]).
    destruct (Same v b p q) as [-> _]; auto.
    + destruct Bw as [C1 [C2 [C3|C3]]]; rewrite C3 in Dw; [discriminate|]. unfold offer_key in K. cbn in K. rewrite C3 in K. unfold price_key. destruct Mv. congruence.
    + destruct (vo_dir b); discriminate.
Qed.

(** ** Unit info *)

Lemma loss_factor_of t d dir : lf_of t d dir (loss_factor (OffersModel.ic_type t) dir d).
Proof.
  unfold lf_of, loss_factor, two_way. destruct (dt_second d) as [q|] eqn:S.
  - destruct (String.eqb_spec dir "GENERATOR"), (String.eqb_spec (OffersModel.ic_type t) "BIDIRECTIONAL"); cbn [andb].
    + left. exists q. repeat split; auto; reflexivity.
    + right. split; [auto|reflexivity].
    + right. split; [auto|reflexivity].
    + right. split; [auto|reflexivity].
  - right. split; [auto|reflexivity].
Qed.

Definition info_merged (i : inputs) : list (initial * (string * string * detail)) :=
  merge (fun t x => String.eqb (OffersModel.ic_duid t) (fst (fst x))) (in_initials i)
    (merge (fun x d => String.eqb (fst x) (dt_duid d))
       (drop_duplicates (fun a b => String.eqb (fst a) (fst b) && String.eqb (snd a) (snd b))
          (map (fun p => (po_duid p, po_dir p)) (in_prices i))) (in_details i)).

Lemma directions_in i u dir :
  In (u, dir) (drop_duplicates (fun a b : string * string => String.eqb (fst a) (fst b) && String.eqb (snd a) (snd b))
                 (map (fun p => (po_duid p, po_dir p)) (in_prices i)))
  <-> exists p, In p (in_prices i) /\ po_duid p = u /\ po_dir p = dir.
Proof.
  split.
  - intros H. apply drop_duplicates_incl in H. apply in_map_iff in H. destruct H as [p [E H]]. injection E as <- <-. eauto.
  - intros [p [H [<- <-]]].
    destruct (drop_duplicates_repr (fun a b : string * string => String.eqb (fst a) (fst b) && String.eqb (snd a) (snd b))
                (map (fun p => (po_duid p, po_dir p)) (in_prices i)) (po_duid p, po_dir p)) as [[a b] [D E]].
    + intros a b H1 c H2. rewrite andb_true_iff, !String.eqb_eq in *. destruct H1, H2. split; congruence.
    + intros a. now rewrite !String.eqb_refl.
    + intros a b H1. rewrite andb_true_iff, !String.eqb_eq in *. destruct H1. split; congruence.
    + apply in_map_iff. eauto.
    + cbn in E. rewrite andb_true_iff, !String.eqb_eq in E. destruct E as [-> ->]. exact D.
Qed.

Lemma info_merged_in i t u dir d : In (t, ((u, dir), d)) (info_merged i) <->
  In t (in_initials i) /\ OffersModel.ic_duid t = u /\ In d (in_details i) /\ dt_duid d = u
  /\ exists p, In p (in_prices i) /\ po_duid p = u /\ po_dir p = dir.
Proof.
  unfold info_merged. rewrite in_merge, in_merge, directions_in. cbn [fst]. rewrite !String.eqb_eq. intuition auto.
Qed.

Lemma info_sound i ui r : unit_info i = Ok ui -> In r ui -> exists p, In p (in_prices i) /\ direction (po_dir p) /\ info_row i (po_duid p) (po_dir p) r.
Proof.
  intros H Hr. unfold unit_info in H. fold (info_merged i) in H. apply (each_in _ _ _ H) in Hr. destruct Hr as [[t [[u dir] d]] [Hm E]].
  apply info_merged_in in Hm. destruct Hm as [Ht [Et [Hd [Ed [p [Hp [<- <-]]]]]]]. unfold bind in E. destruct (dir_name (po_dir p)) as [n|] eqn:D; [|discriminate].
  injection E as <-. apply dir_name_iff in D. destruct D as [D ->]. exists p. split; [exact Hp|]. split; [exact D|]. split; [reflexivity|]. split; [reflexivity|].
  exists t, d. repeat split; auto. apply loss_factor_of.
Qed.

Lemma info_complete i ui p : unit_info i = Ok ui -> In p (in_prices i) -> described i (po_duid p) -> exists r, In r ui /\ info_row i (po_duid p) (po_dir p) r.
Proof.
  intros H Hp [Hd Hi]. apply in_map_iff in Hd, Hi. destruct Hd as [d [Ed Hd]], Hi as [t [Et Ht]].
  assert (M : In (t, ((po_duid p, po_dir p), d)) (info_merged i)) by (apply info_merged_in; eauto 10).
  unfold unit_info in H. fold (info_merged i) in H. destruct (each_total _ _ _ H _ M) as [r [E Hr]]. exists r. split; [exact Hr|].
  unfold bind in E. destruct (dir_name (po_dir p)) as [n|] eqn:D; [|discriminate].
  injection E as <-. apply dir_name_iff in D. destruct D as [D ->]. split; [reflexivity|]. split; [reflexivity|].
  exists t, d. repeat split; auto. apply loss_factor_of.
Qed.

Lemma info_keys i ui : tables_ok i -> unit_info i = Ok ui -> NoDup (map info_key ui).
Proof.
  intros [Kd [Ki _]] H. unfold unit_info in H. fold (info_merged i) in H.
  apply (each_nodup _ (fun m : initial * (string * string * detail) => fst (snd m)) info_key _ _ H).
  - unfold info_merged. apply (nodup_weaken (fun m : initial * (string * string * detail) => (OffersModel.ic_duid (fst m), fst (snd m)))).
    + apply (nodup_merge OffersModel.ic_duid (fun x : string * string * detail => fst x)); [exact Ki|].
      apply (nodup_merge_fst (fun x : string * string => x) dt_duid); auto.
      * rewrite map_id. generalize (map (fun p => (po_duid p, po_dir p)) (in_prices i)). intros l.
        pose proof (drop_duplicates_distinct (fun a b : string * string => String.eqb (fst a) (fst b) && String.eqb (snd a) (snd b)) l) as D.
        induction D as [|a t Fa D IH]; constructor; auto. intros C. rewrite Forall_forall in Fa. specialize (Fa a C). rewrite !String.eqb_refl in Fa. discriminate.
      * intros a b a' b' _ _ X Y E. apply String.eqb_eq in X, Y. congruence.
    + intros m m' A B E. apply in_merge_p in A, B. destruct A as [_ [_ A]], B as [_ [_ B]]. apply String.eqb_eq in A, B. rewrite E. f_equal. congruence.
  - intros [t [[u dir] d]] [t' [[u' dir'] d']] b b' M M' E E' K. unfold bind in E, E'.
    destruct (dir_name dir) as [n|] eqn:D; [|discriminate]. destruct (dir_name dir') as [n'|] eqn:D'; [|discriminate].
    injection E as <-. injection E' as <-. unfold info_key in K. cbn in K |- *. apply dir_name_iff in D, D'. destruct D as [D ->], D' as [D' ->].
    injection K as -> K. rewrite (side_inj dir dir'); auto.
Qed.

Lemma info_total i : (forall p, In p (in_prices i) -> direction (po_dir p)) -> exists ui, unit_info i = Ok ui.
Proof.
  intros K. unfold unit_info. fold (info_merged i). apply each_ok. intros [t [[u dir] d]] M. apply info_merged_in in M.
  destruct M as [_ [_ [_ [_ [p [Hp [_ <-]]]]]]]. rewrite (proj2 (dir_name_iff (po_dir p) (side (po_dir p))) (conj (K p Hp) eq_refl)). cbn. eauto.
Qed.

(** ** Processed bids *)

Lemma named_bid_ok u t dir bands r : named_bid u t dir bands = Ok r ->
  service_of t (br_service r) /\ direction dir /\ row_for u t dir bands 1 r.
Proof.
  unfold named_bid, bind. destruct (service_name t) as [s|] eqn:S; [|discriminate]. destruct (dir_name dir) as [n|] eqn:D; [|discriminate].
  intros H. injection H as <-. apply service_name_iff in S. apply dir_name_iff in D. destruct D as [D ->]. cbn. split; [exact S|]. split; [exact D|].
  unfold row_for. cbn. repeat split; auto. intros b q B. rewrite (band_value_band _ _ _ B). ring.
Qed.

Lemma gives_inv d tv tp : snd (get_processed_bids d) = Gives (tv, tp) ->
  exists v p ui vr pr, process_offers (in_old (ud_in d)) (map offer_of (bids_of (ud_in d))) (in_prices (ud_in d)) (in_agc (ud_in d))
      (in_initials (ud_in d)) (in_uigf (ud_in d)) = Ok (v, p)
    /\ unit_info (ud_in d) = Ok ui /\ format_volumes v = Ok vr /\ format_prices p = Ok pr
    /\ tv = selected ui vr /\ unscale_price_bids (selected ui pr) ui = Ok tp.
Proof.
  unfold get_processed_bids, processed_offers, processed_tables, bind.
  destruct (unit_info (ud_in d)) as [ui|] eqn:Eu; [|discriminate]. destruct (bid_availability (ud_in d)); [|discriminate].
  destruct (process_offers _ _ _ _ _ _) as [[v p]|] eqn:Ep; [|discriminate]. cbn [snd].
  destruct (format_volumes v) as [vr|] eqn:Ev; [|discriminate]. destruct (format_prices p) as [pr|] eqn:Er; [|discriminate].
  destruct (unscale_price_bids _ _) as [pt|] eqn:U; [|discriminate]. cbn [lift]. intros H. injection H as <- <-. exists v, p, ui, vr, pr. repeat split; auto.
Qed.

Lemma bid_offers_ok i : inputs_ok i -> offers_ok (map offer_of (bids_of i)).
Proof.
  intros [P [Pr T]]. assert (P' := P). destruct P' as [_ [Pd [Pt _]]].
  assert (In2 : forall o, In o (map offer_of (bids_of i)) -> exists v p, In v (in_volumes i) /\ In p (in_prices i) /\ belongs v p /\ o = offer_of (with_dir v (Some (po_dir p)))).
  { intros o H. apply in_map_iff in H. destruct H as [w [<- H]]. apply (bids_in i w Pr) in H. destruct H as [v [p [A [B [C ->]]]]]. eauto 10. }
  split; [|split].
  - intros o H. destruct (In2 o H) as [v [p [_ [Hp [[_ [E _]] ->]]]]]. cbn. rewrite E. specialize (Pt p Hp). destruct Pt as [X|X]; auto.
  - intros o H. destruct (In2 o H) as [v [p [_ [Hp [_ ->]]]]]. cbn. apply (Pd p Hp).
  - intros a b A B E1 E2 E3. apply (nodup_key_eq offer_key (map offer_of (bids_of i))); auto; [now apply bids_keys|]. unfold offer_key. congruence.
Qed.

Lemma tables_agc i : tables_ok i -> agc_ok (in_agc i) /\ initials_ok (in_initials i) /\ uigf_ok (in_uigf i).
Proof.
  intros [_ [Ki [Ka Ku]]]. repeat split; intros a b A B E; [exact (nodup_key_eq ag_duid _ a b Ka A B E)|
    exact (nodup_key_eq OffersModel.ic_duid _ a b Ki A B E)|exact (nodup_key_eq ug_unit _ a b Ku A B E)].
Qed.

(** A processed offer is one of the file, apart from its trapezium. *)
Lemma process_same old offers prices agc ics uigf v p o' :
  process_offers old offers prices agc ics uigf = Ok (v, p) -> In o' v ->
  exists o, In o offers /\ same_offer o o'.
Proof.
  intros H Ho. apply process_inv in H. destruct H as [scaled [S E]]. unfold enforce in E. injection E as -> _.
  assert (X : In o' (scale_uigf scaled uigf)).
  { apply in_app_iff in Ho. destruct Ho as [Ho|Ho]; [apply filter_In in Ho; tauto|apply rows_positive in Ho; tauto]. }
  destruct (uigf_sound _ _ _ X) as [o2 [H2 [T2 _]]].
  assert (R := scale_ramp_rows _ _ _ S o2). apply R in H2.
  assert (Y : exists o1, In o1 (scale_agc offers agc) /\ same_offer o1 o2).
  { destruct H2 as [[H2 _]|[[H2 _]|[o1 [i [H1 [_ [_ [_ [_ ->]]]]]]]]].
    - exists o2. split; [exact H2|]. unfold same_offer. auto.
    - exists o2. split; [exact H2|]. unfold same_offer. auto.
    - exists o1. split; [exact H1|]. unfold same_offer, ramp_scaled. destruct (reg_rate i (of_type o1)); cbn; auto. }
  destruct Y as [o1 [H1 S1]]. destruct (agc_sound _ _ _ H1) as [o [H0 [T0 _]]]. exists o. split; [exact H0|].
  destruct T0 as [T0 _], T2 as [T2 _]. unfold same_offer in *. destruct T0 as [? [? [? ?]]], T2 as [? [? [? ?]]], S1 as [? [? [? ?]]]. repeat split; congruence.
Qed.

Lemma info_described i ui u : unit_info i = Ok ui -> In u ui -> described i (ui_unit u).
Proof.
  intros Ui Hu. destruct (info_sound i ui u Ui Hu) as [q2 [_ [_ [Uq2 [_ [t2 [d2 [Ht2 [Et2 [Hd2 [Ed2 _]]]]]]]]]]].
  split; apply in_map_iff; [exists d2|exists t2]; split; auto; congruence.
Qed.

Lemma row_for_scaled u t dir bands k k' r r' : row_for u t dir bands k r -> br_unit r' = br_unit r -> br_service r' = br_service r -> br_dt r' = br_dt r ->
  (forall b, In b ten_bands -> br_val r' b == br_val r b * k') -> row_for u t dir bands (k * k') r'.
Proof.
  intros [A [B [C D]]] E1 E2 E3 E4. unfold row_for. rewrite E1, E2, E3. repeat split; auto. intros b q H. rewrite E4 by (eapply band_ten; eauto).
  rewrite (D b q H). ring.
Qed.

Section Processed.
Variables (d : unit_data) (tv tp : bid_table).
Let i := ud_in d.
Hypothesis Fine : inputs_ok i.
Hypothesis Run : snd (get_processed_bids d) = Gives (tv, tp).

(** What is processed and the rows of both tables. *)
Lemma processed_rows : exists vs ps ui,
  process_offers (in_old i) (map offer_of (bids_of i)) (in_prices i) (in_agc i) (in_initials i) (in_uigf i) = Ok (vs, ps)
  /\ unit_info i = Ok ui
  /\ bt_bands tv = ten_bands /\ bt_bands tp = ten_bands
  /\ (forall r, In r (bt_rows tv) -> exists o, In o vs /\ described i (of_duid o) /\ direction (of_dir o) /\ row_for (of_duid o) (of_type o) (of_dir o) (of_bands o) 1 r)
  /\ (forall o, In o vs -> described i (of_duid o) ->
        exists r, In r (bt_rows tv) /\ row_for (of_duid o) (of_type o) (of_dir o) (of_bands o) 1 r)
  /\ (forall r, In r (bt_rows tp) -> exists p u, In p ps /\ direction (po_dir p) /\ described i (po_duid p) /\ In u ui /\ info_row i (po_duid p) (po_dir p) u
        /\ row_for (po_duid p) (po_type p) (po_dir p) (po_bands p) (if String.eqb (po_type p) "ENERGY" then ui_lf u else 1) r)
  /\ (forall p u, In p ps -> In u ui -> info_row i (po_duid p) (po_dir p) u ->
        exists r, In r (bt_rows tp)
          /\ row_for (po_duid p) (po_type p) (po_dir p) (po_bands p) (if String.eqb (po_type p) "ENERGY" then ui_lf u else 1) r)
  /\ NoDup (map bid_key (bt_rows tv)) /\ NoDup (map bid_key (bt_rows tp)).
Proof.
  destruct (gives_inv d tv tp Run) as [vs [ps [ui [vr [pr [Pc [Ui [Fv [Fp [Tv U]]]]]]]]]]. fold i in Pc, Ui.
  exists vs, ps, ui. split; [exact Pc|]. split; [exact Ui|]. assert (F' := Fine). destruct F' as [Kp [Kr Kt]].
  assert (Tp : tp = BidTable ten_bands (map (fun p => unscale_row (fst p) (snd p))
             (merge (fun r u => String.eqb (br_unit r) (ui_unit u) && String.eqb (br_dt r) (ui_dt u))
                (filter (fun r => mem_str (br_unit r) (map ui_unit ui)) pr) ui))).
  { unfold unscale_price_bids, selected in U. cbn [bt_bands bt_rows] in U. destruct (forallb _ _); [congruence|discriminate]. }
  assert (Kui := info_keys i ui Kt Ui). assert (Kb := bid_offers_ok i Fine).
  destruct (process_keys _ _ _ _ _ _ _ _ (bids_keys i Kp Kr) (proj1 (proj2 Kb)) (proj1 (proj2 (proj2 Kt))) (proj1 (proj2 Kt)) (proj2 (proj2 (proj2 Kt))) (proj1 Kp) Pc) as [Nv Np].
  assert (Pin : forall p, In p ps -> In p (in_prices i)).
  { intros p Hp. destruct (tables_agc i Kt) as [Ka [Ki Ku]]. destruct (process_enabled _ _ _ _ _ _ _ _ Kb Ka Ki Ku Pc) as [s [_ [_ Q0]]]. apply Q0 in Hp. tauto. }
  assert (Vin : forall o, In o vs -> exists p, In p (in_prices i) /\ po_duid p = of_duid o /\ po_dir p = of_dir o /\ po_type p = of_type o).
  { intros o Ho. destruct (process_same _ _ _ _ _ _ _ _ _ Pc Ho) as [o0 [H0 [S1 [S2 [S3 S4]]]]]. apply in_map_iff in H0. destruct H0 as [w [<- Hw]].
    apply (bids_in i w Kr) in Hw. destruct Hw as [v [p [Hv [Hp [[B1 [B2 B3]] ->]]]]]. cbn in S1, S2, S3. exists p. repeat split; congruence. }
  split; [rewrite Tv; reflexivity|]. split; [rewrite Tp; reflexivity|].
  split; [|split; [|split; [|split; [|split]]]].
  - intros r Hr. rewrite Tv in Hr. cbn [selected bt_rows] in Hr. apply filter_In in Hr. destruct Hr as [Hr Hu]. apply (each_in _ _ _ Fv) in Hr.
    destruct Hr as [o [Ho E]]. apply named_bid_ok in E. destruct E as [_ [D R]]. exists o. split; [exact Ho|]. split; [|auto].
    apply mem_str_in, in_map_iff in Hu. destruct Hu as [u [Eu Hu]]. apply (info_described i ui u Ui) in Hu. destruct R as [R _]. congruence.
  - intros o Ho De. destruct (each_total _ _ _ Fv o Ho) as [r [E Hr]]. apply named_bid_ok in E. destruct E as [_ [_ R]]. exists r. split; [|exact R].
    rewrite Tv. cbn. apply filter_In. split; [exact Hr|]. apply mem_str_in, in_map_iff. destruct (Vin o Ho) as [p [Hp [E1 [E2 E3]]]].
    destruct (info_complete i ui p Ui Hp) as [u [Hu [Eu _]]]; [congruence|]. exists u. destruct R as [R _]. split; congruence.
  - intros r Hr. rewrite Tp in Hr. cbn [bt_rows] in Hr. apply in_map_iff in Hr. destruct Hr as [[r0 u] [<- Hr]]. apply in_merge in Hr. cbn [fst snd] in *.
    destruct Hr as [Hr [Hu On]]. apply filter_In in Hr. destruct Hr as [Hr _]. rewrite andb_true_iff, !String.eqb_eq in On. destruct On as [O1 O2].
    apply (each_in _ _ _ Fp) in Hr. destruct Hr as [p [Hp E]]. apply named_bid_ok in E. destruct E as [S [D R]]. assert (R' := R). destruct R' as [R1 [R2 [R3 R4]]].
    exists p, u. split; [exact Hp|]. split; [exact D|]. split; [apply (info_described i ui u Ui) in Hu; congruence|]. split; [exact Hu|].
    assert (De : described i (po_duid p)) by (apply (info_described i ui u Ui) in Hu; congruence).
    split.
    + destruct (info_complete i ui p Ui (Pin p Hp) De) as [u' [Hu' I]]. assert (u' = u); [|now subst u'].
      apply (nodup_key_eq info_key ui); auto. unfold info_key. destruct I as [I1 [I2 _]]. congruence.
    + assert (Se := service_of_energy _ _ S).
      replace (if String.eqb (po_type p) "ENERGY" then ui_lf u else 1) with (if String.eqb (br_service r0) "energy" then ui_lf u else 1).
      2:{ destruct (String.eqb_spec (po_type p) "ENERGY"), (String.eqb_spec (br_service r0) "energy"); auto; tauto. }
      assert (X : row_for (po_duid p) (po_type p) (po_dir p) (po_bands p) (1 * (if String.eqb (br_service r0) "energy" then ui_lf u else 1)) (unscale_row r0 u)).
      { eapply row_for_scaled; [exact R|reflexivity|reflexivity|reflexivity|]. intros b Hb. cbn [unscale_row br_val]. assert (Y : mem_str b ten_bands = true) by now apply mem_str_in.
        rewrite Y. cbn [andb]. destruct (String.eqb (br_service r0) "energy"); ring. }
      destruct X as [X1 [X2 [X3 X4]]]. unfold row_for. repeat split; auto. intros b q B. rewrite (X4 b q B). ring.
  - intros p u Hp Hu I. destruct (each_total _ _ _ Fp p Hp) as [r [E Hr]]. apply named_bid_ok in E. destruct E as [S [_ R]]. assert (R' := R). destruct R' as [R1 [R2 [R3 R4]]].
    exists (unscale_row r u). split.
    + rewrite Tp. cbn [bt_rows]. apply in_map_iff. exists (r, u). split; [reflexivity|]. apply in_merge. destruct I as [I1 [I2 _]].
      split; [apply filter_In; split; [exact Hr|apply mem_str_in, in_map_iff; exists u; split; congruence]|]. split; [exact Hu|].
      rewrite andb_true_iff, !String.eqb_eq. split; congruence.
    + assert (Se := service_of_energy _ _ S).
      replace (if String.eqb (po_type p) "ENERGY" then ui_lf u else 1) with (if String.eqb (br_service r) "energy" then ui_lf u else 1).
      2:{ destruct (String.eqb_spec (po_type p) "ENERGY"), (String.eqb_spec (br_service r) "energy"); auto; tauto. }
      assert (X : row_for (po_duid p) (po_type p) (po_dir p) (po_bands p) (1 * (if String.eqb (br_service r) "energy" then ui_lf u else 1)) (unscale_row r u)).
      { eapply row_for_scaled; [exact R|reflexivity|reflexivity|reflexivity|]. intros b Hb. cbn [unscale_row br_val]. assert (Y : mem_str b ten_bands = true) by now apply mem_str_in.
        rewrite Y. cbn [andb]. destruct (String.eqb (br_service r) "energy"); ring. }
      destruct X as [X1 [X2 [X3 X4]]]. unfold row_for. repeat split; auto. intros b q B. rewrite (X4 b q B). ring.
  - rewrite Tv. cbn [selected bt_rows]. apply nodup_map_filter. apply (each_nodup _ offer_key bid_key _ _ Fv Nv).
    intros a a' b b' _ _ E E' K. apply named_bid_ok in E, E'. destruct E as [S [D [R1 [R2 [R3 _]]]]], E' as [S' [D' [R1' [R2' [R3' _]]]]].
    unfold bid_key in K. injection K as K1 K2 K3. unfold offer_key. rewrite R3, R3' in K3. rewrite (side_inj _ _ D D' K3).
    rewrite K2 in R2. rewrite (service_of_inj _ _ _ R2 R2'). congruence.
  - rewrite Tp. cbn [bt_rows]. rewrite map_map.
    assert (Nr : NoDup (map bid_key (filter (fun r => mem_str (br_unit r) (map ui_unit ui)) pr))).
    { apply nodup_map_filter. apply (each_nodup _ price_key bid_key _ _ Fp Np).
      intros a a' b b' _ _ E E' K. apply named_bid_ok in E, E'. destruct E as [S [D [R1 [R2 [R3 _]]]]], E' as [S' [D' [R1' [R2' [R3' _]]]]].
      unfold bid_key in K. injection K as K1 K2 K3. unfold price_key. rewrite R3, R3' in K3. rewrite (side_inj _ _ D D' K3).
      rewrite K2 in R2. rewrite (service_of_inj _ _ _ R2 R2'). congruence. }
    apply (nodup_merge_fst bid_key info_key); auto.
    intros a b a' b' _ _ X Y E. rewrite andb_true_iff, !String.eqb_eq in X, Y. unfold bid_key in E. unfold info_key. destruct X, Y. congruence.
Qed.
End Processed.
