(** Trapeziums, limits and ramp rates of the historical unit data. *)

From Coq Require Import QArith String List Bool Lia.
Import ListNotations.
From Verif Require Import PandasModel PandasFacts TablesModel MarketModel ReportsModel OffersModel UnitsModel UnitDataModel SpecOffers SpecUnitData
  OffersFacts EnableFacts UnitKeysFacts UnitDataFacts UnitBidsFacts.
Open Scope string_scope.
Open Scope list_scope.

(** ** The order of calls *)

Lemma processed_process i v p : processed_offers i = Ok (v, p) ->
  process_offers (in_old i) (map offer_of (bids_of i)) (in_prices i) (in_agc i) (in_initials i) (in_uigf i) = Ok (v, p).
Proof. unfold processed_offers, bind. destruct (unit_info i); [|discriminate]. destruct (bid_availability i); [auto|discriminate]. Qed.

Lemma process_names i v p o : inputs_ok i -> processed_offers i = Ok (v, p) -> In o v -> (exists s, service_of (of_type o) s) /\ direction (of_dir o).
Proof.
  intros K H Ho. destruct (process_same _ _ _ _ _ _ _ _ _ (processed_process i v p H) Ho) as [o0 [H0 [_ [S2 [S3 _]]]]].
  destruct (bid_offers_ok i K) as [A [B _]]. rewrite <- S2, <- S3. split; [|apply (B o0 H0)].
  apply known_service. destruct (A o0 H0) as [->|X]; cbn [In]; auto.
Qed.

Definition trap_of (o : offer) : result trap_row :=
  bind (service_name (of_type o)) (fun sn => bind (dir_name (of_dir o)) (fun dn =>
    Ok (Trap (of_duid o) sn dn (of_max o) (of_emin o) (of_low o) (of_high o) (of_emax o)))).

Lemma trap_of_ok o r : trap_of o = Ok r -> direction (of_dir o) /\ trap_for o r.
Proof.
  unfold trap_of, bind. destruct (service_name (of_type o)) as [s|] eqn:S; [|discriminate]. destruct (dir_name (of_dir o)) as [n|] eqn:D; [|discriminate].
  intros H. injection H as <-. apply service_name_iff in S. apply dir_name_iff in D. destruct D as [D ->]. split; [exact D|]. unfold trap_for. cbn. auto 10.
Qed.

Lemma trap_of_total o s : service_of (of_type o) s -> direction (of_dir o) -> exists r, trap_of o = Ok r.
Proof.
  intros S D. unfold trap_of. rewrite (proj2 (service_name_iff _ _) S), (proj2 (dir_name_iff (of_dir o) _) (conj D eq_refl)). cbn. eauto.
Qed.

Lemma traps_total i v p : inputs_ok i -> processed_offers i = Ok (v, p) -> exists ts, format_traps v = Ok ts.
Proof.
  intros K H. unfold format_traps. apply each_ok. intros o Ho. apply filter_In in Ho. destruct Ho as [Ho _].
  destruct (process_names i v p o K H Ho) as [[s S] D]. exact (trap_of_total o s S D).
Qed.

Lemma ready_snoc cs c : ready (cs ++ [c]) <-> ready cs \/ (c = AddTraps /\ In Processed cs).
Proof.
  unfold ready. split.
  - intros [a [b [x E]]].
    destruct x as [|y0 x0] using rev_ind.
    + right. assert (E' : cs ++ [c] = (a ++ Processed :: b) ++ [AddTraps]) by (rewrite E, <- app_assoc; reflexivity).
      apply app_inj_tail in E'. destruct E' as [-> ->]. split; [reflexivity|]. apply in_app_iff. right. now left.
    + left. clear IHx0. assert (E' : cs ++ [c] = (a ++ Processed :: b ++ AddTraps :: x0) ++ [y0]) by (rewrite E, <- !app_assoc; cbn; rewrite <- !app_assoc; reflexivity).
      apply app_inj_tail in E'. destruct E' as [-> _]. eauto.
  - intros [[a [b [x ->]]]|[-> H]].
    + exists a, b, (x ++ [c]). rewrite <- !app_assoc. cbn. rewrite <- !app_assoc. reflexivity.
    + apply in_split in H. destruct H as [a [b ->]]. exists a, b, []. now rewrite <- app_assoc.
Qed.

Lemma after_snoc i cs c : after_calls i (cs ++ [c]) = call_data (after_calls i cs) c.
Proof. unfold after_calls. now rewrite fold_left_app. Qed.

Lemma after_in i cs : ud_in (after_calls i cs) = i.
Proof.
  induction cs as [|c cs IH] using rev_ind; [reflexivity|]. rewrite after_snoc. destruct c; cbn.
  - unfold get_processed_bids. destruct (processed_offers _) as [[v p]|]; exact IH.
  - unfold add_traps. destruct (ud_offers _); [|exact IH]. destruct (format_traps _); exact IH.
Qed.

Lemma after_state i v p ts cs : processed_offers i = Ok (v, p) -> format_traps v = Ok ts ->
  (In Processed cs -> ud_offers (after_calls i cs) = Some v) /\ (~ In Processed cs -> ud_offers (after_calls i cs) = None)
  /\ (ready cs -> ud_traps (after_calls i cs) = Some ts) /\ (~ ready cs -> ud_traps (after_calls i cs) = None).
Proof.
  intros P F. induction cs as [|c cs IH] using rev_ind.
  - cbn. split; [tauto|]. split; [auto|]. split; [|auto]. intros [a [b [x E]]]. destruct a; discriminate.
  - destruct IH as [A [B [C D]]]. rewrite after_snoc, ready_snoc. assert (I : forall x, In x (cs ++ [c]) <-> In x cs \/ x = c).
    { intros x. rewrite in_app_iff. cbn. split; intros [H|H]; auto. destruct H as [->|[]]; auto. }
    rewrite I. destruct c; cbn [call_data].
    + unfold get_processed_bids. rewrite after_in, P. cbn [fst ud_offers ud_traps]. split; [auto|]. split; [tauto|].
      split; [intros [H|[H _]]; [auto|discriminate]|]. intros H. apply D. tauto.
    + unfold add_traps. destruct (in_dec (fun a b : ud_call => ltac:(decide equality)) Processed cs) as [H|H].
      * rewrite (A H), F. cbn [fst ud_offers ud_traps]. split; [auto|]. split; [tauto|]. split; [auto|]. tauto.
      * rewrite (B H). cbn [fst]. split; [intros [X|X]; [tauto|discriminate]|]. split; [auto|].
        split; [intros [X|X]; [auto|tauto]|]. intros X. apply D. tauto.
Qed.

Lemma order_needed i v p cs : inputs_ok i -> processed_offers i = Ok (v, p) ->
  (ready cs -> exists ms rs ks, max_availability (after_calls i cs) = Gives ms /\ regulation_traps (after_calls i cs) = Gives rs
                /\ contingency_traps (after_calls i cs) = Gives ks)
  /\ (~ ready cs -> max_availability (after_calls i cs) = Raises CallOrder /\ regulation_traps (after_calls i cs) = Raises CallOrder
                /\ contingency_traps (after_calls i cs) = Raises CallOrder).
Proof.
  intros K P. destruct (traps_total i v p K P) as [ts F]. destruct (after_state i v p ts cs P F) as [_ [_ [C D]]].
  unfold max_availability, regulation_traps, contingency_traps, with_traps. split; intros H; [rewrite (C H)|rewrite (D H)]; eauto 10.
Qed.

Lemma is_reg_trap o r : trap_for o r -> is_regulation r = true <-> regulation (of_type o).
Proof.
  intros [_ [S _]]. unfold is_regulation, regulation. rewrite mem_str_in. cbn [In]. unfold service_of in S.
  repeat (destruct S as [[-> ->]|S]; [split; intros H; intuition (auto; discriminate)|]). destruct S as [-> ->]. split; intros H; intuition (auto; discriminate).
Qed.

Definition max_key (r : max_avail_row) : string * string * string := (ma_unit r, ma_service r, ma_dt r).

Lemma trap_rows i v p cs ms rs ks : inputs_ok i -> processed_offers i = Ok (v, p) ->
  max_availability (after_calls i cs) = Gives ms -> regulation_traps (after_calls i cs) = Gives rs -> contingency_traps (after_calls i cs) = Gives ks ->
  (forall r, In r rs -> exists o, In o v /\ regulation (of_type o) /\ trap_for o r)
  /\ (forall r, In r ks -> exists o, In o v /\ of_type o <> "ENERGY" /\ ~ regulation (of_type o) /\ trap_for o r)
  /\ (forall o, In o v -> of_type o <> "ENERGY" -> exists r, trap_for o r /\ In (MaxAvail (tz_unit r) (tz_service r) (tz_dt r) (tz_max r)) ms
        /\ (regulation (of_type o) -> In r rs) /\ (~ regulation (of_type o) -> In r ks))
  /\ (forall m, In m ms -> exists r, In r (rs ++ ks) /\ m = MaxAvail (tz_unit r) (tz_service r) (tz_dt r) (tz_max r))
  /\ NoDup (map trap_key (rs ++ ks)) /\ NoDup (map (fun m => (ma_unit m, ma_service m, ma_dt m)) ms).
Proof.
  intros K P Hm Hr Hk. destruct (traps_total i v p K P) as [ts F]. destruct (after_state i v p ts cs P F) as [_ [_ [C D]]].
  unfold max_availability, regulation_traps, contingency_traps, with_traps in *.
  assert (T : ud_traps (after_calls i cs) = Some ts).
  { destruct (ud_traps (after_calls i cs)) as [ts'|] eqn:E; [|discriminate]. f_equal.
    destruct (in_dec (fun a b : ud_call => ltac:(decide equality)) Processed cs) as [X|X].
    - clear - E P F cs. revert E. revert ts'. induction cs as [|c cs IH] using rev_ind; [discriminate|]. intros ts'. rewrite after_snoc. destruct c; cbn [call_data].
      + unfold get_processed_bids. rewrite after_in, P. cbn. apply IH.
      + unfold add_traps. destruct (in_dec (fun a b : ud_call => ltac:(decide equality)) Processed cs) as [X|X].
        * rewrite (proj1 (after_state i v p ts cs P F) X), F. cbn. congruence.
        * rewrite (proj1 (proj2 (after_state i v p ts cs P F)) X). cbn. apply IH.
    - exfalso. assert (N : ~ ready cs). { intros [a [b [x ->]]]. apply X. apply in_app_iff. right. now left. } specialize (D N). congruence. }
  rewrite T in Hm, Hr, Hk. injection Hm as <-. injection Hr as <-. injection Hk as <-.
  assert (Kt := K). destruct Kt as [Kp [Kr [Kd [Ki [Ka Ku]]]]]. assert (Kb := bid_offers_ok i K).
  destruct (process_keys _ _ _ _ _ _ _ _ (bids_keys i Kp Kr) (proj1 (proj2 Kb)) Ka Ki Ku (proj1 Kp) (processed_process i v p P)) as [Nv _].
  assert (Sound : forall r, In r ts -> exists o, In o v /\ of_type o <> "ENERGY" /\ trap_for o r).
  { intros r Hr. apply (each_in _ _ _ F) in Hr. destruct Hr as [o [Ho E]]. apply filter_In in Ho. destruct Ho as [Ho N].
    unfold of_type_is in N. apply negb_true_iff, String.eqb_neq in N. apply trap_of_ok in E. exists o. tauto. }
  assert (Nt : NoDup (map trap_key ts)).
  { apply (each_nodup _ offer_key trap_key _ _ F); [now apply nodup_map_filter|]. intros a a' b b' _ _ E E' Kk.
    apply trap_of_ok in E, E'. destruct E as [D1 [T1 [T2 [T3 _]]]], E' as [D1' [T1' [T2' [T3' _]]]]. unfold trap_key in Kk. injection Kk as K1 K2 K3.
    rewrite K2 in T2. unfold offer_key. rewrite (service_of_inj _ _ _ T2 T2'), (side_inj (of_dir a) (of_dir a')); auto; congruence. }
  split; [|split; [|split; [|split; [|split]]]].
  - intros r Hr. apply filter_In in Hr. destruct Hr as [Hr R]. destruct (Sound r Hr) as [o [Ho [N To]]]. apply (is_reg_trap o r To) in R. eauto.
  - intros r Hr. apply filter_In in Hr. destruct Hr as [Hr R]. destruct (Sound r Hr) as [o [Ho [N To]]]. exists o. split; [exact Ho|]. split; [exact N|]. split; [|exact To].
    intros X. apply (is_reg_trap o r To) in X. rewrite X in R. discriminate.
  - intros o Ho N. assert (X : In o (filter (fun o => negb (of_type_is "ENERGY" o)) v)).
    { apply filter_In. split; [exact Ho|]. unfold of_type_is. now apply negb_true_iff, String.eqb_neq. }
    destruct (each_total _ _ _ F o X) as [r [E Hr]]. apply trap_of_ok in E. destruct E as [_ To]. exists r. split; [exact To|].
    split; [apply in_map_iff; eauto|]. rewrite !filter_In. split; intros R.
    + split; [exact Hr|]. now apply (is_reg_trap o r To).
    + split; [exact Hr|]. destruct (is_regulation r) eqn:Y; [|reflexivity]. exfalso. apply R. now apply (is_reg_trap o r To).
  - intros m Hm. apply in_map_iff in Hm. destruct Hm as [r [<- Hr]]. exists r. split; [|reflexivity]. rewrite in_app_iff, !filter_In. destruct (is_regulation r); cbn; auto.
  - apply nodup_map_app; [now apply nodup_map_filter|now apply nodup_map_filter|]. intros a b A B E. apply filter_In in A, B. destruct A as [A RA], B as [B RB].
    assert (a = b) by (apply (nodup_key_eq trap_key ts); auto). subst b. rewrite RA in RB. discriminate.
  - rewrite map_map. exact Nt.
Qed.

(** ** Limits and ramp rates *)

Lemma availability_rows i : prices_ok i -> paired i -> exists ls, bid_availability i = Ok ls
  /\ (forall l, In l ls <-> exists v p, In v (in_volumes i) /\ In p (in_prices i) /\ belongs v p /\ vo_type v = "ENERGY"
        /\ ~ (in_old i = true /\ In (vo_duid v) (map ug_unit (in_uigf i))) /\ l = Limit (vo_duid v) (side (po_dir p)) (vo_max v))
  /\ NoDup (map (fun l => (li_unit l, li_dt l)) ls).
Proof.
  intros Kp Kr. set (f := fun v => bind (opt_dir_name (vo_dir v)) (fun n => Ok (Limit (vo_duid v) n (vo_max v)))).
  set (l := filter (fun v => negb (in_old i && mem_str (vo_duid v) (map ug_unit (in_uigf i)))) (filter (fun v => String.eqb (vo_type v) "ENERGY") (bids_of i))).
  assert (In1 : forall w, In w l -> exists v p, In v (in_volumes i) /\ In p (in_prices i) /\ belongs v p /\ vo_type v = "ENERGY"
     /\ ~ (in_old i = true /\ In (vo_duid v) (map ug_unit (in_uigf i))) /\ w = with_dir v (Some (po_dir p)) /\ f w = Ok (Limit (vo_duid v) (side (po_dir p)) (vo_max v))).
  { intros w H. unfold l in H. rewrite !filter_In in H. destruct H as [[H T] O]. apply (bids_in i w Kr) in H. destruct H as [v [p [Hv [Hp [B ->]]]]].
    cbn in T. apply String.eqb_eq in T. exists v, p. split; [exact Hv|]. split; [exact Hp|]. split; [exact B|]. split; [exact T|]. split.
    - intros [O1 O2]. cbn in O. apply mem_str_in in O2. rewrite O1, O2 in O. discriminate.
    - split; [reflexivity|]. unfold f. cbn [with_dir vo_dir vo_duid vo_max opt_dir_name].
      rewrite (proj2 (dir_name_iff (po_dir p) _) (conj (proj1 (proj2 Kp) p Hp) eq_refl)). reflexivity. }
  destruct (each_ok f l) as [ls E]; [intros w Hw; destruct (In1 w Hw) as [v [p X]]; eexists; apply X|].
  exists ls. split; [exact E|]. split.
  - intros r. rewrite (each_in _ _ _ E). split.
    + intros [w [Hw Fw]]. destruct (In1 w Hw) as [v [p [A1 [A2 [A3 [A4 [A5 [A6 A7]]]]]]]]. exists v, p. repeat split; auto; try apply A3. congruence.
    + intros [v [p [A1 [A2 [A3 [A4 [A5 ->]]]]]]]. exists (with_dir v (Some (po_dir p))). split.
      * unfold l. rewrite !filter_In. split; [split|].
        -- apply (bids_in i _ Kr). eauto 10.
        -- cbn. now apply String.eqb_eq.
        -- cbn [with_dir vo_duid]. destruct (in_old i); [|reflexivity]. destruct (mem_str _ _) eqn:M; [|reflexivity]. apply mem_str_in in M. tauto.
      * unfold f. cbn [with_dir vo_dir vo_duid vo_max opt_dir_name]. rewrite (proj2 (dir_name_iff (po_dir p) _) (conj (proj1 (proj2 Kp) p A2) eq_refl)). reflexivity.
  - apply (each_nodup f (fun w => offer_key (offer_of w)) _ _ _ E).
    + unfold l. repeat apply nodup_map_filter. rewrite <- map_map. now apply bids_keys.
    + intros a a' b b' Ha Ha' Fa Fa' Kk. destruct (In1 a Ha) as [v [p [A1 [A2 [A3 [A4 [A5 [A6 A7]]]]]]]]. destruct (In1 a' Ha') as [v' [p' [B1 [B2 [B3 [B4 [B5 [B6 B7]]]]]]]].
      rewrite A7 in Fa. injection Fa as <-. rewrite B7 in Fa'. injection Fa' as <-. cbn in Kk. injection Kk as K1 K2. rewrite A6, B6. unfold offer_key. cbn.
      rewrite (side_inj (po_dir p) (po_dir p')); [congruence|apply Kp; auto|apply Kp; auto|exact K2].
Qed.

Lemma bid_rates_rows i : prices_ok i -> paired i -> tables_ok i -> exists rs, bid_ramp_rates i = Ok rs
  /\ (forall r, In r rs <-> exists v p t, In v (in_volumes i) /\ In p (in_prices i) /\ belongs v p /\ vo_type v = "ENERGY"
        /\ In t (in_initials i) /\ OffersModel.ic_duid t = vo_duid v
        /\ r = BidRamp (vo_duid v) (side (po_dir p)) (vo_down v) (vo_up v) (ic_mw t))
  /\ NoDup (map (fun r => (bm_unit r, bm_dt r)) rs).
Proof.
  intros Kp Kr [_ [Ki _]]. set (f := fun p : volume_row * initial => bind (opt_dir_name (vo_dir (fst p))) (fun n =>
                 Ok (BidRamp (vo_duid (fst p)) n (vo_down (fst p)) (vo_up (fst p)) (ic_mw (snd p))))).
  set (l := filter (fun p : volume_row * initial => String.eqb (vo_type (fst p)) "ENERGY")
       (merge (fun v t => String.eqb (vo_duid v) (OffersModel.ic_duid t)) (bids_of i) (in_initials i))).
  assert (In1 : forall w, In w l -> exists v p t, In v (in_volumes i) /\ In p (in_prices i) /\ belongs v p /\ vo_type v = "ENERGY"
     /\ In t (in_initials i) /\ OffersModel.ic_duid t = vo_duid v /\ w = (with_dir v (Some (po_dir p)), t)
     /\ f w = Ok (BidRamp (vo_duid v) (side (po_dir p)) (vo_down v) (vo_up v) (ic_mw t))).
  { intros [w t] H. unfold l in H. apply filter_In in H. destruct H as [H T]. apply in_merge in H. destruct H as [H [Ht O]]. apply (bids_in i w Kr) in H. destruct H as [v [p [Hv [Hp [B ->]]]]].
    cbn in T, O. apply String.eqb_eq in T, O. exists v, p, t. split; [exact Hv|]. split; [exact Hp|]. split; [exact B|]. split; [exact T|]. split; [exact Ht|]. split; [congruence|].
    split; [reflexivity|]. unfold f. cbn [fst snd with_dir vo_dir vo_duid vo_down vo_up opt_dir_name].
      rewrite (proj2 (dir_name_iff (po_dir p) _) (conj (proj1 (proj2 Kp) p Hp) eq_refl)). reflexivity. }
  destruct (each_ok f l) as [ls E]; [intros w Hw; destruct (In1 w Hw) as [v [p [t X]]]; eexists; apply X|].
  exists ls. split; [exact E|]. split.
  - intros r. rewrite (each_in _ _ _ E). split.
    + intros [w [Hw Fw]]. destruct (In1 w Hw) as [v [p [t [A1 [A2 [A3 [A4 [A5 [A6 [A7 A8]]]]]]]]]]. exists v, p, t. repeat split; auto; try apply A3. congruence.
    + intros [v [p [t [A1 [A2 [A3 [A4 [A5 [A6 ->]]]]]]]]]. exists (with_dir v (Some (po_dir p)), t). split.
      * unfold l. rewrite filter_In. split.
        -- apply in_merge. split; [apply (bids_in i _ Kr); eauto 10|]. split; [exact A5|]. cbn. now apply String.eqb_eq.
        -- cbn. now apply String.eqb_eq.
      * unfold f. cbn [fst snd with_dir vo_dir vo_duid vo_down vo_up opt_dir_name]. rewrite (proj2 (dir_name_iff (po_dir p) _) (conj (proj1 (proj2 Kp) p A2) eq_refl)). reflexivity.
  - apply (each_nodup f (fun w => offer_key (offer_of (fst w))) _ _ _ E).
    + unfold l. apply nodup_map_filter. apply (nodup_merge_fst (fun w => offer_key (offer_of w)) OffersModel.ic_duid); auto.
      * rewrite <- map_map. now apply bids_keys.
      * intros a b a' b' _ _ X Y Z. apply String.eqb_eq in X, Y. unfold offer_key in Z. cbn in Z. congruence.
    + intros a a' b b' Ha Ha' Fa Fa' Kk. destruct (In1 a Ha) as [v [p [t [A1 [A2 [A3 [A4 [A5 [A6 [A7 A8]]]]]]]]]]. destruct (In1 a' Ha') as [v' [p' [t' [B1 [B2 [B3 [B4 [B5 [B6 [B7 B8]]]]]]]]]].
      rewrite A8 in Fa. injection Fa as <-. rewrite B8 in Fa'. injection Fa' as <-. cbn in Kk. injection Kk as K1 K2. rewrite A7, B7. unfold offer_key. cbn.
      rewrite (side_inj (po_dir p) (po_dir p')); [congruence|apply Kp; auto|apply Kp; auto|exact K2].
Qed.

Lemma scada_rows i r : In r (scada_rates i) <-> exists t, In t (in_initials i)
  /\ r = ScadaRate (OffersModel.ic_duid t) (ic_down t) (ic_up t) (ic_mw t) /\ (ic_up t <> None \/ ic_down t <> None).
Proof.
  unfold scada_rates. rewrite filter_In, in_map_iff. split.
  - intros [[t [<- Ht]] N]. exists t. split; [exact Ht|]. split; [reflexivity|]. unfold no_rate in N. cbn in N.
    destruct (ic_up t); [left; discriminate|]. destruct (ic_down t); [right; discriminate|discriminate].
  - intros [t [Ht [-> N]]]. split; [eauto|]. unfold no_rate. cbn. destruct (ic_up t); [reflexivity|]. destruct (ic_down t); [reflexivity|]. destruct N; contradiction.
Qed.

Lemma scada_once i : tables_ok i -> NoDup (map sr_unit (scada_rates i)).
Proof. intros [_ [Ki _]]. unfold scada_rates. apply nodup_map_filter. rewrite map_map. exact Ki. Qed.

(** The trapeziums come from the file, are nowhere larger and keep to the limits. *)
Lemma traps_from_file i v p cs rs ks r : inputs_ok i -> rates_ok (in_initials i) -> processed_offers i = Ok (v, p) ->
  regulation_traps (after_calls i cs) = Gives rs -> contingency_traps (after_calls i cs) = Gives ks -> In r (rs ++ ks) ->
  exists w q o o', In w (in_volumes i) /\ In q (in_prices i) /\ belongs w q /\ o = offer_of (with_dir w (Some (po_dir q)))
    /\ tightens o o' /\ trap_for o' r /\ 0 < tz_max r
    /\ (regulation (vo_type w) -> exists a, In a (in_agc i) /\ ag_duid a = vo_duid w
         /\ (forall l, agc_min a (vo_type w) = Some l -> 0 < l -> l <= tz_emin r)
         /\ (forall h, agc_max a (vo_type w) = Some h -> 0 < h -> tz_emax r <= h))
    /\ (forall t k, In t (in_initials i) -> OffersModel.ic_duid t = vo_duid w -> reg_rate t (vo_type w) = Some k -> ~ k == 0 -> tz_max r <= k / 12)
    /\ (forall f, In f (in_uigf i) -> ug_unit f = vo_duid w -> tz_emax r <= ug_cap f).
Proof.
  intros K Rt P Hr Hk H.
  assert (M : exists ms, max_availability (after_calls i cs) = Gives ms).
  { unfold max_availability, regulation_traps, with_traps in *. destruct (ud_traps _); [eauto|discriminate]. }
  destruct M as [ms Hm]. destruct (trap_rows i v p cs ms rs ks K P Hm Hr Hk) as [A [B _]].
  assert (X : exists o', In o' v /\ of_type o' <> "ENERGY" /\ trap_for o' r).
  { apply in_app_iff in H. destruct H as [H|H].
    - destruct (A r H) as [o' [Ho [R T]]]. exists o'. split; [exact Ho|]. split; [|exact T]. destruct R as [->| ->]; discriminate.
    - destruct (B r H) as [o' [Ho [N [_ T]]]]. eauto. }
  destruct X as [o' [Ho [N T]]]. destruct (tables_agc i (proj2 (proj2 K))) as [_ [Ki Ku]].
  destruct (process_final _ _ _ _ _ _ _ _ _ Rt Ki (processed_process i v p P) Ho N) as [o [H0 [Ti [Pos [F1 [F2 F3]]]]]].
  assert (H0' := H0). apply in_map_iff in H0. destruct H0 as [w [<- Hw]]. apply (bids_in i w (proj1 (proj2 K))) in Hw. destruct Hw as [x [q [Hx [Hq [Be ->]]]]].
  exists x, q, (offer_of (with_dir x (Some (po_dir q)))), o'. split; [exact Hx|]. split; [exact Hq|]. split; [exact Be|]. split; [reflexivity|]. split; [exact Ti|]. split; [exact T|].
  destruct T as [T1 [T2 [T3 [T4 [T5 [T6 [T7 T8]]]]]]]. rewrite T4, T5, T8. cbn in F1, F2, F3. split; [exact Pos|]. split; [exact F1|]. split; [exact F2|].
  intros f Hf Ef. destruct F3 as [f' [Hf' [Ef' L]]]; [rewrite <- Ef; now apply in_map|]. assert (f' = f) by (apply Ku; auto; congruence). now subst f'.
Qed.

Lemma trap_has_bid i v p cs ms rs ks tv tp r : inputs_ok i -> processed_offers i = Ok (v, p) ->
  snd (get_processed_bids (new_data i)) = Gives (tv, tp) ->
  max_availability (after_calls i cs) = Gives ms -> regulation_traps (after_calls i cs) = Gives rs -> contingency_traps (after_calls i cs) = Gives ks ->
  In r (rs ++ ks) -> described i (tz_unit r) -> In (trap_key r) (map bid_key (bt_rows tv)).
Proof.
  intros K P Run Hm Hr Hk H De. destruct (trap_rows i v p cs ms rs ks K P Hm Hr Hk) as [R [C _]].
  assert (Fine : inputs_ok (ud_in (new_data i))) by exact K.
  destruct (processed_rows (new_data i) tv tp Fine Run) as [vs [ps [ui [Pc [_ [_ [_ [_ [Vc _]]]]]]]]]. cbn [new_data ud_in] in Pc, Vc.
  rewrite (processed_process i v p P) in Pc. injection Pc as <- <-.
  assert (exists o, In o v /\ trap_for o r) as [o [Ho [T1 [T2 [T3 _]]]]].
  { apply in_app_iff in H. destruct H as [H|H]; [destruct (R r H) as [o X]|destruct (C r H) as [o X]]; exists o; tauto. }
  rewrite T1 in De. destruct (Vc o Ho De) as [b [Hb [B1 [B2 [B3 _]]]]].
  apply in_map_iff. exists b. split; [|exact Hb]. unfold bid_key, trap_key. rewrite T1, T3, B1, B3, (service_of_fun _ _ _ B2 T2). reflexivity.
Qed.

Lemma bids_once i : prices_ok i -> paired i -> NoDup (map (fun w => (vo_duid w, vo_dir w, vo_type w)) (bids_of i)).
Proof.
  intros K K'. pose proof (bids_keys i K K') as N. rewrite map_map in N.
  apply (nodup_weaken (fun w => offer_key (offer_of w))); [exact N|].
  intros v w Hv Hw E. unfold offer_key. cbn. injection E as E1 E2 E3. now rewrite E1, E2, E3.
Qed.

Lemma missing_price i d v : In v (in_volumes i) -> vo_dir v = None -> vo_type v = "ENERGY" ->
  (forall p, In p (in_prices i) -> ~ (vo_duid v = po_duid p /\ vo_type v = po_type p)) ->
  ~ (in_old i = true /\ In (vo_duid v) (map ug_unit (in_uigf i))) -> ud_in d = i ->
  (exists e, bid_availability i = Err e) /\ exists e, snd (get_processed_bids d) = Raises e.
Proof.
  intros Hv D T M O E. assert (exists e, bid_availability i = Err e) as [e B].
  { unfold bid_availability. apply (each_error _ _ v EKey).
    - rewrite !filter_In. split; [split|].
      + unfold bids_of. apply map_direction_in. right. exists v. auto 10.
      + now apply String.eqb_eq.
      + destruct (in_old i); [|reflexivity]. destruct (mem_str (vo_duid v) (map ug_unit (in_uigf i))) eqn:X; [|reflexivity].
        apply mem_str_in in X. tauto.
    - now rewrite D. }
  split; [eauto|]. unfold get_processed_bids, processed_offers, bind. rewrite E, B. destruct (unit_info i); cbn; eauto.
Qed.
