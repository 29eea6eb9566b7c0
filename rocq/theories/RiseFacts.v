(** Prices have no part in whether a table of price bids is accepted. *)

From Coq Require Import QArith ZArith String List Bool Lia.
Import ListNotations.
From Verif Require Import PandasModel TablesModel MarketModel SolverModel FrameModel CallModel SpecFrame SpecCalls SpecTables SpecLp SpecHistory SpecDispatch
  SpecPrices SpecRise PandasFacts FrameFacts CallFacts RowFacts RejectFacts TotalFacts PriceTheoremFacts ExchangeFacts.
Open Scope string_scope.
Open Scope list_scope.

Lemma band_price req m d o : In (d, o) (price_cols req m) -> In (se_name d) band_order -> d = real (se_name d).
Proof.
  intros H B. destruct req; cbn in H;
    repeat (destruct H as [H|H]; [inversion H; subst; clear H; first [reflexivity | exfalso; cbn in B; repeat (destruct B as [B|B]; [discriminate B|]); exact B]|]);
    contradiction.
Qed.

Section Reprice.
  Context (f f' : frame).
  Hypothesis R : repriced f f'.

  Lemma reprice_names : names f' = names f.
  Proof.
    destruct R as [_ H]. unfold names. induction H as [|c c' l l' [->|[ps [_ [-> _]]]] _ IH]; cbn; [reflexivity| |]; rewrite IH; reflexivity.
  Qed.
  Lemma reprice_in c' : In c' (fm_cols f') ->
    In c' (fm_cols f) \/ (exists ps, In (cl_name c') band_order /\ cl_dtype c' = DFloat /\ cl_cells c' = map CNum ps /\ length ps = fm_rows f).
  Proof.
    destruct R as [_ H]. induction H as [|c d l l' E _ IH]; [intros []|]. intros [<-|I].
    - destruct E as [->|[ps [B [-> L]]]]; [left; now left|right]. exists ps. cbn. auto.
    - destruct (IH I) as [I'|X]; [left; now right|right; exact X].
  Qed.
  Lemma reprice_same c : In c (fm_cols f) -> ~ In (cl_name c) band_order -> In c (fm_cols f').
  Proof.
    destruct R as [_ H]. induction H as [|a d l l' E _ IH]; [intros []|]. intros [<-|I] N.
    - destruct E as [->|[ps [B _]]]; [now left|contradiction].
    - right. exact (IH I N).
  Qed.
  Lemma reprice_col n : ~ In n band_order -> col n f' = col n f.
  Proof.
    intros N. destruct R as [_ H]. unfold col. induction H as [|c c' l l' [->|[ps [B [-> _]]]] _ IH]; cbn; [reflexivity| |].
    - rewrite IH. reflexivity.
    - destruct (String.eqb_spec (cl_name c) n) as [E|_]; [subst; contradiction|exact IH].
  Qed.
  Lemma reprice_table : is_table f -> is_table f'.
  Proof.
    intros [N T]. split; [rewrite reprice_names; exact N|]. intros c I. destruct R as [L _]. rewrite L.
    destruct (reprice_in c I) as [I'|[ps [_ [D [E Lp]]]]]; [exact (T c I')|]. rewrite D, E, map_length. split; [exact Lp|].
    apply Forall_forall. intros x Ix. apply in_map_iff in Ix. destruct Ix as [q [<- _]]. constructor.
  Qed.
  Lemma reprice_fits req m : fits ["unit"; "service"; "dispatch_type"] (price_cols req m) f ->
    fits ["unit"; "service"; "dispatch_type"] (price_cols req m) f'.
  Proof.
    intros [U [M [C K]]]. split; [unfold no_unknown; rewrite reprice_names; exact U|].
    split; [unfold all_needed; rewrite reprice_names; exact M|]. split.
    - intros d b c D I E. destruct (reprice_in c I) as [I'|[ps [B [Y [Z _]]]]]; [exact (C d b c D I' E)|].
      rewrite E in B. rewrite (band_price req m d b D B). split; [exact Y|]. intros x Ix. rewrite Z in Ix.
      apply in_map_iff in Ix. destruct Ix as [q [<- _]]. cbn. split; [discriminate|]. split; [intros _; repeat split; discriminate|discriminate].
    - intros i j L J. destruct R as [Lr _]. rewrite Lr in J. destruct (K i j L J) as [n [x [y [In_n [Hx [Hy D]]]]]].
      exists n, x, y. split; [exact In_n|].
      assert (N : ~ In n band_order) by (destruct In_n as [<-|[<-|[<-|[]]]]; cbn; intuition discriminate).
      split; [|split; [|exact D]].
      + destruct Hx as [c [Ic [En Ex]]]. exists c. split; [apply reprice_same; [exact Ic|rewrite En; exact N]|]. auto.
      + destruct Hy as [c [Ic [En Ey]]]. exists c. split; [apply reprice_same; [exact Ic|rewrite En; exact N]|]. auto.
  Qed.
End Reprice.

(** A table of price bids that fits has real numbers and texts only. *)
Lemma price_finite req m f : fits ["unit"; "service"; "dispatch_type"] (price_cols req m) f -> finite f.
Proof.
  intros [U [_ [C _]]] c x Ic Ix. destruct (U (cl_name c)) as [d [b [D E]]]; [unfold names; apply in_map; exact Ic|].
  destruct (C d b c D Ic (eq_sym E)) as [W V]. destruct (V x Ix) as [_ [V2 _]].
  assert (X : se_type d = TStr \/ se_real d = true).
  { destruct req; cbn in D; repeat (destruct D as [D|D]; [inversion D; subst; first [left; reflexivity|right; reflexivity]|]); contradiction. }
  destruct X as [X|X].
  - unfold right_type in W. rewrite X in W. destruct (W x Ix) as [s ->]. repeat split; discriminate.
  - destruct (V2 X) as [A [B N]]. repeat split; try assumption. intros Y. contradiction.
Qed.

Lemma all_some_keys {A B K} (key : B -> K) (g g' : A -> option B) l : forall a b,
  all_some (map g l) = Some a -> all_some (map g' l) = Some b -> (forall i x y, g i = Some x -> g' i = Some y -> key x = key y) ->
  map key a = map key b.
Proof.
  induction l as [|i l IH]; intros a b Ha Hb E; cbn in Ha, Hb; [inversion Ha; inversion Hb; reflexivity|].
  destruct (g i) as [x|] eqn:G; [|discriminate]. destruct (g' i) as [y|] eqn:G'; [|discriminate].
  destruct (all_some (map g l)) as [a1|]; [|discriminate]. destruct (all_some (map g' l)) as [b1|]; [|discriminate].
  inversion Ha; inversion Hb; subst. cbn. f_equal; [exact (E i x y G G')|]. apply IH; auto.
Qed.
Lemma energy_keys t t' : map (fun r => (br_unit r, br_service r)) (bt_rows t) = map (fun r => (br_unit r, br_service r)) (bt_rows t') ->
  energy_units t = energy_units t'.
Proof.
  unfold energy_units. generalize (bt_rows t), (bt_rows t'). induction l as [|r l IH]; intros [|r' l'] H; try discriminate H; [reflexivity|].
  cbn in H. inversion H as [[E1 E2 E3]]. cbn. rewrite E2. destruct (String.eqb (br_service r') "energy"); cbn; [rewrite E1; f_equal|]; exact (IH l' E3).
Qed.

Lemma read_keys f f' t t' : repriced f f' -> read_bids f = Some t -> read_bids f' = Some t' -> energy_units t = energy_units t'.
Proof.
  intros R H H'. apply energy_keys. unfold read_bids in H, H'. unfold given at 1 in H. unfold given at 1 in H'.
  destruct (rows_of _ f) as [l|] eqn:E; [|discriminate]. destruct (rows_of _ f') as [l'|] eqn:E'; [|discriminate].
  inversion H; inversion H'; subst. cbn [bt_rows]. unfold rows_of in E, E'. rewrite (proj1 R) in E'.
  refine (all_some_keys _ _ _ _ _ _ E E' _). intros i x y G G'.
  assert (C : forall n, ~ In n band_order -> str_at n f' i = str_at n f i).
  { intros n N. unfold str_at, cell_at. rewrite (reprice_col f f' R n N). reflexivity. }
  unfold str_or in G, G'. rewrite (reprice_names f f' R) in G'.
  rewrite (C "unit") in G' by (cbn; intuition discriminate).
  rewrite (C "service") in G' by (cbn; intuition discriminate).
  unfold given in G, G'. destruct (str_at "unit" f i) as [u|]; [|discriminate].
  destruct (if mem_str "service" (names f) then str_at "service" f i else Some "energy") as [s|]; [|discriminate].
  repeat match type of G with match ?o with _ => _ end = _ => destruct o; [|discriminate] end.
  repeat match type of G' with match ?o with _ => _ end = _ => destruct o; [|discriminate] end.
  inversion G; inversion G'; subst. reflexivity.
Qed.

Lemma repriced_accepted req m f f' m1 back : is_table f -> repriced f f' -> call req (FPriceBids f) m = Some (m1, None, back) ->
  exists m2 back2, call req (FPriceBids f') m = Some (m2, None, back2).
Proof.
  intros T R H. unfold call in *. change (first_check (FPriceBids f') m) with (first_check (FPriceBids f) m).
  cbn [first_check before_check checks] in *. destruct (m_bids m) as [vs|] eqn:B; [|discriminate].
  destruct (validate (price_schema req m) f) eqn:V; [discriminate|].
  pose proof (proj1 (validate_accepts _ _ f (price_proper req m) T) V) as F.
  pose proof (reprice_fits f f' R req m F) as F'. pose proof (reprice_table f f' R T) as T'.
  unfold price_schema at 1. rewrite (proj2 (validate_accepts _ _ f' (price_proper req m) T') F').
  destruct (bids_total m false req f' T' F' (price_finite req m f' F')) as [t' Et'].
  cbn [typed] in *. rewrite Et'. destruct (read_bids f) as [t|] eqn:Et; [|discriminate]. cbn [given] in *.
  pose proof (bids_rows m req false f' t' T' F' Et') as K'. pose proof (bids_rows m req false f t T F Et) as K.
  cbn [step] in *. unfold set_price_bids in *. rewrite B in *. rewrite K'. rewrite K in H. unfold guard at 1 in H. unfold guard at 1.
  rewrite <- (read_keys f f' t t' R Et Et'). destruct (check_bdu m (energy_units t)) eqn:D; [discriminate H|].
  cbn. eauto.
Qed.

(** Falling prices for any table with two bands. *)
Definition fallen (f : frame) : frame :=
  Frame (fm_rows f) (map (fun c => if String.eqb (cl_name c) "2" then Col (cl_name c) DFloat (map CNum (repeat (-(1)) (fm_rows f)))
                                   else if String.eqb (cl_name c) "1" then Col (cl_name c) DFloat (map CNum (repeat 0 (fm_rows f))) else c) (fm_cols f)).
Lemma fallen_repriced f : repriced f (fallen f).
Proof.
  split; [reflexivity|]. unfold fallen at 1. cbn [fm_cols]. induction (fm_cols f) as [|c l IH]; constructor; [|exact IH].
  destruct (String.eqb_spec (cl_name c) "2") as [E|_]; [right; eexists; rewrite E; split; [right; now left|]; split; [reflexivity|apply repeat_length]|].
  destruct (String.eqb_spec (cl_name c) "1") as [E|_]; [right; eexists; rewrite E; split; [now left|]; split; [reflexivity|apply repeat_length]|].
  now left.
Qed.
Lemma fallen_falls f : In "1" (names f) -> In "2" (names f) -> fm_rows f <> 0%nat -> falls (fallen f).
Proof.
  intros I1 I2 N. unfold names in *. apply in_map_iff in I1, I2. destruct I1 as [c [E Ic]], I2 as [d [E2 Id]].
  destruct (fm_rows f) as [|n] eqn:L; [congruence|].
  exists 0%nat, "1", "2", 0, (-(1)). split; [exists 0%nat, 1%nat; repeat split; constructor|]. split; [|split; [|reflexivity]].
  - eexists. split; [apply in_map; exact Ic|]. rewrite E, L. cbn. auto.
  - eexists. split; [apply in_map; exact Id|]. rewrite E2, L. cbn. auto.
Qed.
Lemma falling_accepted req m f m1 back : is_table f -> call req (FPriceBids f) m = Some (m1, None, back) ->
  In "2" (names f) -> fm_rows f <> 0%nat ->
  exists f' m2 back2, repriced f f' /\ falls f' /\ call req (FPriceBids f') m = Some (m2, None, back2).
Proof.
  intros T H I2 N. exists (fallen f). destruct (repriced_accepted req m f (fallen f) m1 back T (fallen_repriced f) H) as [m2 [b2 H2]].
  exists m2, b2. split; [apply fallen_repriced|]. split; [|exact H2]. apply fallen_falls; [|exact I2|exact N].
  unfold call in H. cbn [first_check before_check checks] in H. destruct (m_bids m); [|discriminate].
  destruct (validate (price_schema req m) f) eqn:V; [discriminate|].
  destruct (proj1 (validate_accepts _ _ f (price_proper req m) T) V) as [_ [M _]]. apply M. exists (real "1"). split; [|reflexivity].
  destruct req; cbn; tauto.
Qed.

(** Rising prices: the bands are used in their order, those of a load's energy in the
    opposite order. *)
Lemma rising_in_order c tv tp m p x u s d b b' ui v v' q q' :
  priced c tv tp m -> untied m -> assemble m = Ok p -> optimal p x -> rising tp u s d -> earlier b b' ->
  offered tv u s d b v -> offered tv u s d b' v' -> 1#10000 <= v -> 1#10000 <= v' ->
  offered tp u s d b q -> offered tp u s d b' q' ->
  In ui (c_ui c) -> ui_unit ui = u -> ui_dt ui = d -> (s = "energy" -> 0 < ui_lf ui) ->
  if String.eqb s "energy" && String.eqb d "load"
  then 0 < band_dispatch m x u s d b -> band_dispatch m x u s d b' == v'
  else 0 < band_dispatch m x u s d b' -> band_dispatch m x u s d b == v.
Proof.
  intros P N A O R E V V' L L' Q Q' I Iu Id Lf. pose proof (R b b' q q' E Q Q') as Lt.
  destruct (String.eqb s "energy" && String.eqb d "load") eqn:X; intros D.
  - eapply (price_order c tv tp m p x u s d b' b ui v' v q' q); eauto. rewrite X. exact Lt.
  - eapply (price_order c tv tp m p x u s d b b' ui v v' q q'); eauto. rewrite X. exact Lt.
Qed.
