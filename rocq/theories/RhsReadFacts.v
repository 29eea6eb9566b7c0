(** Lemmas about the set-up of the calculator of right hand sides. *)

From Coq Require Import QArith String Ascii List Bool ZArith Lia.
Import ListNotations.
From Verif Require Import PandasModel OffersModel XmlModel ConstraintsModel RhsModel RhsReadModel.
From Verif Require Import SpecXml SpecRhs SpecRhsRead PandasFacts OffersFacts XmlFacts XmlReadFacts RpnFacts GroupFacts.
Open Scope string_scope.
Open Scope list_scope.

(** ** Dictionaries filled from pairs *)

Definition put {A} (l : list (string * A)) (d : dict A) : dict A := fold_left (fun d p => dset (fst p) (snd p) d) l d.

Lemma put_other {A} k (l : list (string * A)) : forall d, ~ In k (map fst l) -> dget k (put l d) = dget k d.
Proof.
  induction l as [|[j a] l IH]; intros d N; [reflexivity|]. change (put ((j, a) :: l) d) with (put l (dset j a d)). rewrite IH.
  - apply dget_dset_other. intros ->. apply N. now left.
  - intros I. apply N. now right.
Qed.
Lemma put_get {A} k (v : A) (l : list (string * A)) : NoDup (map fst l) -> forall d,
  dget k (put l d) = Some v <-> In (k, v) l \/ (~ In k (map fst l) /\ dget k d = Some v).
Proof.
  induction l as [|[j a] l IH]; intros N d.
  - cbn. intuition.
  - cbn in N. inversion N as [|? ? N1 N2]; subst. change (put ((j, a) :: l) d) with (put l (dset j a d)).
    rewrite (IH N2). cbn. split.
    + intros [I|[I E]]; [now left; right|]. destruct (string_dec j k) as [->|D].
      * rewrite dget_dset_same in E. injection E as ->. left. now left.
      * rewrite dget_dset_other in E by congruence. right. split; [|exact E]. intros [F|F]; [now apply D|now apply I].
    + intros [[E|I]|[I E]].
      * injection E as -> ->. right. split; [exact N1|]. apply dget_dset_same.
      * now left.
      * right. split; [intros F; apply I; now right|]. rewrite dget_dset_other; [exact E|]. intros ->. apply I. now left.
Qed.
Lemma put_some {A} k (v : A) (l : list (string * A)) : NoDup (map fst l) -> dget k (put l []) = Some v <-> In (k, v) l.
Proof. intros N. rewrite (put_get k v l N []). cbn. intuition discriminate. Qed.

Lemma forall2_in_r {A B} (R : A -> B -> Prop) l m : Forall2 R l m -> forall b, In b m -> exists a, In a l /\ R a b.
Proof.
  induction 1 as [|a b l m H _ IH]; intros c I; [destruct I|].
  destruct I as [<-|I]; [exists a; split; [now left|exact H]|]. destruct (IH c I) as (x & X & Y). exists x. split; [now right|exact Y].
Qed.
Lemma forall2_in_l {A B} (R : A -> B -> Prop) l m : Forall2 R l m -> forall a, In a l -> exists b, In b m /\ R a b.
Proof.
  induction 1 as [|a b l m H _ IH]; intros c I; [destruct I|].
  destruct I as [<-|I]; [exists b; split; [now left|exact H]|]. destruct (IH c I) as (x & X & Y). exists x. split; [now right|exact Y].
Qed.
Lemma nodup_attr {B} n (l : list elem) (m : list (string * B)) : NoDup (map (attr n) l) ->
  Forall2 (fun e b => attr n e = Some (fst b)) l m -> NoDup (map fst m).
Proof.
  intros N F. induction F as [|a b l m H F IH]; [constructor|]. cbn in *. inversion N as [|? ? N1 N2]; subst. constructor; [|apply IH, N2].
  intros I. apply in_map_iff in I. destruct I as (c & E & C). destruct (forall2_in_r _ _ _ F c C) as (x & X & Y).
  apply N1. rewrite H. rewrite <- E, <- Y. apply in_map, X.
Qed.

(** ** Reading of single attributes *)

Lemma maybe_text_read n e : el_attrs e <> [] -> maybe_text (String "@" n) (parse e) = Got (attr n e).
Proof.
  intros N. unfold maybe_text. rewrite (has_attr n e N). cbn [xbind]. destruct (attr n e) as [s|] eqn:E; [|reflexivity].
  rewrite (text_attr n e s E). reflexivity.
Qed.
Lemma maybe_float_read rd n e : el_attrs e <> [] -> number_or_none rd n e ->
  exists o, maybe_float rd (String "@" n) (parse e) = Got o /\ maybe rd n e o.
Proof.
  intros N H. unfold maybe_float. rewrite (has_attr n e N). cbn [xbind]. destruct (attr n e) as [s|] eqn:E.
  - destruct H as [H|(q & H)]; [congruence|]. exists (Some q). rewrite (float_attr rd n e q H). split; [reflexivity|exact H].
  - exists None. split; [reflexivity|exact E].
Qed.
Lemma term_read rd e : term_readable rd e -> exists t, read_term rd (parse e) = Got t /\ term_of rd e t.
Proof.
  intros (A & B & (m & M) & V & D).
  destruct (attr "SpdType" e) as [ty|] eqn:E1; [|congruence]. destruct (attr "SpdID" e) as [id|] eqn:E2; [|congruence].
  pose proof (attr_attrs _ _ _ E1) as N.
  destruct (maybe_float_read rd "Value" e N V) as (v & Ev & Sv). destruct (maybe_float_read rd "Default" e N D) as (d & Ed & Sd).
  eexists. unfold read_term.
  change "@SpdType" with (String "@" "SpdType"). rewrite (text_attr _ e ty E1). cbn [xbind].
  change "@SpdID" with (String "@" "SpdID"). rewrite (text_attr _ e id E2). cbn [xbind].
  change "@Operation" with (String "@" "Operation"). rewrite (maybe_text_read "Operation" e N). cbn [xbind].
  change "@Multiplier" with (String "@" "Multiplier"). rewrite (float_attr rd _ e m M). cbn [xbind].
  change "@Value" with (String "@" "Value"). rewrite Ev. cbn [xbind].
  change "@Default" with (String "@" "Default"). rewrite Ed. cbn [xbind].
  change "@GroupTerm" with (String "@" "GroupTerm"). rewrite (maybe_text_read "GroupTerm" e N). cbn [xbind].
  split; [reflexivity|]. unfold term_of. cbn. repeat split; try assumption.
Qed.

Lemma each_parse {B} (f : xml -> xres B) (R : elem -> B -> Prop) l :
  (forall e, In e l -> exists b, f (parse e) = Got b /\ R e b) -> exists bs, each f (map parse l) = Got bs /\ Forall2 R l bs.
Proof.
  induction l as [|e l IH]; intros H; [exists []; split; [reflexivity|constructor]|].
  destruct (H e (or_introl eq_refl)) as (b & E & S). destruct IH as (bs & Es & Ss); [intros x I; apply H; now right|].
  exists (b :: bs). cbn [map each]. rewrite E. cbn [xbind]. rewrite Es. split; [reflexivity|now constructor].
Qed.

(** One child or many. *)
Lemma as_list_kids tag c : plain_tag tag -> kids tag c <> [] ->
  exists x, at_key tag (parse c) = Got x /\ as_list x = map parse (kids tag c).
Proof.
  intros P N. destruct (kids tag c) as [|a [|b l]] eqn:E; [congruence| |].
  - exists (parse a). split; [apply at_one; assumption|]. pose proof (parse_not_list a) as L. cbn [map]. destruct (parse a); cbn in *; try contradiction; reflexivity.
  - eexists. split; [apply (at_many tag c (a :: b :: l) P E); cbn; lia|]. reflexivity.
Qed.

(** ** Equations *)

Lemma equations_read rd n l : (forall e, In e l -> attr n e <> None
       /\ (kids "RHSTermCollection" e = [] \/ exists m, equation_terms e m /\ forall t, In t m -> term_readable rd t)) ->
  exists ps, (forall d, equations rd (String "@" n) d (map parse l) = Got (put ps d))
    /\ picks (fun e => kids "RHSTermCollection" e <> []) (fun e p => equation_of rd n (fst p) e (snd p)) l ps.
Proof.
  induction l as [|e l IH]; intros H.
  - exists []. split; [reflexivity|constructor].
  - destruct IH as (ps & Es & S); [intros x I; apply H; now right|].
    destruct (H e (or_introl eq_refl)) as (A & K). destruct (attr n e) as [id|] eqn:EA; [|congruence].
    assert (HK : has_key "RHSTermCollection" (parse e) = Got (match kids "RHSTermCollection" e with [] => false | _ => true end)).
    { destruct (el_kids e) as [|k ks] eqn:EK.
      - rewrite (no_kids _ _ EK). pose proof (attr_attrs _ _ _ EA). destruct e as [t a k]. cbn in *. subst. destruct a; [congruence|]. reflexivity.
      - apply has_tag; [plain|congruence]. }
    destruct K as [K|(m & (c & K & M & N) & T)].
    + exists ps. split; [|apply picks_skip; [rewrite K; intros Z; now apply Z|exact S]].
      intros d. cbn [map equations]. rewrite HK, K. cbn [xbind]. apply Es.
    + destruct (as_list_kids "RHSTerm" c ltac:(plain)) as (x & Ex & Lx); [now rewrite M|]. rewrite M in Lx.
      destruct (each_parse (read_term rd) (term_of rd) m) as (ts & Et & St); [intros y I; apply term_read, T, I|].
      exists ((id, ts) :: ps). split.
      * intros d. cbn [map equations]. rewrite HK, K. cbn [xbind down].
        rewrite (at_one "RHSTermCollection" e c ltac:(plain) K). cbn [xbind]. rewrite Ex. cbn [xbind]. rewrite Lx, Et. cbn [xbind].
        rewrite (text_attr n e id EA). cbn [xbind]. rewrite Es. reflexivity.
      * apply picks_some; [rewrite K; discriminate| |exact S]. split; [exact EA|]. exists m. split; [exists c; auto|exact St].
Qed.

(** ** SCADA data *)

Lemma number_same rd n e p q : number rd n e p -> number rd n e q -> p = q.
Proof. intros (s & A & B) (t & C & D). congruence. Qed.
Lemma numbers_same rd n l ps : Forall2 (number rd n) l ps -> forall qs, Forall2 (number rd n) l qs -> ps = qs.
Proof.
  induction 1 as [|e p l ps H _ IH]; intros qs F; inversion F as [|? q ? qs' H' F']; subst; [reflexivity|].
  f_equal; [exact (number_same _ _ _ _ _ H H')|apply IH, F'].
Qed.
Lemma measurements_same s l m : measurements s l -> measurements s m -> l = m.
Proof.
  intros (c & A & _ & B) (d & C & _ & D). rewrite A in C. injection C as <-.
  destruct B as [[B1 ->]|(b & B1 & _ & ->)], D as [[D1 ->]|(b' & D1 & _ & ->)]; congruence.
Qed.

Definition kept (d : dict (list Q)) (id : string) : list Q := match dget id d with Some l => l | None => [] end.
Definition entries_in (rd : reader) (l : list elem) (d d' : dict (list Q)) : Prop :=
  forall id, exists qs, Forall2 (number rd "Value") (filter (with_id id) l) qs
    /\ dget id d' = match filter (with_id id) l with [] => dget id d | _ => Some (kept d id ++ qs) end.

Lemma entries_read rd l : (forall e, In e l -> attr "SpdID" e <> None /\ exists q, number rd "Value" e q) ->
  forall d, exists d', add_entries rd d (map parse l) = Got d' /\ entries_in rd l d d'.
Proof.
  induction l as [|e l IH]; intros H d.
  - exists d. split; [reflexivity|]. intros id. exists []. split; [constructor|reflexivity].
  - destruct (H e (or_introl eq_refl)) as (A & q & Q). destruct (attr "SpdID" e) as [i|] eqn:E; [|congruence].
    destruct (IH (fun x I => H x (or_intror I)) (dset i (kept d i ++ [q]) d)) as (d' & G & S).
    exists d'. split.
    + cbn [map add_entries]. unfold add_entry. change "@SpdID" with (String "@" "SpdID"). rewrite (text_attr _ e i E). cbn [xbind].
      change "@Value" with (String "@" "Value"). rewrite (float_attr rd _ e q Q). cbn [xbind].
      replace (match dget i d with Some l0 => l0 ++ [q] | None => [q] end) with (kept d i ++ [q]) by (unfold kept; destruct (dget i d); reflexivity).
      exact G.
    + intros id. destruct (S id) as (qs & F & Ed). cbn [filter].
      assert (W : with_id id e = String.eqb i id) by (unfold with_id; rewrite E; reflexivity). rewrite W.
      destruct (String.eqb_spec i id) as [->|D].
      * exists (q :: qs). split; [constructor; assumption|]. rewrite Ed.
        destruct (filter (with_id id) l) eqn:Ef; [inversion F; apply dget_dset_same|].
        unfold kept at 1. rewrite dget_dset_same, <- app_assoc. reflexivity.
      * exists qs. split; [exact F|]. rewrite Ed. unfold kept. rewrite dget_dset_other by congruence. reflexivity.
Qed.
Lemma entries_join rd l m d d' d'' : entries_in rd l d d' -> entries_in rd m d' d'' -> entries_in rd (l ++ m) d d''.
Proof.
  intros S T id. destruct (S id) as (ps & F & E). destruct (T id) as (qs & G & K). exists (ps ++ qs).
  rewrite filter_app. split; [apply Forall2_app; assumption|]. rewrite K. unfold kept in *.
  destruct (filter (with_id id) l) as [|x l'] eqn:El.
  - inversion F; subst. cbn [app]. destruct (filter (with_id id) m); rewrite E; reflexivity.
  - cbn [app]. rewrite E. destruct (filter (with_id id) m); [inversion G; subst; now rewrite app_nil_r|]. now rewrite app_assoc.
Qed.

Lemma scada_read rd l : (forall s, In s l -> attr "SpdType" s <> None
        /\ exists m, measurements s m /\ forall e, In e m -> attr "SpdID" e <> None /\ exists q, number rd "Value" e q) ->
  exists ps, (forall d, scada_data rd d (map parse l) = Got (put ps d))
    /\ Forall2 (fun s p => attr "SpdType" s = Some (fst p) /\ exists m, measurements s m /\ entries_in rd m [] (snd p)) l ps.
Proof.
  induction l as [|s l IH]; intros H.
  - exists []. split; [reflexivity|constructor].
  - destruct IH as (ps & Es & S); [intros x I; apply H; now right|].
    destruct (H s (or_introl eq_refl)) as (A & m & M & R). destruct (attr "SpdType" s) as [ty|] eqn:EA; [|congruence].
    pose proof M as (c & K & N & B).
    assert (HK : has_key "BadScadaValuesCollection" (parse s) = Got (match kids "BadScadaValuesCollection" s with [] => false | _ => true end)).
    { apply has_tag; [plain|]. intros Z. rewrite (no_kids _ _ Z) in K. discriminate. }
    destruct (as_list_kids "ScadaValues" c ltac:(plain) N) as (x & Ex & Lx).
    assert (R1 : forall e, In e (kids "ScadaValues" c) -> attr "SpdID" e <> None /\ exists q, number rd "Value" e q).
    { intros e I. apply R. destruct B as [[_ ->]|(b & _ & _ & ->)]; [exact I|apply in_or_app; now left]. }
    destruct (entries_read rd (kids "ScadaValues" c) R1 []) as (d1 & G1 & S1).
    assert (Go : exists d2, entries_in rd m [] d2 /\ forall d, scada_data rd d (map parse (s :: l)) = scada_data rd (dset ty d2 d) (map parse l)).
    { destruct B as [[B ->]|(b & B & Nb & ->)].
      - exists d1. split; [exact S1|]. intros d. cbn [map scada_data].
        change "@SpdType" with (String "@" "SpdType"). rewrite (text_attr _ s ty EA). cbn [xbind down].
        rewrite (at_one "ScadaValuesCollection" s c ltac:(plain) K). cbn [xbind]. rewrite Ex. cbn [xbind]. rewrite Lx, G1. cbn [xbind].
        rewrite HK, B. reflexivity.
      - destruct (as_list_kids "ScadaValues" b ltac:(plain) Nb) as (y & Ey & Ly).
        destruct (entries_read rd (kids "ScadaValues" b) (fun e I => R e (in_or_app _ _ _ (or_intror I))) d1) as (d2 & G2 & S2).
        exists d2. split; [exact (entries_join _ _ _ _ _ _ S1 S2)|]. intros d. cbn [map scada_data].
        change "@SpdType" with (String "@" "SpdType"). rewrite (text_attr _ s ty EA). cbn [xbind down].
        rewrite (at_one "ScadaValuesCollection" s c ltac:(plain) K). cbn [xbind]. rewrite Ex. cbn [xbind]. rewrite Lx, G1. cbn [xbind].
        rewrite HK, B. cbn [xbind]. rewrite (at_one "BadScadaValuesCollection" s b ltac:(plain) B). cbn [xbind]. rewrite Ey. cbn [xbind].
        rewrite Ly, G2. reflexivity. }
    destruct Go as (d2 & T & Go). exists ((ty, d2) :: ps). split.
    + intros d. rewrite Go, Es. reflexivity.
    + constructor; [|exact S]. split; [exact EA|]. exists m. split; assumption.
Qed.

(** ** The other inputs *)

Lemma mw_read mw rd l rows : Forall2 (initial_of rd mw) l rows -> (forall t, In t l -> exists m q, conditions t m /\ initially rd mw m (Some q)) ->
  exists ps, (forall d, initial_mw d rows = Got (put ps d))
    /\ Forall2 (fun t p => attr "TraderID" t = Some (fst p) /\ exists m, conditions t m /\ initially rd mw m (Some (snd p))) l ps.
Proof.
  assert (Same : forall t m m', conditions t m -> conditions t m' -> m = m').
  { intros t m m' (c & O & K & _) (d & O' & K' & _). pose proof (only_same _ _ _ _ O O'). subst. congruence. }
  assert (One : forall n m v q, initially rd n m v -> initially rd n m (Some q) -> v = Some q).
  { intros n m v q I J. destruct J as [[Z _]|(b & c & a & q' & E & N & Q & Z & F)]; [discriminate|]. injection Z as <-.
    destruct I as [[-> G]|(b' & c' & a' & q'' & E' & N' & Q' & -> & F')].
    - exfalso. apply (G c); [rewrite E; apply in_or_app; right; now left|exact N].
    - f_equal. rewrite E in E'. clear E. revert b' E' F'. induction b as [|x b IHb]; intros [|x' b'] E' F'.
      + injection E' as <- <-. exact (number_same _ _ _ _ _ Q' Q).
      + injection E' as <- _. exfalso. exact (F' c (or_introl eq_refl) N).
      + injection E' as -> _. exfalso. exact (F c' (or_introl eq_refl) N').
      + injection E' as <- E'. apply (IHb (fun d I => F d (or_intror I)) b' E'). intros d I. apply F'. now right. }
  induction 1 as [|t r l rows R _ IH]; intros H.
  - exists []. split; [reflexivity|constructor].
  - destruct IH as (ps & Es & S); [intros x I; apply H; now right|].
    destruct (H t (or_introl eq_refl)) as (m & q & C & I). destruct R as (D & _ & m' & C' & I' & _).
    rewrite (Same _ _ _ C' C) in I'. pose proof (One _ _ _ _ I' I) as E.
    exists ((OffersModel.ic_duid r, q) :: ps). split.
    + intros d. cbn [initial_mw]. rewrite E, Es. reflexivity.
    + constructor; [|exact S]. split; [exact D|]. exists m. split; assumption.
Qed.

Lemma entered_read rd l : (forall e, In e l -> attr "SpdID" e <> None /\ exists q, number rd "Value" e q) ->
  exists ps, (forall d, entered_values rd d (map parse l) = Got (put ps d))
    /\ Forall2 (fun e p => attr "SpdID" e = Some (fst p) /\ number rd "Value" e (snd p)) l ps.
Proof.
  induction l as [|e l IH]; intros H.
  - exists []. split; [reflexivity|constructor].
  - destruct IH as (ps & Es & S); [intros x I; apply H; now right|].
    destruct (H e (or_introl eq_refl)) as (A & q & Q). destruct (attr "SpdID" e) as [i|] eqn:E; [|congruence].
    exists ((i, q) :: ps). split; [|constructor; [split; assumption|exact S]].
    intros d. cbn [map entered_values]. change "@SpdID" with (String "@" "SpdID"). rewrite (text_attr _ e i E). cbn [xbind].
    change "@Value" with (String "@" "Value"). rewrite (float_attr rd _ e q Q). cbn [xbind]. apply Es.
Qed.

(** ** Market interconnectors *)

Definition in_region (g : string) (o : elem) : bool := match attr "RegionID" o with Some s => String.eqb s g | None => false end.
Lemma offers_read rd i id f t l : named "InterconnectorID" id i -> named "FromRegion" f i -> named "ToRegion" t i -> f <> t ->
  (forall o, In o l -> (named "RegionID" f o \/ named "RegionID" t o) /\ exists q, number rd "MaxAvail" o q) ->
  exists qf qt, Forall2 (number rd "MaxAvail") (filter (in_region f) l) qf /\ Forall2 (number rd "MaxAvail") (filter (in_region t) l) qt
    /\ forall d, offers_of rd (parse i) d (map parse l) = Got (put (map (pair id) qf) (fst d), put (map (pair id) qt) (snd d)).
Proof.
  intros I F T D. induction l as [|o l IH]; intros H.
  - exists [], []. repeat split; try constructor. intros [a b]. reflexivity.
  - destruct IH as (qf & qt & Sf & St & E); [intros x X; apply H; now right|].
    destruct (H o (or_introl eq_refl)) as (R & q & Q).
    assert (Df : String.eqb f t = false) by (apply String.eqb_neq; exact D). assert (Dt : String.eqb t f = false) by (apply String.eqb_neq; congruence).
    destruct R as [R|R]; unfold named in R, I, F, T.
    + exists (q :: qf), qt. cbn [filter].
      assert (W : in_region f o = true /\ in_region t o = false) by (unfold in_region; rewrite R, String.eqb_refl, Df; split; reflexivity).
      rewrite (proj1 W), (proj2 W).
      split; [constructor; assumption|]. split; [exact St|]. intros d. cbn [map offers_of].
      change "@RegionID" with (String "@" "RegionID"). rewrite (text_attr _ o f R). cbn [xbind].
      change "@FromRegion" with (String "@" "FromRegion"). rewrite (text_attr _ i f F). cbn [xbind]. rewrite String.eqb_refl.
      change "@MaxAvail" with (String "@" "MaxAvail"). rewrite (float_attr rd _ o q Q). cbn [xbind].
      change "@InterconnectorID" with (String "@" "InterconnectorID"). rewrite (text_attr _ i id I). cbn [xbind]. rewrite E. reflexivity.
    + exists qf, (q :: qt). cbn [filter].
      assert (W : in_region f o = false /\ in_region t o = true) by (unfold in_region; rewrite R, String.eqb_refl, Dt; split; reflexivity).
      rewrite (proj1 W), (proj2 W).
      split; [exact Sf|]. split; [constructor; assumption|]. intros d. cbn [map offers_of].
      change "@RegionID" with (String "@" "RegionID"). rewrite (text_attr _ o t R). cbn [xbind].
      change "@FromRegion" with (String "@" "FromRegion"). rewrite (text_attr _ i f F). cbn [xbind]. rewrite Dt.
      change "@ToRegion" with (String "@" "ToRegion"). rewrite (text_attr _ i t T). cbn [xbind]. rewrite String.eqb_refl.
      change "@MaxAvail" with (String "@" "MaxAvail"). rewrite (float_attr rd _ o q Q). cbn [xbind].
      change "@InterconnectorID" with (String "@" "InterconnectorID"). rewrite (text_attr _ i id I). cbn [xbind]. rewrite E. reflexivity.
Qed.

Lemma one_region g l : NoDup (map (attr "RegionID") l) -> (length (filter (in_region g) l) <= 1)%nat.
Proof.
  induction l as [|o l IH]; intros N; [cbn; lia|]. cbn in N. inversion N as [|? ? N1 N2]; subst. cbn [filter].
  destruct (in_region g o) eqn:E; [|apply IH, N2]. cbn [length]. destruct (filter (in_region g) l) as [|x r] eqn:F; [cbn; lia|].
  exfalso. apply N1. assert (X : In x (filter (in_region g) l)) by (rewrite F; now left). apply filter_In in X. destruct X as [X Y].
  unfold in_region in E, Y. destruct (attr "RegionID" o) as [a|] eqn:Ea; [|discriminate]. destruct (attr "RegionID" x) as [b|] eqn:Eb; [|discriminate].
  apply String.eqb_eq in E, Y. subst. rewrite <- Eb. apply in_map, X.
Qed.
Lemma link_offers_same i l m : link_offers i l -> link_offers i m -> l = m.
Proof. intros (c & O & K & _) (d & O' & K' & _). pose proof (only_same _ _ _ _ O O'). subst. congruence. Qed.

(** The offers of one end of an interconnector. *)
Lemma end_offers rd end_ i id g l qs : market_link i -> named "InterconnectorID" id i -> named end_ g i -> link_offers i l ->
  Forall2 (number rd "MaxAvail") (filter (in_region g) l) qs ->
  forall id' q, In (id', q) (map (pair id) qs) <-> offer_to rd end_ id' i q.
Proof.
  intros Mk I E L F id' q. split.
  - intros H. apply in_map_iff in H. destruct H as (q' & Z & H). injection Z as <- ->.
    destruct (forall2_in_r _ _ _ F q H) as (o & O & N). apply filter_In in O. destruct O as [O R].
    split; [exact Mk|]. split; [exact I|]. exists l, o. split; [exact L|]. split; [exact O|]. split; [|exact N].
    unfold in_region in R. destruct (attr "RegionID" o) as [s|]; [|discriminate]. apply String.eqb_eq in R. subst. exact E.
  - intros (_ & I' & l' & o & L' & O & A & N). rewrite (link_offers_same _ _ _ L' L) in O.
    unfold named in *. rewrite I in I'. injection I' as <-. rewrite E in A.
    assert (X : In o (filter (in_region g) l)) by (apply filter_In; split; [exact O|]; unfold in_region; rewrite <- A; apply String.eqb_refl).
    destruct (forall2_in_l _ _ _ F o X) as (q' & Y & Z). rewrite (number_same _ _ _ _ _ N Z). apply in_map, Y.
Qed.
Lemma pair_nodup {A} (id : string) (qs : list A) : (length qs <= 1)%nat -> NoDup (map fst (map (pair id) qs)).
Proof. intros L. destruct qs as [|a [|b r]]; cbn in *; [constructor|constructor; [intros []|constructor]|lia]. Qed.
Lemma forall2_len {A B} (R : A -> B -> Prop) l m : Forall2 R l m -> length l = length m.
Proof. induction 1; cbn; congruence. Qed.

Lemma put_app {A} (l m : list (string * A)) d : put (l ++ m) d = put m (put l d).
Proof. unfold put. apply fold_left_app. Qed.

Definition ends (rd : reader) (end_ : string) (l : list elem) (ps : list (string * Q)) : Prop :=
  NoDup (map fst ps) /\ (forall id q, In (id, q) ps <-> exists i, In i l /\ offer_to rd end_ id i q).
Lemma ends_skip rd end_ i l ps : ~ market_link i -> ends rd end_ l ps -> ends rd end_ (i :: l) ps.
Proof.
  intros N [A B]. split; [exact A|]. intros id q. rewrite B. split.
  - intros (x & I & O). exists x. split; [now right|exact O].
  - intros (x & [<-|I] & O); [destruct (N (proj1 O))|]. exists x. split; assumption.
Qed.
Lemma ends_cons rd end_ i l id qs ps : attr "InterconnectorID" i = Some id -> NoDup (map (attr "InterconnectorID") (i :: l)) ->
  (length qs <= 1)%nat -> (forall id' q, In (id', q) (map (pair id) qs) <-> offer_to rd end_ id' i q) ->
  ends rd end_ l ps -> ends rd end_ (i :: l) (map (pair id) qs ++ ps).
Proof.
  intros I N L H [A B]. cbn in N. inversion N as [|? ? N1 N2]; subst. split.
  - rewrite map_app. assert (X : ~ In id (map fst ps)).
    { intros X. apply in_map_iff in X. destruct X as ([k q] & E & X). cbn in E. subst k. apply B in X. destruct X as (j & J & _ & Id & _).
      apply N1. rewrite I, <- Id. apply in_map, J. }
    destruct qs as [|a [|b r]]; cbn in *; [exact A|constructor; assumption|lia].
  - intros k q. rewrite in_app_iff, H, B. split.
    + intros [O|(x & X & O)]; [exists i; split; [now left|exact O]|exists x; split; [now right|exact O]].
    + intros (x & [<-|X] & O); [now left|right; exists x; split; assumption].
Qed.

Lemma links_read rd l : NoDup (map (attr "InterconnectorID") l) -> (forall i, In i l -> offers_readable rd i) ->
  exists pf pt, (forall d, mnsp_availability rd d (map parse l) = Got (put pf (fst d), put pt (snd d)))
    /\ ends rd "FromRegion" l pf /\ ends rd "ToRegion" l pt.
Proof.
  induction l as [|i l IH]; intros N H.
  - exists [], []. split; [intros [a b]; reflexivity|].
    split; (split; [constructor|]; intros id q; split; [intros []|intros (x & [] & _)]).
  - destruct IH as (pf & pt & E & Sf & St); [inversion N; assumption|intros x I; apply H; now right|].
    destruct (H i (or_introl eq_refl)) as (A & M). destruct (attr "MNSP" i) as [m|] eqn:Em; [|congruence].
    destruct (String.eqb_spec "1" m) as [<-|D].
    + destruct (M Em) as (B & f & t & os & F & T & Dft & L & Nr & R). destruct (attr "InterconnectorID" i) as [id|] eqn:Ei; [|congruence].
      destruct (offers_read rd i id f t os Ei F T Dft R) as (qf & qt & Qf & Qt & Eo).
      exists (map (pair id) qf ++ pf), (map (pair id) qt ++ pt). split; [|split].
      * intros d. cbn [map mnsp_availability]. change "@MNSP" with (String "@" "MNSP"). rewrite (at_attr _ i "1" Em). cbn [xbind is_text String.eqb].
        pose proof L as (c & O & K & Le). change ["MNSPOfferCollection"; "MNSPOffer"] with (["MNSPOfferCollection"] ++ ["MNSPOffer"]).
        change (("1" =? "1")%string) with true. cbv iota.
        rewrite down_app, (down_only ["MNSPOfferCollection"] ltac:(plain) i c O). cbn [xbind down].
        rewrite (at_many "MNSPOffer" c os ltac:(plain) K Le). cbn [xbind iter]. rewrite Eo. cbn [xbind]. rewrite E. cbn [fst snd].
        rewrite !put_app. reflexivity.
      * apply ends_cons; try assumption; [rewrite <- (forall2_len _ _ _ Qf); apply one_region, Nr|].
        exact (end_offers rd "FromRegion" i id f os qf Em Ei F L Qf).
      * apply ends_cons; try assumption; [rewrite <- (forall2_len _ _ _ Qt); apply one_region, Nr|].
        exact (end_offers rd "ToRegion" i id t os qt Em Ei T L Qt).
    + assert (Nm : ~ market_link i) by (unfold market_link, named; rewrite Em; congruence).
      exists pf, pt. split; [|split; apply ends_skip; assumption].
      intros d. cbn [map mnsp_availability]. change "@MNSP" with (String "@" "MNSP"). rewrite (at_attr _ i m Em). cbn [xbind is_text].
      apply String.eqb_neq in D. rewrite D. apply E.
Qed.

(** ** The stated right hand sides *)

Lemma stated_read rd l : (forall e, In e l -> attr "ConstraintID" e <> None /\ attr "Intervention" e <> None /\ exists q, number rd "RHS" e q) ->
  exists rows, rhs_rows rd (map parse l) = Got rows
    /\ Forall2 (fun e r => attr "ConstraintID" e = Some (fst r) /\ number rd "RHS" e (snd r))
         (filter (fun e => match attr "Intervention" e with Some s => String.eqb s "0" | None => false end) l) rows.
Proof.
  induction l as [|e l IH]; intros H.
  - exists []. split; [reflexivity|constructor].
  - destruct IH as (rows & Es & S); [intros x I; apply H; now right|].
    destruct (H e (or_introl eq_refl)) as (A & B & q & Q). destruct (attr "ConstraintID" e) as [id|] eqn:Ea; [|congruence].
    destruct (attr "Intervention" e) as [s|] eqn:Eb; [|congruence]. cbn [map rhs_rows filter]. rewrite Eb.
    change "@Intervention" with (String "@" "Intervention"). rewrite (at_attr _ e s Eb). cbn [xbind is_text]. rewrite String.eqb_sym.
    destruct (String.eqb s "0").
    + exists ((id, q) :: rows). change "@ConstraintID" with (String "@" "ConstraintID"). rewrite (text_attr _ e id Ea). cbn [xbind].
      change "@RHS" with (String "@" "RHS"). rewrite (float_attr rd _ e q Q). cbn [xbind]. rewrite Es. split; [reflexivity|].
      constructor; [split; assumption|exact S].
    + exists rows. split; [exact Es|exact S].
Qed.

(** ** The calculator *)

Lemma items_read path tag root l c : Forall plain_tag path -> plain_tag tag -> case_root root -> only ["NemSpdInputs"] root c ->
  collection ("NemSpdInputs" :: path) tag root l -> items_at (path ++ [tag]) (parse c) = Got (map parse l).
Proof.
  intros P T R O (_ & d & (c' & K & O') & Kd & L). destruct O as (c2 & K2 & E). cbn in E. subst c2.
  rewrite K in K2. injection K2 as ->. unfold items_at. rewrite down_app, (down_only path P c d O'). cbn [xbind down].
  rewrite (at_many tag d l T Kd L). reflexivity.
Qed.

Lemma picks_in_r {A B} (P : A -> Prop) (R : A -> B -> Prop) l m : picks P R l m -> forall b, In b m -> exists a, In a l /\ R a b.
Proof.
  induction 1 as [|a b l m p r H IH|a l m p H IH]; intros c I; [destruct I| |].
  - destruct I as [<-|I]; [exists a; split; [now left|exact r]|]. destruct (IH c I) as (x & X & Y). exists x. split; [now right|exact Y].
  - destruct (IH c I) as (x & X & Y). exists x. split; [now right|exact Y].
Qed.
Lemma picks_in_l {A B} (P : A -> Prop) (R : A -> B -> Prop) l m : picks P R l m -> forall a, In a l -> P a -> exists b, In b m /\ R a b.
Proof.
  induction 1 as [|a b l m p r H IH|a l m p H IH]; intros c I Pc; [destruct I| |].
  - destruct I as [<-|I]; [exists b; split; [now left|exact r]|]. destruct (IH c I Pc) as (x & X & Y). exists x. split; [now right|exact Y].
  - destruct I as [<-|I]; [contradiction|]. exact (IH c I Pc).
Qed.
Lemma picks_nodup {B} n (P : elem -> Prop) (l : list elem) (m : list (string * B)) : NoDup (map (attr n) l) ->
  picks P (fun e b => attr n e = Some (fst b)) l m -> NoDup (map fst m).
Proof.
  intros N F. induction F as [|a b l m p H F IH|a l m p F IH]; [constructor| |]; cbn in *; inversion N as [|? ? N1 N2]; subst; [|apply IH, N2].
  constructor; [|apply IH, N2].
  intros I. apply in_map_iff in I. destruct I as (c & E & C). destruct (picks_in_r _ _ _ _ F c C) as (x & X & Y).
  apply N1. rewrite H. rewrite <- E, <- Y. apply in_map, X.
Qed.
Lemma picks_weaken {A B} (P : A -> Prop) (R S : A -> B -> Prop) l m : (forall a b, R a b -> S a b) -> picks P R l m -> picks P S l m.
Proof. intros H F. induction F; [apply picks_nil|apply picks_some; auto|apply picks_skip; auto]. Qed.
Lemma forall2_weaken {A B} (R S : A -> B -> Prop) l m : (forall a b, R a b -> S a b) -> Forall2 R l m -> Forall2 S l m.
Proof. intros H F. induction F; constructor; auto. Qed.

Lemma terms_same rd l ts : Forall2 (term_of rd) l ts -> forall us, Forall2 (term_of rd) l us -> ts = us.
Proof.
  assert (M : forall n e o o', maybe rd n e o -> maybe rd n e o' -> o = o').
  { intros n e [q|] [q'|]; cbn; intros A B; try reflexivity.
    - f_equal. exact (number_same _ _ _ _ _ A B).
    - destruct A as (s & A & _). congruence.
    - destruct B as (s & B & _). congruence. }
  induction 1 as [|e t l ts H _ IH]; intros us F; inversion F as [|? u ? us' H' F']; subst; [reflexivity|].
  f_equal; [|apply IH, F']. destruct t as [a1 b1 c1 d1 e1 f1 g1], u as [a2 b2 c2 d2 e2 f2 g2].
  destruct H as (A & B & C & D & V & W & X), H' as (A' & B' & C' & D' & V' & W' & X'). cbn in *. unfold named in *.
  rewrite (number_same _ _ _ _ _ D D'), (M _ _ _ _ V V'), (M _ _ _ _ W W'). congruence.
Qed.

Record read_as (rd : reader) (p : parts) (st : store) (d : dict Q) : Prop := {
  ra_scada : exists ps, s_scada st = put ps [] /\ Forall2 (fun s x => attr "SpdType" s = Some (fst x) /\ exists m, measurements s m /\ entries_in rd m [] (snd x)) (pa_scada p) ps;
  ra_generic : exists ps, s_generic st = put ps [] /\ picks (fun e => kids "RHSTermCollection" e <> []) (fun e x => equation_of rd "EquationID" (fst x) e (snd x)) (pa_generic p) ps;
  ra_rhs : exists ps, s_rhs st = put ps [] /\ picks (fun e => kids "RHSTermCollection" e <> []) (fun e x => equation_of rd "ConstraintID" (fst x) e (snd x)) (pa_rhs p) ps;
  ra_mw : exists ps, s_mw st = put ps [] /\ Forall2 (fun t x => attr "TraderID" t = Some (fst x) /\ exists m, conditions t m /\ initially rd (pa_mw p) m (Some (snd x))) (pa_units p) ps;
  ra_entered : exists ps, s_entered st = put ps [] /\ Forall2 (fun e x => attr "SpdID" e = Some (fst x) /\ number rd "Value" e (snd x)) (pa_entered p) ps;
  ra_from : exists ps, s_from st = put ps [] /\ ends rd "FromRegion" (pa_links p) ps;
  ra_to : exists ps, s_to st = put ps [] /\ ends rd "ToRegion" (pa_links p) ps;
  ra_stated : exists ps, d = put ps [] /\ Forall2 (fun e r => attr "ConstraintID" e = Some (fst r) /\ number rd "RHS" e (snd r))
     (filter (fun e => match attr "Intervention" e with Some s => String.eqb s "0" | None => false end) (pa_solutions p)) ps }.

Lemma calc_read rd root p : consists_of root p -> inputs_readable rd p ->
  exists st d, rhs_calc rd (document root) = Got (st, d) /\ read_as rd p st d.
Proof.
  intros (C1 & C2 & C3 & C4 & C5 & C6 & C7 & C8) ((_ & R1) & (_ & R2) & (_ & R3) & (_ & R4) & (_ & R5) & (N6 & R6) & (_ & R7)).
  pose proof C1 as (R & c1 & (c & Kc & _) & _).
  assert (O : only ["NemSpdInputs"] root c) by (exists c; split; [exact Kc|reflexivity]).
  destruct (scada_read rd _ R1) as (p1 & E1 & S1).
  destruct (equations_read rd "EquationID" _ R2) as (p2 & E2 & S2).
  destruct (equations_read rd "ConstraintID" _ R3) as (p3 & E3 & S3).
  assert (I : exists rows, initial_conditions rd (document root) = Got rows /\ Forall2 (initial_of rd (pa_mw p)) (pa_units p) rows).
  { destruct C8 as [[C8 M]|[C8 M]].
    - exact (initial_read rd root _ false _ C4 (plain_read _ C8) M (fun t I => proj1 (R4 t I))).
    - exact (initial_read rd root _ true _ C4 (intervention_read _ C8) M (fun t I => proj1 (R4 t I))). }
  destruct I as (rows & Er & Sr).
  destruct (mw_read (pa_mw p) rd _ rows Sr (fun t I => proj2 (R4 t I))) as (p4 & E4 & S4).
  destruct (entered_read rd _ R5) as (p5 & E5 & S5).
  destruct (links_read rd _ N6 R6) as (pf & pt & E6 & Sf & St).
  destruct (stated_read rd _ R7) as (p7 & E7 & S7).
  eexists _, _. split.
  - unfold rhs_calc. cbn [down]. rewrite (document_root root R). cbn [xbind].
    rewrite (at_one "NemSpdInputs" root c ltac:(plain) Kc). cbn [xbind].
    rewrite (items_read ["ConstraintScadaDataCollection"] "ConstraintScadaData" root _ c ltac:(plain) ltac:(plain) R O C1 : items_at ["ConstraintScadaDataCollection"; "ConstraintScadaData"] _ = _).
    cbn [xbind]. rewrite E1. cbn [xbind].
    rewrite (items_read ["GenericEquationCollection"] "GenericEquation" root _ c ltac:(plain) ltac:(plain) R O C2 : items_at ["GenericEquationCollection"; "GenericEquation"] _ = _).
    cbn [xbind]. change "@EquationID" with (String "@" "EquationID"). rewrite E2. cbn [xbind].
    rewrite (items_read ["GenericConstraintCollection"] "GenericConstraint" root _ c ltac:(plain) ltac:(plain) R O C3 : items_at ["GenericConstraintCollection"; "GenericConstraint"] _ = _).
    cbn [xbind]. change "@ConstraintID" with (String "@" "ConstraintID"). rewrite E3. cbn [xbind]. rewrite Er. cbn [xbind]. rewrite E4. cbn [xbind].
    rewrite (items_read ["PeriodCollection"; "Period"; "EnteredValuePeriodCollection"] "EnteredValuePeriod" root _ c ltac:(plain) ltac:(plain) R O C5
             : items_at ["PeriodCollection"; "Period"; "EnteredValuePeriodCollection"; "EnteredValuePeriod"] _ = _).
    cbn [xbind]. rewrite E5. cbn [xbind].
    rewrite (items_read ["PeriodCollection"; "Period"; "InterconnectorPeriodCollection"] "InterconnectorPeriod" root _ c ltac:(plain) ltac:(plain) R O C6
             : items_at ["PeriodCollection"; "Period"; "InterconnectorPeriodCollection"; "InterconnectorPeriod"] _ = _).
    cbn [xbind]. rewrite E6. cbn [xbind fst snd].
    destruct C7 as (_ & o & Oo & Ko & Lo). unfold read_rhs. rewrite (outputs_read root o R Oo). cbn [xbind].
    rewrite (at_many "ConstraintSolution" o _ ltac:(plain) Ko Lo). cbn [xbind iter]. rewrite E7. reflexivity.
  - constructor; cbn [s_scada s_generic s_rhs s_mw s_entered s_from s_to]; eexists; (split; [reflexivity|]); eassumption.
Qed.

Lemma calc_same rd root p st d : consists_of root p -> inputs_readable rd p -> rhs_calc rd (document root) = Got (st, d) -> read_as rd p st d.
Proof. intros C R E. destruct (calc_read rd root p C R) as (st' & d' & E' & S). rewrite E in E'. injection E' as <- <-. exact S. Qed.

Lemma only_conditions t l m : conditions t l -> conditions t m -> l = m.
Proof. intros (c & O & K & _) (d & O' & K' & _). pose proof (only_same _ _ _ _ O O'). subst. congruence. Qed.

Lemma input_values rd root p st d : consists_of root p -> inputs_readable rd p -> rhs_calc rd (document root) = Got (st, d) ->
  forall ty id q, has_value st ty id q <-> says rd p ty id q.
Proof.
  intros C R E. destruct (calc_same rd root p st d C R E) as [(p1 & E1 & S1) _ _ (p4 & E4 & S4) (p5 & E5 & S5) (pf & Ef & Nf & Sf) (pt & Et & Nt & St) _].
  destruct R as ((N1 & R1) & _ & _ & (N4 & R4) & (N5 & R5) & _).
  assert (D1 : NoDup (map fst p1)) by (apply (nodup_attr "SpdType" (pa_scada p)); [exact N1|]; revert S1; apply forall2_weaken; intros a b [H _]; exact H).
  assert (D4 : NoDup (map fst p4)) by (apply (nodup_attr "TraderID" (pa_units p)); [exact N4|]; revert S4; apply forall2_weaken; intros a b [H _]; exact H).
  assert (D5 : NoDup (map fst p5)) by (apply (nodup_attr "SpdID" (pa_entered p)); [exact N5|]; revert S5; apply forall2_weaken; intros a b [H _]; exact H).
  intros ty id q. unfold has_value, says. rewrite E1, E4, E5, Ef, Et.
  assert (A1 : (exists x l, dget ty (put p1 []) = Some x /\ dget id x = Some l /\ q == qsum l)
    <-> exists s l qs, In s (pa_scada p) /\ named "SpdType" ty s /\ measurements s l /\ filter (with_id id) l <> []
                     /\ Forall2 (number rd "Value") (filter (with_id id) l) qs /\ q == qsum qs).
  { split.
    - intros (x & l & G & Gi & Q). apply (put_some ty x p1 D1) in G. destruct (forall2_in_r _ _ _ S1 _ G) as (s & I & A & m & M & T). cbn in A, T.
      destruct (T id) as (qs & F & Ed). exists s, m, qs. split; [exact I|]. split; [exact A|]. split; [exact M|].
      destruct (filter (with_id id) m) as [|y r] eqn:Em; [cbn in Ed; congruence|]. split; [discriminate|]. split; [exact F|].
      cbn in Ed. rewrite Gi in Ed. injection Ed as ->. exact Q.
    - intros (s & l & qs & I & A & M & Ne & F & Q). destruct (forall2_in_l _ _ _ S1 _ I) as ([k x] & Ix & A' & m & M' & T). cbn in A', T.
      unfold named in A. rewrite A in A'. injection A' as <-. rewrite (measurements_same _ _ _ M' M) in T.
      exists x, qs. split; [apply (put_some ty x p1 D1), Ix|]. split; [|exact Q]. destruct (T id) as (qs' & F' & Ed).
      destruct (filter (with_id id) l) as [|y r] eqn:El; [congruence|]. rewrite Ed. cbn. f_equal. exact (numbers_same _ _ _ _ F' _ F). }
  assert (A4 : dget id (put p4 []) = Some q <-> exists t l, In t (pa_units p) /\ named "TraderID" id t /\ conditions t l /\ initially rd (pa_mw p) l (Some q)).
  { rewrite (put_some id q p4 D4). split.
    - intros I. destruct (forall2_in_r _ _ _ S4 _ I) as (t & It & A & m & Cm & Im). exists t, m. cbn in *. repeat split; assumption.
    - intros (t & l & I & A & Cl & Il). destruct (forall2_in_l _ _ _ S4 _ I) as ([k x] & Ix & A' & m & Cm & Im). cbn in A', Im.
      unfold named in A. rewrite A in A'. injection A' as <-. rewrite (only_conditions _ _ _ Cm Cl) in Im.
      assert (Z : x = q); [|subst; exact Ix].
      destruct Im as [[Z _]|(b & e & a & y & Em & Nm & Qm & Zm & Fm)]; [discriminate|]. injection Zm as ->.
      destruct Il as [[Z _]|(b' & e' & a' & y' & El & Nl & Ql & Zl & Fl)]; [discriminate|]. injection Zl as ->.
      rewrite Em in El. clear - El Nm Qm Fm Nl Ql Fl. revert b' El Fl. induction b as [|z b IH]; intros [|z' b'] El Fl.
      + injection El as <- <-. exact (number_same _ _ _ _ _ Qm Ql).
      + injection El as <- _. exfalso. exact (Fl e (or_introl eq_refl) Nm).
      + injection El as -> _. exfalso. exact (Fm e' (or_introl eq_refl) Nl).
      + injection El as <- El. apply (IH (fun d I => Fm d (or_intror I)) b' El). intros d I. apply Fl. now right. }
  assert (A5 : dget id (put p5 []) = Some q <-> exists e, In e (pa_entered p) /\ named "SpdID" id e /\ number rd "Value" e q).
  { rewrite (put_some id q p5 D5). split.
    - intros I. destruct (forall2_in_r _ _ _ S5 _ I) as (t & It & A & Nv). exists t. repeat split; assumption.
    - intros (e & I & A & V). destruct (forall2_in_l _ _ _ S5 _ I) as ([k x] & Ix & A' & Nv). cbn in A', Nv.
      unfold named in A. rewrite A in A'. injection A' as <-. rewrite (number_same _ _ _ _ _ V Nv). exact Ix. }
  assert (Af : dget id (put pf []) = Some q <-> exists i, In i (pa_links p) /\ offer_to rd "FromRegion" id i q) by (rewrite (put_some id q pf Nf); apply Sf).
  assert (At : dget id (put pt []) = Some q <-> exists i, In i (pa_links p) /\ offer_to rd "ToRegion" id i q) by (rewrite (put_some id q pt Nt); apply St).
  rewrite A1, A4, A5, Af, At. reflexivity.
Qed.

Lemma equations_get rd n l ps : equations_readable rd n l ->
  picks (fun e => kids "RHSTermCollection" e <> []) (fun e x => equation_of rd n (fst x) e (snd x)) l ps ->
  forall id ts, dget id (put ps []) = Some ts <-> exists e, In e l /\ equation_of rd n id e ts.
Proof.
  intros (N & R) S id ts.
  assert (D : NoDup (map fst ps)).
  { apply (picks_nodup n (fun e => kids "RHSTermCollection" e <> []) l); [exact N|]. revert S. apply picks_weaken. intros a b [H _]. exact H. }
  rewrite (put_some id ts ps D). split.
  - intros I. destruct (picks_in_r _ _ _ _ S _ I) as (e & Ie & Q). exists e. split; assumption.
  - intros (e & I & A & m & (c & K & M & Ne) & F).
    destruct (picks_in_l _ _ _ _ S e I) as ([k us] & Ix & A' & m' & (c' & K' & M' & _) & F'); [rewrite K; discriminate|].
    cbn in A', F'. unfold named in A, A'. rewrite A in A'. injection A' as <-. rewrite K in K'. injection K' as <-. rewrite M in M'. subst m'.
    rewrite (terms_same rd m ts F us F'). exact Ix.
Qed.
Lemma rhs_equations rd root p st d : consists_of root p -> inputs_readable rd p -> rhs_calc rd (document root) = Got (st, d) ->
  forall id ts, dget id (s_rhs st) = Some ts <-> exists e, In e (pa_rhs p) /\ equation_of rd "ConstraintID" id e ts.
Proof.
  intros C R E. destruct (ra_rhs _ _ _ _ (calc_same rd root p st d C R E)) as (ps & -> & S). destruct R as (_ & _ & R & _).
  apply equations_get; assumption.
Qed.
Lemma generic_equations rd root p st d : consists_of root p -> inputs_readable rd p -> rhs_calc rd (document root) = Got (st, d) ->
  forall id ts, dget id (s_generic st) = Some ts <-> exists e, In e (pa_generic p) /\ equation_of rd "EquationID" id e ts.
Proof.
  intros C R E. destruct (ra_generic _ _ _ _ (calc_same rd root p st d C R E)) as (ps & -> & S). destruct R as (_ & R & _).
  apply equations_get; assumption.
Qed.
Lemma stated_rhs rd root p st d : consists_of root p -> inputs_readable rd p -> rhs_calc rd (document root) = Got (st, d) ->
  forall id q, nemde_rhs d id = Got q
    <-> exists e, In e (pa_solutions p) /\ named "Intervention" "0" e /\ named "ConstraintID" id e /\ number rd "RHS" e q.
Proof.
  intros C R E. destruct (ra_stated _ _ _ _ (calc_same rd root p st d C R E)) as (ps & -> & S). destruct R as (_ & _ & _ & _ & _ & _ & N & R).
  assert (D : NoDup (map fst ps)) by (eapply nodup_attr; [exact N|]; revert S; apply forall2_weaken; intros a b [H _]; exact H).
  intros id q. transitivity (dget id (put ps []) = Some q).
  { unfold nemde_rhs. destruct (dget id (put ps [])); split; congruence. }
  rewrite (put_some id q ps D). split.
  - intros I. destruct (forall2_in_r _ _ _ S _ I) as (e & Ie & A & Q). apply filter_In in Ie. destruct Ie as [Ie Z]. exists e.
    split; [exact Ie|]. split; [|split; assumption]. unfold named. destruct (attr "Intervention" e) as [s|]; [|discriminate]. apply String.eqb_eq in Z. congruence.
  - intros (e & I & Z & A & Q). destruct (forall2_in_l _ _ _ S e) as ([k x] & Ix & A' & Nv).
    { apply filter_In. split; [exact I|]. unfold named in Z. rewrite Z. reflexivity. }
    cbn in A', Nv. unfold named in A. rewrite A in A'. injection A' as <-. rewrite (number_same _ _ _ _ _ Q Nv). exact Ix.
Qed.

(** The sum of a constraint without operations. *)
Lemma document_sum rd root p st d e id l : consists_of root p -> inputs_readable rd p -> rhs_calc rd (document root) = Got (st, d) ->
  In e (pa_rhs p) -> named "ConstraintID" id e -> equation_terms e l -> (forall t, In t l -> plain_term t) ->
  forall q sqrt n, adds_up rd p l q -> exists q', snd (compute_rhs sqrt n st id) = Done q' /\ q' == q.
Proof.
  intros C R E I A T P q sqrt n U.
  assert (G : exists ts, Forall2 (term_of rd) l ts).
  { destruct R as (_ & _ & (_ & R) & _). destruct (R e I) as (_ & [K|(m & T' & B)]).
    - destruct T as (c & K' & _). rewrite K in K'. discriminate.
    - destruct T as (c & K & M & _), T' as (c' & K' & M' & _). rewrite K in K'. injection K' as <-. rewrite M in M'. subst m.
      destruct (each_parse (read_term rd) (term_of rd) l) as (ts & _ & F); [intros t It; apply term_read, B, It|]. exists ts. exact F. }
  destruct G as (ts & F).
  assert (Eq : dget id (s_rhs st) = Some ts).
  { apply (rhs_equations rd root p st d C R E). exists e. split; [exact I|]. split; [exact A|]. exists l. split; assumption. }
  apply (linear_value sqrt n st id ts q Eq).
  - intros t It. destruct (forall2_in_r _ _ _ F t It) as (x & Ix & S). destruct (P x Ix) as (P1 & P2 & P3).
    destruct S as (S1 & S2 & S3 & _ & _ & _ & S7). split; [congruence|]. split; [congruence|]. exact (P3 _ S1).
  - pose proof (input_values rd root p st d C R E) as V. clear - U F V. revert q U. induction F as [|x t l ts S F IH]; intros q U; inversion U as [|? ? a q' Ha Hu]; subst.
    + constructor.
    + constructor; [|apply IH, Hu]. destruct Ha as (ty & id & m & A1 & A2 & A3 & H). destruct S as (S1 & S2 & _ & S4 & S5 & _ & _).
      unfold named in *. rewrite A1 in S1. injection S1 as ->. rewrite A2 in S2. injection S2 as ->. rewrite (number_same _ _ _ _ _ A3 S4) in H.
      unfold amount, no_value. destruct H as [(v & Sv & Q)|(Nv & Ns & At & Q)].
      * left. exists v. split; [apply V, Sv|exact Q].
      * right. split; [intros v Hv; apply V in Hv; exact (Nv v Hv)|]. split; [exact Ns|].
        destruct (t_value t) as [w|]; [|exact Q]. cbn in S5. destruct S5 as (s & Z & _). congruence.
Qed.

(** The equations without generic equations. *)
Lemma put_keys {A} (ps : list (string * A)) k : forall d, NoDup (map fst d) -> NoDup (map fst (put ps d)) /\ (In k (map fst (put ps d)) <-> In k (map fst ps) \/ In k (map fst d)).
Proof.
  induction ps as [|[j a] ps IH]; intros d N; [cbn; tauto|].
  change (put ((j, a) :: ps) d) with (put ps (dset j a d)). destruct (IH (dset j a d)) as [X Y].
  - apply (dset_NoDup j a d), N.
  - split; [exact X|]. rewrite Y. pose proof (dset_keys j a d k) as Z. unfold dkeys in Z. rewrite Z. cbn. intuition.
Qed.
Lemma free_of_generic rd root p st d : consists_of root p -> inputs_readable rd p -> rhs_calc rd (document root) = Got (st, d) ->
  forall id, In id (without_generic st)
    <-> exists e l, In e (pa_rhs p) /\ named "ConstraintID" id e /\ equation_terms e l
        /\ forall t g m, In t l -> In g (pa_generic p) -> equation_terms g m -> attr "EquationID" g <> attr "SpdID" t.
Proof.
  intros C R E id.
  pose proof (rhs_equations rd root p st d C R E) as Hr. pose proof (generic_equations rd root p st d C R E) as Hg.
  destruct (ra_rhs _ _ _ _ (calc_same rd root p st d C R E)) as (ps & Es & _).
  assert (N : NoDup (map fst (s_rhs st))) by (rewrite Es; apply (put_keys ps id []); constructor).
  assert (G : forall g m, In g (pa_generic p) -> equation_terms g m -> exists i ts, equation_of rd "EquationID" i g ts).
  { intros g m I T. destruct R as (_ & (_ & R) & _). destruct (R g I) as (A & [K|(m' & T' & B)]).
    - destruct T as (c & K' & _). rewrite K in K'. discriminate.
    - destruct (attr "EquationID" g) as [i|] eqn:Ei; [|congruence].
      destruct (each_parse (read_term rd) (term_of rd) m') as (ts & _ & F); [intros t It; apply term_read, B, It|].
      exists i, ts. split; [exact Ei|]. exists m'. split; assumption. }
  unfold without_generic. rewrite in_map_iff. split.
  - intros ([k ts] & Ek & I). cbn in Ek. subst k. apply filter_In in I. destruct I as [I Q]. cbn [snd] in Q.
    assert (Dg : dget id (s_rhs st) = Some ts).
    { clear - N I. induction (s_rhs st) as [|[k v] r IH]; [destruct I|]. cbn in N. inversion N as [|? ? N1 N2]; subst. cbn. destruct I as [Z|I].
      - injection Z as -> ->. rewrite String.eqb_refl. reflexivity.
      - destruct (String.eqb_spec id k) as [->|D]; [|apply IH; assumption]. exfalso. apply N1. change k with (fst (k, ts)). apply in_map, I. }
    apply Hr in Dg. destruct Dg as (e & Ie & A & l & T & F). exists e, l. split; [exact Ie|]. split; [exact A|]. split; [exact T|].
    intros t g m It Ig Tg Z. destruct (forall2_in_l _ _ _ F t It) as (u & Iu & U). destruct U as (_ & U & _). unfold named in U.
    destruct (G g m Ig Tg) as (i & us & Eg & F'). assert (Di : dget (t_id u) (s_generic st) = Some us).
    { apply Hg. exists g. split; [exact Ig|]. unfold named in Eg. split; [unfold named; congruence|]. exact F'. }
    apply negb_true_iff in Q. apply (Bool.eq_true_false_abs _) in Q; [exact Q|]. apply existsb_exists. exists u. split; [exact Iu|].
    unfold dhas. rewrite Di. reflexivity.
  - intros (e & l & Ie & A & T & Q).
    assert (Dg : exists ts, equation_of rd "ConstraintID" id e ts).
    { destruct R as (_ & _ & (_ & R) & _). destruct (R e Ie) as (_ & [K|(m & T' & B)]).
      - destruct T as (c & K' & _). rewrite K in K'. discriminate.
      - destruct (each_parse (read_term rd) (term_of rd) m) as (ts & _ & F); [intros t It; apply term_read, B, It|]. exists ts.
        split; [exact A|]. exists m. split; assumption. }
    destruct Dg as (ts & Q1). assert (Dg : dget id (s_rhs st) = Some ts) by (apply Hr; exists e; split; assumption).
    exists (id, ts). split; [reflexivity|]. apply filter_In. split; [exact (dget_in _ _ _ Dg)|]. cbn [snd].
    apply negb_true_iff. apply not_true_iff_false. intros X. apply existsb_exists in X. destruct X as (u & Iu & X).
    unfold dhas in X. destruct (dget (t_id u) (s_generic st)) as [us|] eqn:Du; [|discriminate]. apply Hg in Du. destruct Du as (g & Ig & Ag & m & Tg & _).
    destruct Q1 as (_ & l' & T' & F). assert (l' = l) as ->.
    { destruct T as (c & K & M & _), T' as (c' & K' & M' & _). rewrite K in K'. injection K' as <-. congruence. }
    destruct (forall2_in_r _ _ _ F u Iu) as (t & It & _ & U & _). apply (Q t g m It Ig Tg). unfold named in *. congruence.
Qed.
