(** Lemmas about parsed documents and the bids read from them. *)

From Coq Require Import QArith String Ascii List Bool ZArith Lia.
Import ListNotations.
From Verif Require Import PandasModel TablesModel MarketModel CacheModel OffersModel ModesModel LossModel ConstraintsModel XmlModel.
From Verif Require Import SpecXml PandasFacts OffersFacts.
Open Scope string_scope.
Open Scope list_scope.

(** ** Parsed elements *)

Definition not_list (v : xml) : Prop := match v with XList _ => False | _ => True end.

Lemma parse_not_list e : not_list (parse e).
Proof. destruct e as [t [|a l] [|k ks]]; exact I. Qed.

Definition add1 (o : option xml) (v : xml) : option xml :=
  Some (match o with None => v | Some (XList l) => XList (l ++ [v]) | Some w => XList [w; v] end).

Lemma dget_app_none {A} k (d e : dict A) : dget k d = None -> dget k (d ++ e) = dget k e.
Proof.
  induction d as [|[k' v] d IH]; cbn; [reflexivity|].
  destruct (String.eqb k k'); [discriminate|exact IH].
Qed.
Lemma dget_app_some {A} k v (d e : dict A) : dget k d = Some v -> dget k (d ++ e) = Some v.
Proof.
  induction d as [|[k' w] d IH]; cbn; [discriminate|].
  destruct (String.eqb k k'); [trivial|exact IH].
Qed.

Lemma push_get t d p : dget t (push d p) = if String.eqb (fst p) t then add1 (dget t d) (snd p) else dget t d.
Proof.
  destruct p as [k v]; unfold push, add1; cbn [fst snd].
  destruct (String.eqb_spec k t) as [->|N].
  - destruct (dget t d) as [w|] eqn:E.
    + destruct w; rewrite dget_dset_same; reflexivity.
    + rewrite dget_app_none by exact E. cbn. rewrite String.eqb_refl. reflexivity.
  - assert (M : t <> k) by congruence.
    destruct (dget k d) as [w|] eqn:E.
    + destruct w; rewrite dget_dset_other by exact M; reflexivity.
    + destruct (dget t d) as [w|] eqn:F.
      * apply dget_app_some; exact F.
      * rewrite dget_app_none by exact F. cbn. destruct (String.eqb_spec t k); [contradiction|reflexivity].
Qed.

Lemma fold_push t l : forall d,
  dget t (fold_left push l d) = fold_left add1 (map snd (filter (fun p => String.eqb (fst p) t) l)) (dget t d).
Proof.
  induction l as [|p l IH]; intros d; cbn [fold_left filter]; [reflexivity|].
  rewrite IH, push_get. destruct (String.eqb (fst p) t); reflexivity.
Qed.

Lemma fold_add_list r : forall l, fold_left add1 r (Some (XList l)) = Some (XList (l ++ r)).
Proof.
  induction r as [|v r IH]; intros l; cbn [fold_left]; [rewrite app_nil_r; reflexivity|].
  change (add1 (Some (XList l)) v) with (Some (XList (l ++ [v]))).
  rewrite IH, <- app_assoc; reflexivity.
Qed.

Definition grouped (l : list xml) : option xml :=
  match l with [] => None | [v] => Some v | _ => Some (XList l) end.
Lemma fold_add l : Forall not_list l -> fold_left add1 l None = grouped l.
Proof.
  intros H. destruct l as [|v [|w r]]; [reflexivity..|]. cbn [fold_left].
  inversion_clear H as [|? ? Hv _].
  change (add1 None v) with (Some v).
  assert (E : add1 (Some v) w = Some (XList [v; w])) by (destruct v; cbn in Hv; try contradiction; reflexivity).
  rewrite E, fold_add_list; reflexivity.
Qed.

Lemma kids_parse t ks :
  map snd (filter (fun p : string * xml => String.eqb (fst p) t) (map (fun c => (el_tag c, parse c)) ks))
  = map parse (filter (fun c => String.eqb (el_tag c) t) ks).
Proof.
  induction ks as [|c ks IH]; cbn; [reflexivity|].
  destruct (String.eqb (el_tag c) t); cbn; rewrite IH; reflexivity.
Qed.

Lemma parse_kids t ks :
  dget t (fold_left push (map (fun c => (el_tag c, parse c)) ks) []) = grouped (map parse (filter (fun c => String.eqb (el_tag c) t) ks)).
Proof.
  rewrite fold_push, kids_parse. apply fold_add.
  rewrite Forall_forall. intros v Hv. apply in_map_iff in Hv as (c & <- & _). apply parse_not_list.
Qed.

Definition plain_tag (t : string) : Prop := match t with String c _ => Ascii.eqb c "@" = false | EmptyString => True end.

Lemma look_tag t a d : plain_tag t -> look t a d = dget t d.
Proof. destruct t as [|c n]; cbn; [reflexivity|]. intros ->; reflexivity. Qed.
Lemma look_attr n a d : look (String "@" n) a d = option_map XText (dget n a).
Proof. reflexivity. Qed.

Lemma at_kids t e : plain_tag t -> kids t e <> [] ->
  at_key t (parse e) = match grouped (map parse (kids t e)) with Some x => Got x | None => Raise KeyE end.
Proof.
  destruct e as [g a ks]; unfold kids; cbn [el_kids]. intros P N.
  assert (K : exists x, parse (Elem g a ks) = x /\ x = XNode a (fold_left push (map (fun c => (el_tag c, parse c)) ks) [])).
  { eexists; split; [|reflexivity]. cbn. destruct a, ks; try reflexivity. contradiction N; reflexivity. }
  destruct K as (x & -> & ->). cbn [at_key].
  rewrite look_tag by exact P. rewrite parse_kids. reflexivity.
Qed.
Lemma at_one t e c : plain_tag t -> kids t e = [c] -> at_key t (parse e) = Got (parse c).
Proof. intros P H. rewrite at_kids; [rewrite H; reflexivity|exact P|rewrite H; discriminate]. Qed.
Lemma at_many t e l : plain_tag t -> kids t e = l -> (2 <= length l)%nat -> at_key t (parse e) = Got (XList (map parse l)).
Proof.
  intros P H L. rewrite at_kids; [rewrite H|exact P|rewrite H; destruct l; cbn in L; [lia|discriminate]].
  destruct l as [|c [|d r]]; cbn in L; try lia. reflexivity.
Qed.

Lemma parse_node e : el_attrs e <> [] ->
  parse e = XNode (el_attrs e) (fold_left push (map (fun c => (el_tag c, parse c)) (el_kids e)) []).
Proof. destruct e as [g [|a l] ks]; cbn; [congruence|reflexivity]. Qed.
Lemma attr_attrs n e s : attr n e = Some s -> el_attrs e <> [].
Proof. unfold attr. destruct (el_attrs e); cbn; congruence. Qed.

Lemma at_attr n e s : attr n e = Some s -> at_key (String "@" n) (parse e) = Got (XText s).
Proof.
  intros H. rewrite (parse_node e (attr_attrs n e s H)). cbn [at_key]. rewrite look_attr.
  unfold attr in H. rewrite H. reflexivity.
Qed.
Lemma has_attr n e : el_attrs e <> [] -> has_key (String "@" n) (parse e) = Got (match attr n e with Some _ => true | None => false end).
Proof.
  intros N. rewrite (parse_node e N). cbn [has_key]. rewrite look_attr. unfold attr.
  destruct (dget n (el_attrs e)); reflexivity.
Qed.
Lemma text_attr n e s : attr n e = Some s -> text_at (String "@" n) (parse e) = Got s.
Proof. intros H. unfold text_at. rewrite (at_attr n e s H). reflexivity. Qed.
Lemma float_attr rd n e q : number rd n e q -> float_at rd (String "@" n) (parse e) = Got q.
Proof. intros (s & H & R). unfold float_at. rewrite (at_attr n e s H). cbn. rewrite R. reflexivity. Qed.
Lemma whole_attr rd n e z : whole rd n e z -> whole_at rd (String "@" n) (parse e) = Got z.
Proof. intros (s & H & R). unfold whole_at. rewrite (at_attr n e s H). cbn. rewrite R. reflexivity. Qed.

Lemma down_app p q v : down (p ++ q) v = xbind (down p v) (down q).
Proof.
  revert v. induction p as [|k p IH]; intros v; cbn; [reflexivity|].
  destruct (at_key k v); cbn; [apply IH|reflexivity].
Qed.
Lemma down_only p : Forall plain_tag p -> forall e c, only p e c -> down p (parse e) = Got (parse c).
Proof.
  induction 1 as [|t p P _ IH]; intros e c H; cbn in H |- *; [rewrite H; reflexivity|].
  destruct H as (d & K & H). rewrite (at_one t e d P K). apply IH, H.
Qed.
Lemma down_collection path tag root l : Forall plain_tag path -> plain_tag tag -> collection path tag root l ->
  down ("NEMSPDCaseFile" :: path ++ [tag]) (document root) = Got (XList (map parse l)).
Proof.
  intros P T (R & c & O & K & L). cbn [down].
  assert (E : at_key "NEMSPDCaseFile" (document root) = Got (parse root)).
  { unfold document. cbn. unfold case_root in R. rewrite R. reflexivity. }
  rewrite E. cbn [xbind]. rewrite down_app, (down_only path P root c O). cbn [xbind down].
  rewrite (at_many tag c l T K L). reflexivity.
Qed.

Ltac plain := repeat constructor.

Lemma traders_read root ts : trader_list root ts -> traders (document root) = Got (XList (map parse ts)).
Proof. intros H. exact (down_collection ["NemSpdInputs"; "TraderCollection"] "Trader" root ts ltac:(plain) ltac:(plain) H). Qed.
Lemma periods_read root ts : period_list root ts -> trader_periods (document root) = Got (XList (map parse ts)).
Proof.
  intros H.
  exact (down_collection ["NemSpdInputs"; "PeriodCollection"; "Period"; "TraderPeriodCollection"] "TraderPeriod" root ts
           ltac:(plain) ltac:(plain) H).
Qed.

(** ** Loops *)

Lemma each_forall2 {A B} (f : A -> xres B) l bs : Forall2 (fun a b => f a = Got b) l bs -> each f l = Got bs.
Proof.
  induction 1 as [|a b l bs H _ IH]; cbn; [reflexivity|]. rewrite H; cbn. rewrite IH. reflexivity.
Qed.
Lemma each_inv {A B} (f : A -> xres B) l : forall bs, each f l = Got bs -> Forall2 (fun a b => f a = Got b) l bs.
Proof.
  induction l as [|a l IH]; intros bs; cbn.
  - intros E; inversion E; constructor.
  - destruct (f a) as [b|] eqn:F; cbn; [|discriminate].
    destruct (each f l) as [t|] eqn:G; cbn; [|discriminate].
    intros E; inversion E; subst. constructor; [exact F|apply IH; reflexivity].
Qed.
Lemma each_map {A B} (f : A -> xres B) (g : A -> B) l : (forall a, In a l -> f a = Got (g a)) -> each f l = Got (map g l).
Proof.
  induction l as [|a l IH]; cbn; intros H; [reflexivity|].
  rewrite (H a (or_introl eq_refl)); cbn. rewrite IH; [reflexivity|]. intros b Hb; apply H; right; exact Hb.
Qed.
Lemma forall2_map_l {A B C} (R : B -> C -> Prop) (f : A -> B) l bs : Forall2 (fun a c => R (f a) c) l bs -> Forall2 R (map f l) bs.
Proof. induction 1; cbn; constructor; assumption. Qed.
Lemma forall2_flat {A B C D} (R : C -> D -> Prop) (f : A -> list C) (g : B -> list D) l m :
  Forall2 (fun a b => Forall2 R (f a) (g b)) l m -> Forall2 R (flat_map f l) (flat_map g m).
Proof. induction 1; cbn; [constructor|]. apply Forall2_app; assumption. Qed.
Lemma forall2_exists {A B} (P : A -> Prop) (R : A -> B -> Prop) l :
  (forall a, In a l -> P a) -> (forall a, P a -> exists b, R a b) -> exists bs, Forall2 R l bs.
Proof.
  intros H E. induction l as [|a l IH].
  - exists []; constructor.
  - destruct (E a (H a (or_introl eq_refl))) as (b & Hb).
    destruct IH as (bs & Hbs); [intros x Hx; apply H; right; exact Hx|].
    exists (b :: bs). constructor; assumption.
Qed.

(** ** Bids *)

Lemma trades_read path tag t l : Forall plain_tag path -> plain_tag tag -> trades path tag t l ->
  trades_of path tag (parse t) = Got (map parse l).
Proof.
  intros P T (c & O & A & K & N & G). unfold trades_of.
  rewrite (down_only path P t c O). cbn [xbind].
  assert (L : kids tag c = l).
  { unfold kids. rewrite K. clear -G. induction l as [|x l IH]; cbn; [reflexivity|].
    rewrite (G x (or_introl eq_refl)), String.eqb_refl. rewrite IH; [reflexivity|]. intros y Hy; apply G; right; exact Hy. }
  destruct l as [|x [|y r]]; [congruence| |].
  - rewrite (at_one tag c x T L). cbn [xbind].
    pose proof (parse_not_list x) as NL. destruct (parse x) eqn:E; cbn in NL; try contradiction; cbn [is_list];
      destruct c as [g a ks]; cbn in A, K; subst; cbn; rewrite E; reflexivity.
  - rewrite (at_many tag c (x :: y :: r) T L) by (cbn; lia). reflexivity.
Qed.

Lemma market_map s : dget s trade_types = market_of s.
Proof.
  destruct (dget s trade_types) as [m|] eqn:E.
  - unfold trade_types in E. cbn [dget] in E.
    repeat match type of E with (if ?b then _ else _) = _ => let H := fresh in destruct b eqn:H;
      [apply String.eqb_eq in H; subst; inversion E; reflexivity|] end. discriminate.
  - destruct (market_of s) as [m|] eqn:M; [|reflexivity]. exfalso.
    assert (H : In s (map fst trade_types)).
    { clear E. revert M. unfold market_of.
      repeat (match goal with
              | |- context [match ?x with _ => _ end] => is_var x; destruct x; try discriminate
              end); intros _; cbn; tauto. }
    apply in_map_iff in H as ((k & v) & <- & H). cbn in E.
    cbn in H. repeat (destruct H as [H|H]; [inversion H; subst; cbn in E; discriminate|]). exact H.
Qed.

(** The value of a column for an attribute that is there. *)
Definition value_of (rd : reader) (a s : string) : value :=
  if String.eqb a "TradeType" || String.eqb a "Direction" then VStr s
  else match rd_float rd s with Some q => VNum q | None => VNone end.
Definition parses (rd : reader) (a s : string) : Prop :=
  a = "TradeType" \/ a = "Direction" \/ exists q, rd_float rd s = Some q.
Definition at_sign (p : string * string) : string * string := (fst p, String "@" (snd p)).

Lemma given_read rd tr a s : attr a tr = Some s -> parses rd a s -> given_value rd (String "@" a) (parse tr) = Got (value_of rd a s).
Proof.
  intros H P. unfold given_value, value_of.
  change (String.eqb (String "@" a) "@TradeType") with (String.eqb a "TradeType").
  change (String.eqb (String "@" a) "@Direction") with (String.eqb a "Direction").
  destruct (String.eqb_spec a "TradeType"); cbn [orb].
  - rewrite (text_attr a tr s H). reflexivity.
  - destruct (String.eqb_spec a "Direction").
    + rewrite (text_attr a tr s H). reflexivity.
    + destruct P as [P|[P|(q & R)]]; try contradiction. rewrite R.
      rewrite (float_attr rd a tr q); [reflexivity|]. exists s; auto.
Qed.

(** The cells of a row of volume bids. *)
Fixpoint cells (rd : reader) (tr : elem) (prev : value) (cols : list (string * string)) : list (string * value) :=
  match cols with
  | [] => []
  | (c, a) :: r =>
      let v := match attr a tr with
               | Some s => value_of rd a s
               | None => if String.eqb a "Direction" then VStr "missing" else prev
               end in
      (c, v) :: cells rd tr v r
  end.

Lemma volume_cells rd tr cols : el_attrs tr <> [] ->
  (forall c a s, In (c, a) cols -> attr a tr = Some s -> parses rd a s) ->
  forall prev, volume_values rd (parse tr) (Some prev) (map at_sign cols) = Got (cells rd tr prev cols).
Proof.
  intros N. induction cols as [|[c a] r IH]; intros P prev; cbn [map at_sign fst snd volume_values cells]; [reflexivity|].
  rewrite (has_attr a tr N). cbn [xbind].
  change (String.eqb (String "@" a) "@Direction") with (String.eqb a "Direction").
  destruct (attr a tr) as [s|] eqn:E.
  - rewrite (given_read rd tr a s E (P c a s (or_introl eq_refl) E)). cbn [xbind].
    rewrite IH; [reflexivity|]. intros c' a' s' I'; apply P with (c := c'); right; exact I'.
  - cbn [xbind]. destruct (String.eqb a "Direction"); rewrite IH; try reflexivity;
      intros c' a' s' I'; apply P with (c := c'); right; exact I'.
Qed.

Lemma cells_keys rd tr cols : forall prev, map fst (cells rd tr prev cols) = map fst cols.
Proof. induction cols as [|[c a] r IH]; intros prev; cbn; [reflexivity|]. rewrite IH; reflexivity. Qed.

Lemma cells_given rd tr cols : NoDup (map fst cols) -> forall prev c a s,
  In (c, a) cols -> attr a tr = Some s -> dget c (cells rd tr prev cols) = Some (value_of rd a s).
Proof.
  induction cols as [|[c' a'] r IH]; intros D prev c a s I E; cbn; [destruct I|].
  cbn in D. inversion_clear D as [|? ? D1 D2]. destruct I as [I|I].
  - inversion I; subst. rewrite String.eqb_refl, E. reflexivity.
  - destruct (String.eqb_spec c c') as [->|_].
    + exfalso; apply D1. change c' with (fst (c', a)). apply in_map, I.
    + apply (IH D2 _ c a s I E).
Qed.

(** An attribute that is not there gets the value of the one before. *)
Lemma cells_absent rd tr c a cols : NoDup (map fst cols) -> forall pre post prev,
  cols = pre ++ (c, a) :: post -> attr a tr = None -> a <> "Direction" ->
  dget c (cells rd tr prev cols) = Some (match rev pre with
                                         | [] => prev
                                         | (b, _) :: _ => match dget b (cells rd tr prev cols) with Some v => v | None => prev end
                                         end).
Proof.
  induction cols as [|[c' a'] r IH]; intros D pre post prev E N M; [destruct pre; discriminate|].
  cbn in D. inversion_clear D as [|? ? D1 D2].
  destruct pre as [|[b e] pre]; cbn in E; inversion E; subst.
  - cbn. rewrite String.eqb_refl, N. destruct (String.eqb_spec a "Direction"); [contradiction|reflexivity].
  - cbn [cells dget].
    destruct (String.eqb_spec c b) as [->|_].
    { exfalso; apply D1. apply in_map_iff. exists (b, a); split; [reflexivity|]. apply in_or_app; right; left; reflexivity. }
    rewrite (IH D2 pre post _ eq_refl N M). cbn [rev].
    destruct (rev pre) as [|[f g] t] eqn:R; cbn [app].
    + rewrite String.eqb_refl. reflexivity.
    + destruct (String.eqb_spec f b) as [->|_]; [|].
      * exfalso; apply D1. apply in_map_iff. exists (b, g); split; [reflexivity|]. apply in_or_app; left.
        apply in_rev. rewrite R. left; reflexivity.
      * assert (K : exists v, dget f (cells rd tr (match attr e tr with Some s => value_of rd e s | None => if String.eqb e "Direction" then VStr "missing" else prev end) (pre ++ (c, a) :: post)) = Some v).
        { assert (I : In f (map fst (cells rd tr (match attr e tr with Some s => value_of rd e s | None => if String.eqb e "Direction" then VStr "missing" else prev end) (pre ++ (c, a) :: post)))).
          { rewrite cells_keys. apply in_map_iff. exists (f, g); split; [reflexivity|]. apply in_or_app; left. apply in_rev. rewrite R. left; reflexivity. }
          apply in_map_iff in I as ((k & v) & <- & I). cbn.
          destruct (dget k _) as [w|] eqn:G; [exists w; reflexivity|]. exfalso.
          clear -G I. revert G I. generalize (cells rd tr (match attr e tr with Some s => value_of rd e s | None => if String.eqb e "Direction" then VStr "missing" else prev end) (pre ++ (c, a) :: post)).
          induction l as [|[k' v'] l IH]; cbn; [tauto|]. destruct (String.eqb_spec k k'); [discriminate|].
          intros G [I|I]; [inversion I; congruence|apply IH; assumption]. }
        destruct K as (v & K). rewrite K. reflexivity.
Qed.

Lemma volume_names_are : volume_names = map at_sign (("BIDTYPE", "TradeType") :: ("DIRECTION", "Direction") :: volume_columns).
Proof. reflexivity. Qed.
Lemma price_names_are : price_names = map at_sign (("BIDTYPE", "TradeType") :: ("DIRECTION", "Direction") :: price_columns).
Proof. reflexivity. Qed.

Lemma nodupb_ok (l : list string) : (fix f l := match l with [] => true | x :: r => negb (mem_str x r) && f r end) l = true -> NoDup l.
Proof.
  induction l as [|x r IH]; intros H; constructor.
  - apply andb_true_iff in H as [H _]. intros I. apply negb_true_iff in H.
    assert (mem_str x r = true) by (apply mem_str_in; exact I). congruence.
  - apply IH. apply andb_true_iff in H as [_ H]. exact H.
Qed.
Lemma volume_columns_distinct : NoDup (map fst volume_columns).
Proof. apply nodupb_ok. vm_compute. reflexivity. Qed.
Lemma price_columns_distinct : NoDup (map fst price_columns).
Proof. apply nodupb_ok. vm_compute. reflexivity. Qed.

(** The renaming of two columns keeps the rows. *)
Lemma renamed_rows dirs l :
  (forall r, In r l -> exists m d, mapped trade_types (cell_of "BIDTYPE" (snd r)) = Got m /\ mapped dirs (cell_of "DIRECTION" (snd r)) = Got d) ->
  exists rows, renamed dirs l = Got rows
    /\ Forall2 (fun r row => bi_duid row = fst r /\ bi_cells row = numbers_of (snd r)
                             /\ mapped trade_types (cell_of "BIDTYPE" (snd r)) = Got (bi_type row)
                             /\ mapped dirs (cell_of "DIRECTION" (snd r)) = Got (bi_dir row)) l rows.
Proof.
  intros H.
  assert (K : exists types ds,
    Forall2 (fun r m => mapped trade_types (cell_of "BIDTYPE" (snd r)) = Got m) l types
    /\ Forall2 (fun r d => mapped dirs (cell_of "DIRECTION" (snd r)) = Got d) l ds
    /\ Forall2 (fun r row => bi_duid row = fst r /\ bi_cells row = numbers_of (snd r)
                             /\ mapped trade_types (cell_of "BIDTYPE" (snd r)) = Got (bi_type row)
                             /\ mapped dirs (cell_of "DIRECTION" (snd r)) = Got (bi_dir row)) l
        (map (fun p => BidIn (fst (fst p)) (fst (snd p)) (snd (snd p)) (numbers_of (snd (fst p)))) (combine l (combine types ds)))).
  { induction l as [|r l IH].
    - exists [], []. repeat split; constructor.
    - destruct (H r (or_introl eq_refl)) as (m & d & Hm & Hd).
      destruct IH as (types & ds & T & D & R); [intros x Hx; apply H; right; exact Hx|].
      exists (m :: types), (d :: ds). split; [constructor; assumption|]. split; [constructor; assumption|].
      cbn. constructor; [|exact R]. cbn. auto. }
  destruct K as (types & ds & T & D & R).
  eexists; split; [|exact R]. unfold renamed.
  rewrite (each_forall2 _ _ _ T). cbn [xbind]. rewrite (each_forall2 _ _ _ D). reflexivity.
Qed.

Lemma numbers_all (cols : list (string * string)) (l : list (string * value)) :
  forallb (fun p : string * string => negb (mem_str (fst p) ["BIDTYPE"; "DIRECTION"])) cols = true ->
  map fst l = map fst cols -> numbers_of l = l.
Proof.
  revert l. induction cols as [|[c a] cols IH]; intros l H E; destruct l as [|[k v] l]; cbn in E; try discriminate; [reflexivity|].
  injection E as -> E. cbn [forallb fst] in H. apply andb_true_iff in H as [Ha Hb].
  unfold numbers_of. cbn [filter fst]. rewrite Ha. f_equal. apply IH; assumption.
Qed.

(** The row of a trade before the renaming. *)
Definition dir_value (tr : elem) : value := match attr "Direction" tr with Some s => VStr s | None => VStr "missing" end.
Definition volume_row (rd : reader) (tr : elem) (s : string) : list (string * value) :=
  ("BIDTYPE", VStr s) :: ("DIRECTION", dir_value tr) :: cells rd tr (dir_value tr) volume_columns.

Lemma volume_row_read rd tr s : attr "TradeType" tr = Some s -> readable rd volume_columns tr ->
  volume_values rd (parse tr) None volume_names = Got (volume_row rd tr s).
Proof.
  intros E (_ & _ & P). pose proof (attr_attrs _ _ _ E) as N.
  rewrite volume_names_are. cbn [map at_sign fst snd volume_values].
  rewrite (has_attr "TradeType" tr N), E. cbn [xbind].
  rewrite (given_read rd tr "TradeType" s E (or_introl eq_refl)). cbn [xbind].
  rewrite (has_attr "Direction" tr N). cbn [xbind].
  assert (Q : forall c a x, In (c, a) volume_columns -> attr a tr = Some x -> parses rd a x).
  { intros c a x I X. right; right. exact (P c a x I X). }
  unfold volume_row, dir_value.
  destruct (attr "Direction" tr) as [x|] eqn:D.
  - rewrite (given_read rd tr "Direction" x D (or_intror (or_introl eq_refl))). cbn [xbind].
    rewrite (volume_cells rd tr volume_columns N Q). reflexivity.
  - cbn [xbind]. change (String.eqb "@Direction" "@Direction") with true. cbn [xbind].
    rewrite (volume_cells rd tr volume_columns N Q). reflexivity.
Qed.

Definition volume_row_of (rd : reader) (p : elem * elem) (r : bid_row) : Prop :=
  attr "TraderID" (fst p) = Some (bi_duid r)
  /\ (exists s, attr "TradeType" (snd p) = Some s /\ market_of s = Some (bi_type r))
  /\ match attr "Direction" (snd p) with Some s => direction_of s = bi_dir r | None => bi_dir r = None end
  /\ bi_cells r = cells rd (snd p) (dir_value (snd p)) volume_columns.

Lemma direction_map s d : direction_of s = Some d -> dget s volume_directions = Some (Some d).
Proof.
  unfold direction_of.
  repeat (match goal with |- context [match ?x with _ => _ end] => is_var x; destruct x; try discriminate end);
    intros E; inversion E; reflexivity.
Qed.
Lemma direction_map_price s d : direction_of s = Some d -> dget s price_directions = Some (Some d).
Proof.
  unfold direction_of.
  repeat (match goal with |- context [match ?x with _ => _ end] => is_var x; destruct x; try discriminate end);
    intros E; inversion E; reflexivity.
Qed.

Lemma concat_flat {A B} (R : A -> B -> Prop) (ls : list (list A)) (bs : list (list B)) :
  Forall2 (Forall2 R) ls bs -> Forall2 R (concat ls) (concat bs).
Proof. induction 1; cbn; [constructor|]. apply Forall2_app; assumption. Qed.

Lemma pairs_concat (ts : list elem) (ls : list (list elem)) :
  flat_map (fun p => map (pair (fst p)) (snd p)) (combine ts ls) = concat (map (fun p => map (pair (fst p)) (snd p)) (combine ts ls)).
Proof. rewrite flat_map_concat_map; reflexivity. Qed.

(** Reading the trades of every trader. *)
Lemma raw_read (of : elem -> list elem -> Prop) (raw : xml -> xres (list (string * list (string * value))))
    (one : elem * elem -> string * list (string * value) -> Prop) (ok : elem * elem -> Prop) ts ps :
  with_trades of ts ps -> (forall p, In p ps -> ok p) ->
  (forall t l, In t ts -> of t l -> (forall tr, In tr l -> ok (t, tr)) ->
     exists rs, raw (parse t) = Got rs /\ Forall2 one (map (pair t) l) rs) ->
  exists rows, each raw (map parse ts) = Got rows /\ Forall2 one ps (concat rows).
Proof.
  intros (ls & F & ->). revert F. revert ls. induction ts as [|t ts IH]; intros ls F O R; inversion F; subst.
  - exists []. split; [reflexivity|constructor].
  - cbn [combine flat_map fst snd] in O.
    destruct (R t y (or_introl eq_refl) H1) as (rs & E & S).
    { intros tr I. apply O. apply in_or_app; left. apply in_map, I. }
    destruct (IH l' H3) as (rows & E' & S').
    { intros p I. apply O. apply in_or_app; right. exact I. }
    { intros t' l I. apply R. right; exact I. }
    exists (rs :: rows). cbn [map each]. rewrite E. cbn [xbind]. rewrite E'. cbn [xbind]. split; [reflexivity|].
    cbn [combine flat_map concat fst snd]. apply Forall2_app; assumption.
Qed.

(** The rows after the renaming. *)
Definition raw_of (dirs : dict (option string)) (dirR : elem * elem -> option string -> Prop)
    (cellsR : elem * elem -> list (string * value) -> Prop) (p : elem * elem) (r : string * list (string * value)) : Prop :=
  attr "TraderID" (fst p) = Some (fst r)
  /\ exists s m dv d nums, attr "TradeType" (snd p) = Some s /\ market_of s = Some m
      /\ snd r = ("BIDTYPE", VStr s) :: ("DIRECTION", VStr dv) :: nums
      /\ dget dv dirs = Some d /\ numbers_of nums = nums /\ dirR p d /\ cellsR p nums.

Lemma first_cell s x l : cell_of "BIDTYPE" (("BIDTYPE", VStr s) :: ("DIRECTION", x) :: l) = VStr s.
Proof. reflexivity. Qed.
Lemma second_cell x s l : cell_of "DIRECTION" (("BIDTYPE", x) :: ("DIRECTION", VStr s) :: l) = VStr s.
Proof. reflexivity. Qed.
Lemma mapped_str {A} (m : dict A) s : mapped m (VStr s) = match dget s m with Some x => Got x | None => mapped m (VStr s) end.
Proof. unfold mapped. destruct (dget s m); reflexivity. Qed.

Lemma renamed_raw dirs dirR cellsR ps raws : Forall2 (raw_of dirs dirR cellsR) ps raws ->
  exists rows, renamed dirs raws = Got rows
    /\ Forall2 (fun p row => attr "TraderID" (fst p) = Some (bi_duid row)
                             /\ (exists s, attr "TradeType" (snd p) = Some s /\ market_of s = Some (bi_type row))
                             /\ dirR p (bi_dir row) /\ cellsR p (bi_cells row)) ps rows.
Proof.
  intros S.
  destruct (renamed_rows dirs raws) as (rows & E & F).
  { intros r I. induction S as [|p r' ps rs (D & s & m & dv & d & nums & T & M & R & G & N & _) _ IH]; [destruct I|].
    destruct I as [->|I]; [|apply IH; exact I].
    exists m, d. rewrite R, first_cell, second_cell, (mapped_str trade_types), market_map, M, (mapped_str dirs), G. split; reflexivity. }
  exists rows. split; [exact E|]. clear E. revert rows F.
  induction S as [|p r ps rs (D & s & m & dv & d & nums & T & M & R & G & N & HD & HC) _ IH]; intros rows F; inversion F; subst; constructor.
  - destruct H1 as (A & B & C & E). rewrite R in B, C, E.
    rewrite first_cell, (mapped_str trade_types), market_map, M in C. rewrite second_cell, (mapped_str dirs), G in E. inversion C; inversion E.
    rewrite A. split; [exact D|]. split; [exists s; rewrite <- H0; auto|]. split; [rewrite <- H1; exact HD|].
    change (numbers_of (("BIDTYPE", VStr s) :: ("DIRECTION", VStr dv) :: nums)) with (numbers_of nums) in B.
    rewrite B, N. exact HC.
  - apply IH; assumption.
Qed.

Lemma volume_read rd root ts ps : period_list root ts -> with_trades volume_trades ts ps ->
  (forall p, In p ps -> volumes_readable rd p) ->
  exists rows, volume_bids rd (document root) = Got rows /\ Forall2 (volume_row_of rd) ps rows.
Proof.
  intros L W O.
  destruct (raw_read volume_trades (volume_raw rd)
              (raw_of volume_directions
                 (fun p d => match attr "Direction" (snd p) with Some s => direction_of s = d | None => d = None end)
                 (fun p l => l = cells rd (snd p) (dir_value (snd p)) volume_columns))
              (volumes_readable rd) ts ps W O) as (raws & E & S).
  { intros t l _ H Hl. unfold volume_raw.
    rewrite (trades_read ["TradeCollection"] "Trade" t l ltac:(plain) ltac:(plain) H). cbn [xbind].
    clear H. induction l as [|tr l IH]; [exists []; split; [reflexivity|constructor]|].
    destruct IH as (rs & E & S); [intros x Hx; apply Hl; right; exact Hx|].
    destruct (Hl tr (or_introl eq_refl)) as (I & R). cbn [fst snd] in I, R.
    destruct (attr "TraderID" t) as [id|] eqn:D; [|congruence].
    pose proof R as R'. destruct R' as ((s & T & M) & Q & _).
    exists ((id, volume_row rd tr s) :: rs). cbn [map each].
    rewrite (text_attr "TraderID" t id D). cbn [xbind].
    rewrite (volume_row_read rd tr s T R). cbn [xbind].
    rewrite (text_attr "TraderID" t id D) in E. cbn [xbind] in E. rewrite E. cbn [xbind]. split; [reflexivity|].
    constructor; [|exact S]. split; [exact D|]. cbn [fst snd].
    destruct (market_of s) as [m|] eqn:M'; [|congruence].
    exists s, m, (match attr "Direction" tr with Some x => x | None => "missing" end),
      (match attr "Direction" tr with Some x => direction_of x | None => None end), (cells rd tr (dir_value tr) volume_columns).
    split; [exact T|]. split; [exact M'|]. split; [unfold volume_row, dir_value; destruct (attr "Direction" tr); reflexivity|].
    split.
    { destruct (attr "Direction" tr) as [x|]; [|reflexivity].
      destruct (direction_of x) as [d|] eqn:Dx; [|exfalso; exact (Q x eq_refl Dx)]. apply direction_map, Dx. }
    split; [apply (numbers_all volume_columns); [vm_compute; reflexivity|apply cells_keys]|].
    split; [|reflexivity]. destruct (attr "Direction" tr); reflexivity. }
  destruct (renamed_raw _ _ _ _ _ S) as (rows & E' & F).
  exists rows. split; [|exact F].
  unfold volume_bids. rewrite (periods_read root ts L). cbn [xbind iter]. rewrite E. cbn [xbind]. exact E'.
Qed.

Lemma volume_bids_rows rd root ts ps : period_list root ts -> with_trades volume_trades ts ps ->
  (forall p, In p ps -> volumes_readable rd p) ->
  exists rows, volume_bids rd (document root) = Got rows /\ Forall2 (row_of rd volume_columns (fun _ => None)) ps rows.
Proof.
  intros L W O. destruct (volume_read rd root ts ps L W O) as (rows & E & F).
  exists rows. split; [exact E|]. clear -F.
  induction F as [|p r ps rows (A & B & C & D) _ IH]; constructor; [|exact IH].
  split; [exact A|]. split; [exact B|]. split; [exact C|]. rewrite D. split; [apply cells_keys|].
  intros c a q I (s & X & Y). rewrite (cells_given rd (snd p) volume_columns volume_columns_distinct _ c a s I X).
  unfold value_of. rewrite Y.
  assert (Z : String.eqb a "TradeType" || String.eqb a "Direction" = false).
  { cbn in I. repeat (destruct I as [I|I]; [inversion I; subst; reflexivity|]). destruct I. }
  rewrite Z. reflexivity.
Qed.

(** The cells of a row of price bids. *)
Definition price_cell (rd : reader) (t tr : elem) (a : string) : value :=
  match attr a tr with
  | Some s => value_of rd a s
  | None => match attr "Direction" tr with
            | Some _ => VNone
            | None => match attr "TraderType" t with Some s => usual_direction s | None => VNone end
            end
  end.
Definition price_cells (rd : reader) (t tr : elem) (cols : list (string * string)) : list (string * value) :=
  map (fun p => (fst p, price_cell rd t tr (snd p))) cols.

Lemma price_value_read rd t tr a : el_attrs tr <> [] ->
  (forall s, attr a tr = Some s -> parses rd a s) -> (attr "Direction" tr = None -> attr "TraderType" t <> None) ->
  price_value rd (parse t) (parse tr) (String "@" a) = Got (price_cell rd t tr a).
Proof.
  intros N P D. unfold price_value, price_cell. rewrite (has_attr a tr N). cbn [xbind].
  destruct (attr a tr) as [s|] eqn:E; [apply given_read; [exact E|apply P; reflexivity]|].
  change "@Direction" with (String "@" "Direction"). rewrite (has_attr "Direction" tr N). cbn [xbind].
  destruct (attr "Direction" tr) as [d|]; [reflexivity|].
  destruct (attr "TraderType" t) as [y|] eqn:Y; [|exfalso; apply D; reflexivity].
  change "@TraderType" with (String "@" "TraderType"). rewrite (text_attr "TraderType" t y Y). reflexivity.
Qed.

Lemma usual_is t s : attr "TraderType" t = Some s -> forall d, direction_of_type t = Some d ->
  exists x, usual_direction s = VStr x /\ direction_of x = Some d.
Proof.
  intros E d. unfold direction_of_type. rewrite E. clear E. intros E.
  assert (H : In s ["GENERATOR"; "NORMALLY_ON_LOAD"; "WDR"; "BIDIRECTIONAL"; "LOAD"]).
  { revert E. repeat (match goal with |- context [match ?x with _ => _ end] => is_var x; destruct x; try discriminate end);
      intros _; cbn; tauto. }
  cbn in H. repeat (destruct H as [H|H]; [subst s; inversion E; subst d; vm_compute; eexists; split; reflexivity|]). destruct H.
Qed.

Definition price_row_of (rd : reader) (p : elem * elem) (r : bid_row) : Prop :=
  attr "TraderID" (fst p) = Some (bi_duid r)
  /\ (exists s, attr "TradeType" (snd p) = Some s /\ market_of s = Some (bi_type r))
  /\ match attr "Direction" (snd p) with Some s => direction_of s = bi_dir r | None => bi_dir r = direction_of_type (fst p) end
  /\ bi_cells r = price_cells rd (fst p) (snd p) price_columns.

Lemma price_read rd root ts ps : trader_list root ts -> with_trades price_trades ts ps ->
  (forall p, In p ps -> prices_readable rd p) ->
  exists rows, price_bids rd (document root) = Got rows /\ Forall2 (price_row_of rd) ps rows.
Proof.
  intros L W O.
  destruct (raw_read price_trades (price_raw rd)
              (raw_of price_directions
                 (fun p d => match attr "Direction" (snd p) with Some s => direction_of s = d | None => d = direction_of_type (fst p) end)
                 (fun p l => l = price_cells rd (fst p) (snd p) price_columns))
              (prices_readable rd) ts ps W O) as (raws & E & S).
  { intros t l _ H Hl. unfold price_raw.
    rewrite (trades_read ["TradePriceStructureCollection"; "TradePriceStructure"; "TradeTypePriceStructureCollection"]
               "TradeTypePriceStructure" t l ltac:(plain) ltac:(plain) H). cbn [xbind].
    clear H. induction l as [|tr l IH]; [exists []; split; [reflexivity|constructor]|].
    destruct IH as (rs & E & S); [intros x Hx; apply Hl; right; exact Hx|].
    destruct (Hl tr (or_introl eq_refl)) as (I & R & Y). cbn [fst snd] in I, R, Y.
    destruct (attr "TraderID" t) as [id|] eqn:D; [|congruence].
    pose proof R as R'. destruct R' as ((s & T & M) & Q & P).
    pose proof (attr_attrs _ _ _ T) as N.
    assert (Y' : attr "Direction" tr = None -> attr "TraderType" t <> None).
    { intros X Z. apply (Y X). unfold direction_of_type. rewrite Z. reflexivity. }
    set (row := ("BIDTYPE", VStr s) :: ("DIRECTION", price_cell rd t tr "Direction") :: price_cells rd t tr price_columns).
    assert (V : each (fun n : string * string => do x <- price_value rd (parse t) (parse tr) (snd n); Got (fst n, x)) price_names = Got row).
    { rewrite price_names_are.
      assert (G : row = map (fun p => (fst p, price_cell rd t tr (snd p))) (("BIDTYPE", "TradeType") :: ("DIRECTION", "Direction") :: price_columns)).
      { unfold row, price_cells. cbn [map fst snd]. f_equal. unfold price_cell. rewrite T. reflexivity. }
      rewrite G.
      apply each_forall2.
      assert (Z : forall c a, In (c, a) (("BIDTYPE", "TradeType") :: ("DIRECTION", "Direction") :: price_columns) ->
                forall x, attr a tr = Some x -> parses rd a x).
      { intros c a [X|[X|X]] x K; [inversion X; left; reflexivity|inversion X; right; left; reflexivity|].
        right; right. exact (P c a x X K). }
      revert Z. clear -N Y'. generalize (("BIDTYPE", "TradeType") :: ("DIRECTION", "Direction") :: price_columns).
      intros l Z. induction l as [|[c a] l IH]; cbn [map]; constructor.
      - cbn [at_sign fst snd]. rewrite (price_value_read rd t tr a N (Z c a (or_introl eq_refl)) Y'). reflexivity.
      - apply IH. intros c' a' I'. apply (Z c' a'). right; exact I'. }
    exists ((id, row) :: rs). cbn [map each].
    rewrite (text_attr "TraderID" t id D) in E |- *. cbn [xbind] in E |- *.
    rewrite V. cbn [xbind]. rewrite E. cbn [xbind]. split; [reflexivity|].
    constructor; [|exact S]. split; [exact D|]. cbn [fst snd].
    destruct (market_of s) as [m|] eqn:M'; [|congruence].
    assert (K : exists x d, price_cell rd t tr "Direction" = VStr x /\ direction_of x = Some d
                /\ match attr "Direction" tr with Some s => direction_of s = Some d | None => Some d = direction_of_type t end).
    { unfold price_cell. destruct (attr "Direction" tr) as [x|] eqn:DD.
      - destruct (direction_of x) as [d|] eqn:Dx; [|exfalso; exact (Q x eq_refl Dx)]. exists x, d. auto.
      - specialize (Y' eq_refl). specialize (Y eq_refl). destruct (attr "TraderType" t) as [y|] eqn:TT; [|congruence].
        destruct (direction_of_type t) as [d|] eqn:DT; [|congruence].
        destruct (usual_is t y TT d DT) as (x & X1 & X2). exists x, d. auto. }
    destruct K as (x & d & K1 & K2 & K3).
    exists s, m, x, (Some d), (price_cells rd t tr price_columns).
    split; [exact T|]. split; [exact M'|]. split; [unfold row; rewrite K1; reflexivity|].
    split; [apply direction_map_price, K2|].
    split; [apply (numbers_all price_columns); [vm_compute; reflexivity|unfold price_cells; rewrite map_map; reflexivity]|].
    split; [exact K3|reflexivity]. }
  destruct (renamed_raw _ _ _ _ _ S) as (rows & E' & F).
  exists rows. split; [|exact F].
  unfold price_bids. rewrite (traders_read root ts L). cbn [xbind iter]. rewrite E. cbn [xbind]. exact E'.
Qed.

Lemma price_cells_get rd t tr cols c a : NoDup (map fst cols) -> In (c, a) cols ->
  dget c (price_cells rd t tr cols) = Some (price_cell rd t tr a).
Proof.
  induction cols as [|[c' a'] r IH]; intros D I; [destruct I|].
  cbn in D. inversion_clear D as [|? ? D1 D2]. cbn [price_cells map dget fst snd]. destruct I as [I|I].
  - inversion I; subst. rewrite String.eqb_refl. reflexivity.
  - destruct (String.eqb_spec c c') as [->|_].
    + exfalso; apply D1. change c' with (fst (c', a)). apply in_map, I.
    + apply IH; assumption.
Qed.

Lemma price_not_text c a : In (c, a) price_columns -> String.eqb a "TradeType" || String.eqb a "Direction" = false.
Proof. intros I. cbn in I. repeat (destruct I as [I|I]; [inversion I; subst; reflexivity|]). destruct I. Qed.
Lemma volume_not_text c a : In (c, a) volume_columns -> String.eqb a "TradeType" || String.eqb a "Direction" = false.
Proof. intros I. cbn in I. repeat (destruct I as [I|I]; [inversion I; subst; reflexivity|]). destruct I. Qed.

Lemma price_bids_rows rd root ts ps : trader_list root ts -> with_trades price_trades ts ps ->
  (forall p, In p ps -> prices_readable rd p) ->
  exists rows, price_bids rd (document root) = Got rows /\ Forall2 (row_of rd price_columns direction_of_type) ps rows.
Proof.
  intros L W O. destruct (price_read rd root ts ps L W O) as (rows & E & F).
  exists rows. split; [exact E|]. clear -F.
  induction F as [|p r ps rows (A & B & C & D) _ IH]; constructor; [|exact IH].
  split; [exact A|]. split; [exact B|]. split; [exact C|]. rewrite D.
  split; [unfold price_cells; rewrite map_map; reflexivity|].
  intros c a q I (s & X & Y). rewrite (price_cells_get rd (fst p) (snd p) price_columns c a price_columns_distinct I).
  unfold price_cell, value_of. rewrite X, (price_not_text c a I), Y. reflexivity.
Qed.


Lemma volume_gaps rd root ts ps rows : period_list root ts -> with_trades volume_trades ts ps ->
  (forall p, In p ps -> volumes_readable rd p) ->
  volume_bids rd (document root) = Got rows -> Forall2 carried_over ps rows.
Proof.
  intros L W O E. destruct (volume_read rd root ts ps L W O) as (rows' & E' & F).
  rewrite E in E'; inversion E'; subst rows'. clear -F.
  induction F as [|p r ps rows (A & B & C & D) _ IH]; constructor; [|exact IH].
  split.
  - intros pre b e c a post V N. rewrite D.
    assert (I : In (c, a) volume_columns) by (rewrite V; apply in_or_app; right; right; left; reflexivity).
    assert (M : a <> "Direction").
    { intros ->. pose proof (volume_not_text c _ I). cbn in H. discriminate. }
    pose proof (cells_absent rd (snd p) c a volume_columns volume_columns_distinct (pre ++ [(b, e)]) post (dir_value (snd p))) as K.
    rewrite <- app_assoc in K. specialize (K V N M). rewrite K. rewrite rev_app_distr. cbn [rev app].
    assert (I' : In b (map fst (cells rd (snd p) (dir_value (snd p)) volume_columns))).
    { rewrite cells_keys, V, map_app. apply in_or_app; right; left; reflexivity. }
    destruct (dget b _) as [v|] eqn:G; [reflexivity|]. exfalso. revert G I'. clear.
    generalize (cells rd (snd p) (dir_value (snd p)) volume_columns).
    induction l as [|[k v] l IH]; cbn; [tauto|]. destruct (String.eqb_spec b k); [discriminate|]. intros G [X|X]; [congruence|tauto].
  - intros N. rewrite D. pose proof (cells_absent rd (snd p) "MAXAVAIL" "MaxAvail" volume_columns volume_columns_distinct [] (tl volume_columns) (dir_value (snd p)) eq_refl N) as K.
    rewrite K by discriminate. cbn [rev]. unfold dir_value. destruct (attr "Direction" (snd p)); reflexivity.
Qed.

Lemma price_gaps rd root ts ps rows : trader_list root ts -> with_trades price_trades ts ps ->
  (forall p, In p ps -> prices_readable rd p) ->
  price_bids rd (document root) = Got rows -> Forall2 direction_in_gaps ps rows.
Proof.
  intros L W O E. destruct (price_read rd root ts ps L W O) as (rows' & E' & F).
  rewrite E in E'; inversion E'; subst rows'. clear -F O.
  induction F as [|p r ps rows (A & B & C & D) _ IH]; constructor; [|apply IH; intros x Hx; apply O; right; exact Hx].
  destruct (O p (or_introl eq_refl)) as (_ & _ & Y).
  intros c a I N. rewrite D, (price_cells_get rd (fst p) (snd p) price_columns c a price_columns_distinct I).
  unfold price_cell. rewrite N. destruct (attr "Direction" (snd p)); [reflexivity|].
  specialize (Y eq_refl). destruct (direction_of_type (fst p)) as [d|] eqn:DT; [|congruence].
  destruct (attr "TraderType" (fst p)) as [y|] eqn:TT; [|unfold direction_of_type in DT; rewrite TT in DT; discriminate].
  destruct (usual_is (fst p) y TT d DT) as (x & X1 & X2). rewrite X1.
  assert (H : x = "GEN" /\ d = "GENERATOR" \/ x = "LOAD" /\ d = "LOAD").
  { revert X2. unfold direction_of. clear.
    repeat (match goal with |- context [match ?x with _ => _ end] => is_var x; destruct x; try discriminate end);
      intros E; inversion E; auto. }
  destruct H as [[-> ->]|[-> ->]]; reflexivity.
Qed.
