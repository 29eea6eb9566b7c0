(** Lemmas about the calendar and interval numbers. *)

From Coq Require Import ZArith String List Bool Lia.
Import ListNotations.
From Verif Require Import PandasModel CacheModel SpecCache.
Open Scope string_scope.
Open Scope list_scope.
Open Scope Z_scope.

Ltac Zify.zify_post_hook ::= Z.to_euclidean_division_equations.

Lemma year_days : forall y, days_before_year (y + 1) = days_before_year y + 365 + (if leap y then 1 else 0).
Proof.
  intros y. unfold days_before_year, leap. cbn zeta.
  destruct (Z.eqb_spec (y mod 4) 0), (Z.eqb_spec (y mod 100) 0), (Z.eqb_spec (y mod 400) 0); cbn [andb orb negb]; lia.
Qed.
Lemma year_mono : forall a b, a <= b -> days_before_year a + 365 * (b - a) <= days_before_year b.
Proof. intros a b H. unfold days_before_year. cbn zeta. lia. Qed.

Lemma months : forall m, 1 <= m <= 12 -> m = 1 \/ m = 2 \/ m = 3 \/ m = 4 \/ m = 5 \/ m = 6 \/ m = 7 \/ m = 8 \/ m = 9 \/ m = 10 \/ m = 11 \/ m = 12.
Proof. intros; lia. Qed.
Ltac each_month H := apply months in H; destruct H as [->|[->|[->|[->|[->|[->|[->|[->|[->|[->|[->| ->]]]]]]]]]]].

Ltac monthly y := unfold days_before_month, days_in_month; destruct (leap y); vm_compute; intuition (try discriminate; try reflexivity).
Lemma month_next : forall y m, 1 <= m < 12 -> days_before_month y (m + 1) = days_before_month y m + days_in_month y m.
Proof. intros y m H. assert (M : 1 <= m <= 12) by lia. each_month M; try lia; monthly y. Qed.
Lemma month_last : forall y, days_before_month y 12 + 31 = 365 + (if leap y then 1 else 0).
Proof. intros y. monthly y. Qed.
Lemma month_mono : forall y a b, 1 <= a -> a < b -> b <= 12 -> days_before_month y a + days_in_month y a <= days_before_month y b.
Proof.
  intros y a b A L B. assert (Ma : 1 <= a <= 12) by lia. assert (Mb : 1 <= b <= 12) by lia.
  each_month Ma; each_month Mb; try lia; clear; monthly y.
Qed.
Lemma month_first : forall y m, 1 <= m <= 12 -> 0 <= days_before_month y m.
Proof. intros y m M. each_month M; monthly y. Qed.
Lemma month_size : forall y m, 1 <= m <= 12 -> 28 <= days_in_month y m <= 31.
Proof. intros y m M. each_month M; monthly y. Qed.
Lemma month_end : forall y m, 1 <= m <= 12 -> days_before_month y m + days_in_month y m <= 365 + (if leap y then 1 else 0).
Proof. intros y m M. each_month M; monthly y. Qed.
Lemma in_year : forall y m d, 1 <= m <= 12 -> 1 <= d <= days_in_month y m -> days_before_month y m + d <= 365 + (if leap y then 1 else 0).
Proof. intros y m d M D. pose proof (month_end y m M). lia. Qed.

Lemma ordinal_mono : forall a b, valid_date a -> valid_date b -> before a b -> ordinal a < ordinal b.
Proof.
  intros [y m d] [y' m' d'] [A1 [A2 A3]] [B1 [B2 B3]] H. unfold before, ordinal in *. cbn in *. destruct H as [H|[<- [H|[<- H]]]].
  - pose proof (in_year y m d A2 A3). pose proof (year_days y). pose proof (year_mono (y + 1) y' ltac:(lia)). pose proof (month_first y' m' B2).
    destruct (leap y); lia.
  - pose proof (month_mono y m m' ltac:(lia) H ltac:(lia)). lia.
  - lia.
Qed.
Lemma ordinal_inj : forall a b, valid_date a -> valid_date b -> ordinal a = ordinal b -> a = b.
Proof.
  intros [y m d] [y' m' d'] A B E.
  assert (T : before (Date y m d) (Date y' m' d') \/ before (Date y' m' d') (Date y m d) \/ (y = y' /\ m = m' /\ d = d')) by (unfold before; cbn; lia).
  destruct T as [T|[T|[-> [-> ->]]]]; [| |reflexivity].
  - apply ordinal_mono in T; auto. lia.
  - apply ordinal_mono in T; auto. lia.
Qed.

Lemma prev_valid : forall d, valid_date d -> 2 <= d_year d -> valid_date (prev_day d).
Proof.
  intros [y m d] [A [B C]] L. unfold prev_day. cbn in *. destruct (Z.ltb_spec 1 d); [unfold valid_date; cbn; lia|].
  destruct (Z.ltb_spec 1 m).
  - unfold valid_date; cbn. pose proof (month_size y (m - 1) ltac:(lia)). lia.
  - unfold valid_date, days_in_month. cbn. lia.
Qed.
Lemma prev_ordinal : forall d, valid_date d -> ordinal (prev_day d) = ordinal d - 1.
Proof.
  intros [y m d] [A [B C]]. unfold prev_day, ordinal. cbn in *. destruct (Z.ltb_spec 1 d); [cbn; lia|]. destruct (Z.ltb_spec 1 m); cbn [d_year d_month d_day].
  - pose proof (month_next y (m - 1) ltac:(lia)) as N. replace (m - 1 + 1) with m in N by lia. lia.
  - assert (m = 1) by lia. subst m. pose proof (month_last (y - 1)). pose proof (year_days (y - 1)) as Y. replace (y - 1 + 1) with y in Y by lia.
    assert (F : days_before_month y 1 = 0) by reflexivity. lia.
Qed.
Lemma next_valid : forall d, valid_date d -> valid_date (next_day d).
Proof.
  intros [y m d] [A [B C]]. unfold next_day. cbn in *. destruct (Z.ltb_spec d (days_in_month y m)); [unfold valid_date; cbn; lia|].
  destruct (Z.ltb_spec m 12).
  - unfold valid_date; cbn. pose proof (month_size y (m + 1) ltac:(lia)). lia.
  - unfold valid_date, days_in_month. cbn. lia.
Qed.
Lemma next_ordinal : forall d, valid_date d -> ordinal (next_day d) = ordinal d + 1.
Proof.
  intros [y m d] [A [B C]]. unfold next_day, ordinal. cbn in *. destruct (Z.ltb_spec d (days_in_month y m)); [cbn; lia|].
  destruct (Z.ltb_spec m 12); cbn [d_year d_month d_day].
  - pose proof (month_next y m ltac:(lia)). lia.
  - assert (m = 12) by lia. subst m. pose proof (month_last y). pose proof (year_days y).
    assert (F : days_before_month (y + 1) 1 = 0) by reflexivity. assert (G : days_in_month y 12 = 31) by reflexivity. lia.
Qed.

(** ** Interval numbers *)

Lemma market_valid : forall t, valid_time t -> 2 <= d_year (t_date t) -> valid_date (market_date t).
Proof. intros t [D _] Y. unfold market_date. destruct (_ <? _); [now apply prev_valid|exact D]. Qed.

Lemma market_start : forall t, valid_time t -> 0 <= moment t - moment (DateTime (market_date t) 4 5 0) < 86400.
Proof.
  intros t [D [H [M S]]]. unfold market_date, moment. cbn [t_date t_hour t_min t_sec]. destruct (Z.ltb_spec (60 * t_hour t + t_min t) (60 * 4 + 5)) as [L|L].
  - rewrite prev_ordinal by exact D. lia.
  - lia.
Qed.
Lemma number_range : forall t, valid_time t -> 1 <= interval_number t <= 288.
Proof.
  intros t V. unfold interval_number. pose proof (market_start t V) as B. rewrite Z.quot_div_nonneg by lia. lia.
Qed.
Lemma number_meaning : forall t, dispatch_time t -> nth_interval (market_date t) (interval_number t) t.
Proof.
  intros t [V [_ [M S]]]. unfold nth_interval, interval_number. pose proof (market_start t V) as B. rewrite Z.quot_div_nonneg by lia.
  assert (D : (moment t - moment (DateTime (market_date t) 4 5 0)) mod 300 = 0).
  { unfold moment. cbn [t_date t_hour t_min t_sec]. destruct V as [_ [_ [V _]]]. rewrite S. lia. }
  unfold moment in *. cbn [t_date t_hour t_min t_sec] in *. lia.
Qed.
Lemma number_unique : forall t d n, dispatch_time t -> valid_date d -> 1 <= n <= 288 -> nth_interval d n t -> d = market_date t /\ n = interval_number t.
Proof.
  intros t d n T D N I. pose proof (number_meaning t T) as J. pose proof (number_range t (proj1 T)) as R. unfold nth_interval in *.
  assert (E : ordinal d = ordinal (market_date t)) by lia. split; [|lia]. apply ordinal_inj; auto. apply market_valid; apply T.
Qed.
Lemma moment_inj : forall a b, valid_time a -> valid_time b -> moment a = moment b -> a = b.
Proof.
  intros [d h m s] [d' h' m' s'] [A1 [A2 [A3 A4]]] [B1 [B2 [B3 B4]]]. unfold moment. cbn [t_date t_hour t_min t_sec] in *. intros E.
  assert (O : ordinal d = ordinal d') by lia. assert (h = h') by lia. subst h'. assert (m = m') by lia. subst m'. assert (s = s') by lia. subst s'. f_equal. now apply ordinal_inj.
Qed.
Lemma number_inj : forall a b, dispatch_time a -> dispatch_time b -> market_date a = market_date b -> interval_number a = interval_number b -> a = b.
Proof.
  intros a b A B D N. apply moment_inj; [apply A|apply B|]. pose proof (number_meaning a A) as X. pose proof (number_meaning b B) as Y.
  unfold nth_interval in *. rewrite D, N in X. lia.
Qed.
Lemma number_first : forall d, valid_date d -> market_date (DateTime d 4 5 0) = d /\ interval_number (DateTime d 4 5 0) = 1.
Proof. intros d V. split; [reflexivity|]. unfold interval_number. change (market_date (DateTime d 4 5 0)) with d. rewrite Z.sub_diag. reflexivity. Qed.
Lemma number_last : forall d, valid_date d -> 2 <= d_year d -> market_date (DateTime d 4 0 0) = prev_day d /\ interval_number (DateTime d 4 0 0) = 288.
Proof.
  intros d V Y. split; [reflexivity|]. unfold interval_number, moment. change (market_date (DateTime d 4 0 0)) with (prev_day d). cbn [t_date t_hour t_min t_sec].
  rewrite prev_ordinal by exact V. replace (86400 * ordinal d + 3600 * 4 + 60 * 0 + 0 - (86400 * (ordinal d - 1) + 3600 * 4 + 60 * 5 + 0)) with (287 * 300) by lia. reflexivity.
Qed.
Lemma number_next : forall a b, dispatch_time a -> dispatch_time b -> moment b = moment a + 300 ->
  (market_date b = market_date a /\ interval_number b = interval_number a + 1 /\ interval_number a < 288)
  \/ (market_date b = next_day (market_date a) /\ interval_number b = 1 /\ interval_number a = 288).
Proof.
  intros a b A B E. pose proof (number_meaning a A) as X. pose proof (number_range a (proj1 A)) as R. unfold nth_interval in X.
  assert (Va : valid_date (market_date a)) by (apply market_valid; apply A).
  destruct (Z.eq_dec (interval_number a) 288) as [L|L].
  - right. destruct (number_unique b (next_day (market_date a)) 1 B) as [P Q]; [now apply next_valid|lia| |].
    + unfold nth_interval. rewrite next_ordinal by exact Va. lia.
    + auto.
  - left. destruct (number_unique b (market_date a) (interval_number a + 1) B Va) as [P Q]; [lia| |].
    + unfold nth_interval. lia.
    + repeat split; auto; lia.
Qed.

(** ** Filling the cache *)

Lemma days_from_in : forall n d last x, valid_date d -> valid_date x -> ordinal last - ordinal d < Z.of_nat n ->
  In x (days_from n d last) <-> ordinal d <= ordinal x <= ordinal last.
Proof.
  intros n. induction n as [|n IH]; intros d last x V Vx H; cbn [days_from].
  - split; [intros []|lia].
  - destruct (Z.leb_spec (ordinal d) (ordinal last)) as [L|L]; [|split; [intros []|lia]]. cbn [In].
    rewrite IH by (try apply next_valid; auto; rewrite next_ordinal by exact V; lia). rewrite next_ordinal by exact V. split.
    + intros [<-|K]; lia.
    + intros K. destruct (Z.eq_dec (ordinal d) (ordinal x)) as [E|E]; [left; now apply ordinal_inj|right; lia].
Qed.
Lemma populate_in : forall first last x, valid_date first -> 2 <= d_year first -> valid_date x ->
  In x (populate_days first last) <-> ordinal first - 1 <= ordinal x <= ordinal last.
Proof.
  intros first last x V Y Vx. unfold populate_days. rewrite days_from_in; [rewrite prev_ordinal by exact V; reflexivity|now apply prev_valid|exact Vx|].
  rewrite prev_ordinal by exact V. lia.
Qed.
Lemma archive_ordinal : forall d, valid_date d -> ordinal (archive_of d) = ordinal d - 1.
Proof. intros d V. unfold archive_of, market_date. cbn [t_hour t_min t_date]. change (60 * 0 + 0 <? 60 * 4 + 5) with true. now apply prev_ordinal. Qed.
Lemma days_from_valid : forall n d last x, valid_date d -> In x (days_from n d last) -> valid_date x.
Proof.
  intros n. induction n as [|n IH]; intros d last x V H; [destruct H|]. cbn [days_from] in H.
  destruct (ordinal d <=? ordinal last); [|destruct H]. destruct H as [<-|H]; [exact V|]. apply (IH (next_day d) last); [now apply next_valid|exact H].
Qed.
Lemma archive_next : forall x, valid_date x -> archive_of (next_day x) = x.
Proof.
  intros [y m d] [A [B C]]. cbn in *. unfold archive_of, market_date. cbn [t_hour t_min t_date]. change (60 * 0 + 0 <? 60 * 4 + 5) with true.
  cbv iota. unfold next_day. cbn [d_year d_month d_day]. destruct (Z.ltb_spec d (days_in_month y m)).
  - unfold prev_day. cbn [d_year d_month d_day]. destruct (Z.ltb_spec 1 (d + 1)); [f_equal; lia|lia].
  - destruct (Z.ltb_spec m 12); unfold prev_day; cbn [d_year d_month d_day]; change (1 <? 1) with false; cbv iota.
    + destruct (Z.ltb_spec 1 (m + 1)); [|lia]. replace (m + 1 - 1) with m by lia. f_equal. lia.
    + assert (m = 12) by lia. subst m. change (days_in_month y 12) with 31 in *. f_equal; lia.
Qed.
Lemma archives : forall first last x, valid_date first -> 2 <= d_year first -> valid_date x ->
  In x (map archive_of (populate_days first last)) <-> ordinal first - 2 <= ordinal x <= ordinal last - 1.
Proof.
  intros first last x V Y Vx. rewrite in_map_iff. split.
  - intros [d [<- H]]. assert (Vd : valid_date d) by (apply (days_from_valid _ _ _ _ (prev_valid _ V Y) H)).
    rewrite archive_ordinal by exact Vd. apply populate_in in H; auto. lia.
  - intros H. exists (next_day x). split; [now apply archive_next|].
    apply populate_in; auto; [now apply next_valid|]. rewrite next_ordinal by exact Vx. lia.
Qed.

Lemma month_after : forall y m, 1 <= y -> 1 <= m <= 12 -> let n := if m =? 12 then Date (y + 1) 1 1 else Date y (m + 1) 1 in
  valid_date n /\ ordinal n = ordinal (Date y m (days_in_month y m)) + 1.
Proof.
  intros y m Y M n. assert (V : valid_date (Date y m (days_in_month y m))) by (pose proof (month_size y m M); unfold valid_date; cbn; lia).
  assert (E : n = next_day (Date y m (days_in_month y m))).
  { unfold n, next_day. cbn [d_year d_month d_day]. rewrite Z.ltb_irrefl. destruct (Z.eqb_spec m 12), (Z.ltb_spec m 12); try lia; reflexivity. }
  rewrite E. split; [now apply next_valid|now apply next_ordinal].
Qed.
Lemma market_ordinal : forall t, dispatch_time t -> 86400 * ordinal (market_date t) + 4 * 3600 < moment t <= 86400 * ordinal (market_date t) + 4 * 3600 + 86400.
Proof. intros t T. pose proof (number_meaning t T) as X. pose proof (number_range t (proj1 T)) as R. unfold nth_interval in X. lia. Qed.
Lemma four : forall d, moment (DateTime d 4 0 0) = 86400 * ordinal d + 4 * 3600.
Proof. intros d. unfold moment. cbn [t_date t_hour t_min t_sec]. lia. Qed.
Lemma days_covered : forall first last t, valid_date first -> 2 <= d_year first -> dispatch_time t ->
  (In (market_date t) (map archive_of (populate_days first last))
   <-> moment (DateTime first 4 0 0) - 2 * 86400 < moment t <= moment (DateTime last 4 0 0)).
Proof.
  intros first last t V Y T. rewrite archives by (auto; apply market_valid; apply T). pose proof (market_ordinal t T) as M.
  rewrite !four. clear - M. lia.
Qed.
Lemma months_covered : forall y m y' m' t, 2 <= y -> 1 <= m <= 12 -> 2 <= y' -> 1 <= m' <= 12 -> dispatch_time t ->
  ordinal (Date y m 1) <= ordinal (t_date t) <= ordinal (Date y' m' (days_in_month y' m')) ->
  In (market_date t) (map archive_of (populate_months y m y' m')).
Proof.
  intros y m y' m' t Y M Y' M' T R. unfold populate_months. destruct (month_after y' m' ltac:(lia) M') as [_ O]. cbv zeta in O.
  apply days_covered; auto.
  - pose proof (month_size y m M). unfold valid_date; cbn; lia.
  - assert (D : 86400 * ordinal (t_date t) <= moment t < 86400 * ordinal (t_date t) + 86400) by (destruct T as [[_ [H1 [H2 H3]]] _]; unfold moment; lia).
    rewrite !four. clear - D O R. lia.
Qed.
