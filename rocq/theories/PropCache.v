(** The numbering of dispatch intervals, the names of the case files and what a cache
    manager has loaded. *)

From Coq Require Import ZArith Ascii String List Bool Lia.
Import ListNotations.
From Verif Require Import PandasModel CacheModel SpecCache CalendarFacts CacheFacts.
Open Scope string_scope.
Open Scope list_scope.
Open Scope Z_scope.

(** ** C38: interval numbers and file names *)

(** The day before and the day after in the calendar are those of the day count, and
    different dates have different counts. *)
Theorem C38_days : forall d, valid_date d ->
  ordinal (prev_day d) = ordinal d - 1 /\ ordinal (next_day d) = ordinal d + 1 /\ valid_date (next_day d)
  /\ (2 <= d_year d -> valid_date (prev_day d)) /\ (forall d', valid_date d' -> before d d' -> ordinal d < ordinal d').
Proof.
  intros d V. split; [exact (prev_ordinal d V)|]. split; [exact (next_ordinal d V)|]. split; [exact (next_valid d V)|].
  split; [exact (prev_valid d V)|]. intros d' V' B. exact (ordinal_mono d d' V V' B).
Qed.
Print Assumptions C38_days.

Example cx_leap : valid_date (Date 2024 3 1) /\ prev_day (Date 2024 3 1) = Date 2024 2 29 /\ next_day (Date 2024 12 31) = Date 2025 1 1.
Proof. unfold valid_date. cbn. repeat split; lia. Qed.

(** Every time has a number from 1 to 288, which tells how many five minutes have passed
    since four o'clock of its market day. *)
Theorem C38_number : forall t, valid_time t ->
  1 <= interval_number t <= 288 /\ (dispatch_time t -> valid_date (market_date t) /\ nth_interval (market_date t) (interval_number t) t).
Proof.
  intros t V. split; [exact (number_range t V)|]. intros D. split; [exact (market_valid t V (proj1 (proj2 D)))|exact (number_meaning t D)].
Qed.
Print Assumptions C38_number.

(** No other market day and number fit. *)
Theorem C38_unique : forall t d n, dispatch_time t -> valid_date d -> 1 <= n <= 288 -> nth_interval d n t -> d = market_date t /\ n = interval_number t.
Proof. exact number_unique. Qed.
Print Assumptions C38_unique.

(** Five past four is the first interval of its day and four o'clock the last one of
    the day before. *)
Theorem C38_ends : forall d, valid_date d -> 2 <= d_year d ->
  market_date (DateTime d 4 5 0) = d /\ interval_number (DateTime d 4 5 0) = 1
  /\ market_date (DateTime d 4 0 0) = prev_day d /\ interval_number (DateTime d 4 0 0) = 288.
Proof.
  intros d V Y. destruct (number_first d V) as [A B]. destruct (number_last d V Y) as [C D]. exact (conj A (conj B (conj C D))).
Qed.
Print Assumptions C38_ends.

(** Consecutive intervals have consecutive numbers. *)
Theorem C38_next : forall a b, dispatch_time a -> dispatch_time b -> moment b = moment a + 300 ->
  (market_date b = market_date a /\ interval_number b = interval_number a + 1 /\ interval_number a < 288)
  \/ (market_date b = next_day (market_date a) /\ interval_number b = 1 /\ interval_number a = 288).
Proof. exact number_next. Qed.
Print Assumptions C38_next.

Example cx_midnight : dispatch_time (DateTime (Date 2024 3 1) 0 0 0) /\ dispatch_time (DateTime (Date 2024 2 29) 23 55 0)
  /\ moment (DateTime (Date 2024 3 1) 0 0 0) = moment (DateTime (Date 2024 2 29) 23 55 0) + 300
  /\ market_date (DateTime (Date 2024 3 1) 0 0 0) = Date 2024 2 29 /\ interval_number (DateTime (Date 2024 3 1) 0 0 0) = 240
  /\ nth_interval (Date 2024 2 29) 240 (DateTime (Date 2024 3 1) 0 0 0).
Proof. unfold dispatch_time, valid_time, valid_date, nth_interval. cbn. repeat split; lia. Qed.

(** Different intervals have different names, whichever of the two files is chosen. *)
Theorem C38_names : forall (C : Type) (fs fs' : files C) a b, dispatch_time a -> dispatch_time b ->
  a <> b -> name a <> name b /\ name_ocd a <> name_ocd b /\ name a <> name_ocd b /\ file_name fs a <> file_name fs' b.
Proof.
  intros C fs fs' a b A B N. split; [intros E; exact (N (name_inj _ a b A B E))|]. split; [intros E; exact (N (name_inj _ a b A B E))|].
  split; [exact (names_apart a b)|]. intros E. exact (N (file_name_inj fs fs' a b A B E)).
Qed.
Print Assumptions C38_names.

(** The example of the documentation. *)
Example cx_name : name (DateTime (Date 2024 7 10) 12 5 0) = "NEMSPDOutputs_2024071009700.loaded"
  /\ name_ocd (DateTime (Date 2024 7 10) 12 5 0) = "NEMSPDOutputs_2024071009700_OCD.loaded".
Proof. vm_compute. auto. Qed.

(** The file chosen is the ordinary one if it exists and else that of the re-run; an
    interval is in the cache if one of them exists. *)
Theorem C38_file : forall (C : Type) (fs : files C) t,
  (forall c, dget (file_name fs t) fs = Some c <-> dget (name t) fs = Some c \/ (dget (name t) fs = None /\ dget (name_ocd t) fs = Some c))
  /\ (in_cache fs t = true <-> exists c, dget (name t) fs = Some c \/ dget (name_ocd t) fs = Some c).
Proof. intros C fs t. split; [exact (file_exists fs t)|exact (in_cache_iff fs t)]. Qed.
Print Assumptions C38_file.

(** Of an interval in the cache the loader says it is a re-run if the ordinary file is
    absent. *)
Theorem C38_rerun : forall (C : Type) (fs : files C) t, in_cache fs t = true ->
  (is_rerun fs t = true <-> dget (name t) fs = None /\ exists c, dget (name_ocd t) fs = Some c).
Proof.
  intros C fs t I. rewrite rerun_iff. split; [|tauto]. intros N. split; [exact N|]. apply in_cache_iff in I. destruct I as [c [I|I]]; [congruence|now exists c].
Qed.
Print Assumptions C38_rerun.

Definition cx_time : datetime := DateTime (Date 2024 7 10) 12 5 0.
Definition cx_later : datetime := DateTime (Date 2024 7 10) 12 10 0.
Definition cx_files : files nat := [("NEMSPDOutputs_2024071009700_OCD.loaded", 97%nat); ("NEMSPDOutputs_2024071009800.loaded", 98%nat)].
Example cx_rerun : in_cache cx_files cx_time = true /\ is_rerun cx_files cx_time = true /\ in_cache cx_files cx_later = true /\ is_rerun cx_files cx_later = false.
Proof. vm_compute. auto. Qed.

(** Outside of the cache every interval is said to be a re-run. *)
Theorem C38_absent_refuted : exists (fs : files nat) t, dispatch_time t /\ dget (name_ocd t) fs = None /\ is_rerun fs t = true.
Proof. exists [], cx_time. split; [unfold dispatch_time, valid_time, valid_date; cbn; repeat split; lia|]. split; reflexivity. Qed.
Print Assumptions C38_absent_refuted.

(** ** C39: the loaded data belong to the interval *)

(** After any history of loads the manager is at the interval of the last one.  If this
    load succeeded, the data are those of the interval. *)
Theorem C39_success_partial : forall (C : Type) (of : C -> datetime) steps t w m', dispatch_time t -> honest of w ->
  load_interval t w (loads steps fresh) = (m', None) -> exists c, m' = Manager (Some t) (Some c) /\ of c = t.
Proof. intros C of steps t w m' T W H. exact (honest_ok of t w (loads steps fresh) m' T W H). Qed.
Print Assumptions C39_success_partial.

(** If it failed, they are those of the last load that succeeded. *)
Theorem C39_failure : forall (C : Type) steps t (w : world C) m' e,
  load_interval t w (loads steps fresh) = (m', Some e) -> m' = Manager (Some t) (mg_xml (loads steps fresh)).
Proof. intros C steps t w m' e H. exact (load_fails t w (loads steps fresh) m' e H). Qed.
Print Assumptions C39_failure.

(** MissingDataError is raised exactly if neither file is there before and after the
    download. *)
Theorem C39_missing : forall (C : Type) t (w : world C) m, snd (load_interval t w m) = Some MissingData <->
  in_cache (w_before w) t = false /\ w_raises w = false /\ in_cache (w_after w) t = false.
Proof. intros C t w m. exact (load_missing t w m). Qed.
Print Assumptions C39_missing.

Definition cx_world : world nat := World cx_files cx_files false (fun _ => false).
Definition cx_of (n : nat) : datetime := if (n =? 97)%nat then cx_time else cx_later.
Lemma cx_valid : dispatch_time cx_time /\ dispatch_time cx_later.
Proof. unfold dispatch_time, valid_time, valid_date; cbn; repeat split; lia. Qed.
Lemma cx_faithful : faithful cx_of cx_files.
Proof.
  intros t c T H.
  assert (N98 : name cx_later = "NEMSPDOutputs_2024071009800.loaded") by reflexivity.
  assert (N97 : name_ocd cx_time = "NEMSPDOutputs_2024071009700_OCD.loaded") by reflexivity.
  unfold cx_files in H. rewrite <- N98, <- N97 in H. cbn [dget] in H. destruct cx_valid as [V7 V8]. destruct H as [H|H].
  - destruct (String.eqb_spec (name t) (name_ocd cx_time)) as [E|_]; [exfalso; exact (names_apart _ _ E)|].
    destruct (String.eqb_spec (name t) (name cx_later)) as [E|_]; [|discriminate]. injection H as <-. symmetry. exact (name_inj _ _ _ T V8 E).
  - destruct (String.eqb_spec (name_ocd t) (name_ocd cx_time)) as [E|_].
    + injection H as <-. symmetry. exact (name_inj _ _ _ T V7 E).
    + destruct (String.eqb_spec (name_ocd t) (name cx_later)) as [E|_]; [|discriminate]. exfalso. exact (names_apart _ _ (eq_sym E)).
Qed.
Example cx_honest : honest cx_of cx_world /\ load_interval cx_later cx_world (loads [(cx_time, cx_world); (DateTime (Date 2024 7 11) 0 0 0, cx_world)] fresh) = (Manager (Some cx_later) (Some 98%nat), None).
Proof. split; [split; exact cx_faithful|]. vm_compute. reflexivity. Qed.

(** After a failed load the manager is at the new interval with the data of the old
    one, and the exception can be handled, as the search for violations does. *)
Theorem C39_failure_refuted : exists (C : Type) (of : C -> datetime) steps t c,
  Forall (fun s => dispatch_time (fst s) /\ honest of (snd s)) steps
  /\ mg_interval (loads steps fresh) = Some t /\ mg_xml (loads steps fresh) = Some c /\ of c <> t.
Proof.
  exists nat, cx_of, [(cx_time, cx_world); (DateTime (Date 2024 7 11) 0 0 0, cx_world)], (DateTime (Date 2024 7 11) 0 0 0), 97%nat.
  split.
  - apply Forall_forall. intros s [<-|[<-|[]]]; (split; [|split; exact cx_faithful]).
    + exact (proj1 cx_valid).
    + unfold dispatch_time, valid_time, valid_date; cbn; repeat split; lia.
  - split; [vm_compute; reflexivity|]. split; [vm_compute; reflexivity|]. vm_compute. discriminate.
Qed.
Print Assumptions C39_failure_refuted.

(** The search for intervals with violations reports the first ones, each with the
    violations of its own file, though it passes over failed loads. *)
Theorem C39_search : forall (C : Type) (violations : C -> list string) limit steps m m' hits,
  search violations limit steps [] m = (m', hits, None) -> hits = firstn limit (flat_map (violated violations) steps).
Proof.
  intros C violations limit steps m m' hits H. pose proof (search_exact violations limit steps [] m m' hits (Nat.le_0_l _) H) as E.
  cbn [length List.app] in E. rewrite Nat.sub_0_r in E. exact E.
Qed.
Print Assumptions C39_search.

Theorem C39_search_own : forall (C : Type) (violations : C -> list string) limit (of : C -> datetime) steps m m' hits e,
  (forall s, In s steps -> dispatch_time (fst s) /\ honest of (snd s)) -> search violations limit steps [] m = (m', hits, e) ->
  forall h, In h hits -> exists c, of c = fst h /\ snd h = violations c /\ snd h <> [] /\ In (fst h) (map fst steps).
Proof.
  intros C violations limit of steps m m' hits e G H h I. destruct (search_hits violations limit of steps [] m m' hits e G H h I) as [[]|K]. exact K.
Qed.
Print Assumptions C39_search_own.

Example cx_search : search (fun n => if (n =? 98)%nat then ["regional_demand"] else []) 3 [(cx_time, cx_world); (DateTime (Date 2024 7 11) 0 0 0, cx_world); (cx_later, cx_world)] [] fresh
  = (Manager (Some cx_later) (Some 98%nat), [(cx_later, ["regional_demand"])], None).
Proof. vm_compute. reflexivity. Qed.

(** ** C49: filling the cache *)

(** Filling the cache for a range of months asks for the market day of every interval
    from the first to the last day. *)
Theorem C49_months : forall y m y' m' t, 2 <= y -> 1 <= m <= 12 -> 2 <= y' -> 1 <= m' <= 12 -> dispatch_time t ->
  ordinal (Date y m 1) <= ordinal (t_date t) <= ordinal (Date y' m' (days_in_month y' m')) ->
  In (market_date t) (map archive_of (populate_months y m y' m')).
Proof. exact months_covered. Qed.
Print Assumptions C49_months.

(** Filling it for a range of days asks for the intervals before five past four of the
    last day. *)
Theorem C49_days_partial : forall first last t, valid_date first -> 2 <= d_year first -> dispatch_time t ->
  (In (market_date t) (map archive_of (populate_days first last))
   <-> moment (DateTime first 4 0 0) - 2 * 86400 < moment t <= moment (DateTime last 4 0 0)).
Proof. exact days_covered. Qed.
Print Assumptions C49_days_partial.

Example cx_months : dispatch_time (DateTime (Date 2024 2 29) 23 55 0) /\ ordinal (Date 2023 12 1) <= ordinal (Date 2024 2 29) <= ordinal (Date 2024 2 (days_in_month 2024 2)).
Proof. unfold dispatch_time, valid_time, valid_date. cbn. repeat split; try lia; vm_compute; discriminate. Qed.

(** The rest of the last day is not covered, though the function says the range includes
    it. *)
Theorem C49_days_refuted : exists first last t, valid_date first /\ valid_date last /\ dispatch_time t /\ t_date t = last
  /\ ordinal first <= ordinal last /\ ~ In (market_date t) (map archive_of (populate_days first last)).
Proof.
  exists (Date 2024 7 9), (Date 2024 7 10), cx_time. split; [unfold valid_date; cbn; lia|]. split; [unfold valid_date; cbn; lia|].
  split; [exact (proj1 cx_valid)|]. split; [reflexivity|]. split; [vm_compute; discriminate|]. vm_compute. intuition discriminate.
Qed.
Print Assumptions C49_days_refuted.
