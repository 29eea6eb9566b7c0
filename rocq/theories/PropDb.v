(** The queries of the database and what it is filled with. *)

From Coq Require Import ZArith Ascii String List Bool Lia Sorting.Permutation Sorting.Sorted.
Import ListNotations.
From Verif Require Import PandasModel PandasFacts CacheModel SpecCache DbModel SpecDb CalendarFacts DbFacts FillFacts.
Open Scope string_scope.
Open Scope list_scope.
Open Scope Z_scope.

(** ** C40: the records in force *)

(** The order of the texts of two times is that of the times. *)
Theorem C40_stamp : forall a b, stamped a -> stamped b ->
  (text_le (stamp a) (stamp b) = true <-> moment a <= moment b) /\ (stamp a = stamp b -> a = b).
Proof. intros a b A B. split; [exact (stamp_order a b A B)|exact (stamp_inj a b A B)]. Qed.
Print Assumptions C40_stamp.

Example dx_stamp : stamp (DateTime (Date 2019 1 2) 4 5 0) = "2019/01/02 04:05:00" /\ stamped (DateTime (Date 2019 1 2) 4 5 0).
Proof. split; [vm_compute; reflexivity|]. unfold stamped, valid_time, valid_date. cbn. lia. Qed.

(** A query by effective date returns exactly the rows in effect, in the order of the
    table and as often as they are in it. *)
Theorem C40_effective : forall (A : Type) dt (table : list (dated A)),
  (forall r, In r (effective dt table) <-> in_effect dt table r) /\ exists keep, effective dt table = filter keep table.
Proof. intros A dt table. split; [exact (effective_iff dt table)|]. exists (chosen dt table). exact (effective_filter dt table). Qed.
Print Assumptions C40_effective.

(** For times and numbered versions: the latest date not after the query and the
    highest version of this date. *)
Theorem C40_entries : forall (A : Type) now (entries : list (entry A)), stamped now -> (forall e, In e entries -> stamped (n_time e)) ->
  forall e, In e entries -> (In (stored e) (effective (stamp now) (map stored entries)) <-> entry_in_effect now entries e).
Proof.
  intros A now entries N S e E. rewrite (effective_iff (stamp now) (map stored entries) (stored e)). exact (stored_in_effect now entries e N S E).
Qed.
Print Assumptions C40_entries.

(** The tables of interconnectors are restricted to those used in the interval. *)
Theorem C40_used : forall (A : Type) dt used (table : list (dated A)),
  (forall r, In r (effective_used dt used table) <-> in_effect dt table r /\ In (e_id r, dt) used)
  /\ (NoDup used -> exists keep, effective_used dt used table = filter keep table).
Proof. intros A dt used table. split; [exact (effective_used_iff dt used table)|exact (effective_used_filter dt used table)]. Qed.
Print Assumptions C40_used.

(** The example of the documentation, with a second version of X. *)
Definition dx_day (d : Z) : datetime := DateTime (Date 2019 1 d) 0 0 0.
Definition dx_entries : list (entry nat) :=
  [Entry ["X"] (dx_day 2) 1 10%nat; Entry ["X"] (dx_day 3) 2 20%nat; Entry ["Y"] (dx_day 1) 2 30%nat; Entry ["Y"] (dx_day 3) 3 40%nat; Entry ["X"] (dx_day 2) 2 50%nat; Entry ["X"] (dx_day 2) 2 60%nat].
Example dx_effective :
  map e_data (effective (stamp (dx_day 2)) (map stored dx_entries)) = [30; 50; 60]%nat
  /\ map e_data (effective_used (stamp (dx_day 2)) [(["X"], stamp (dx_day 2)); (["Y"], stamp (dx_day 3))] (map stored dx_entries)) = [50; 60]%nat
  /\ stamped (dx_day 2) /\ forall e, In e dx_entries -> stamped (n_time e).
Proof.
  split; [vm_compute; reflexivity|]. split; [vm_compute; reflexivity|]. split; [unfold stamped, valid_time, valid_date; cbn; lia|].
  intros e H. cbn in H. repeat (destruct H as [<-|H]; [unfold stamped, valid_time, valid_date; cbn; lia|]). destruct H.
Qed.

(** Versions stored as text, the type the database manager declares for the column, are
    not ordered as numbers: 9 is taken for later than 10. *)
Theorem C40_text_version_refuted : exists (table : list (dated nat)) dt r r',
  In r (effective dt table) /\ In r' table /\ e_id r' = e_id r /\ e_date r' = e_date r /\ text_le (e_date r') dt = true
  /\ e_version r = Text "9" /\ e_version r' = Text "10".
Proof.
  exists [Dated ["X"] "2019/01/01 00:00:00" (Text "9") 1%nat; Dated ["X"] "2019/01/01 00:00:00" (Text "10") 2%nat], "2019/01/02 00:00:00",
    (Dated ["X"] "2019/01/01 00:00:00" (Text "9") 1%nat), (Dated ["X"] "2019/01/01 00:00:00" (Text "10") 2%nat).
  split; [vm_compute; auto|]. split; [right; now left|]. repeat split.
Qed.
Print Assumptions C40_text_version_refuted.

(** A query by start date returns one row of every unit that has one by then, and no
    row of the unit starts later; the row is determined if no two rows of a unit start
    together. *)
Theorem C40_started : forall (A : Type) sort dt (table : list (spell A)), sorts sort ->
  (forall r, In r (started sort dt table) -> last_started dt table r)
  /\ NoDup (map s_unit (started sort dt table))
  /\ (forall r, In r table -> text_le (s_start r) dt = true -> exists r', In r' (started sort dt table) /\ s_unit r' = s_unit r)
  /\ (NoDup (map (fun r => (s_unit r, s_start r)) table) -> forall r, In r (started sort dt table) <-> last_started dt table r).
Proof.
  intros A sort dt table S. split; [exact (started_in sort S dt table)|]. split; [exact (started_nodup sort dt table)|].
  split; [exact (started_has sort S dt table)|]. intros N r. exact (started_iff sort S dt table r N).
Qed.
Print Assumptions C40_started.

Definition dx_sort : list (spell nat) -> list (spell nat) := sort_rows (fun a b => text_le (s_start a) (s_start b)).
Definition dx_spells : list (spell nat) :=
  [Spell "A" "2019/01/02 00:00:00" "2019/01/03 00:00:00" 2%nat; Spell "A" "2019/01/01 00:00:00" "2019/01/02 00:00:00" 1%nat; Spell "B" "2019/01/01 00:00:00" "2019/01/02 00:00:00" 3%nat; Spell "C" "2020/01/01 00:00:00" "2021/01/01 00:00:00" 4%nat].
Lemma dx_sorts : sorts dx_sort.
Proof.
  intros l. split; [apply sort_rows_perm|]. unfold dx_sort. apply StronglySorted_spell.
Qed.
Example dx_started : map s_data (started dx_sort "2019/01/02 12:00:00" dx_spells) = [3; 2]%nat
  /\ NoDup (map (fun r => (s_unit r, s_start r)) dx_spells).
Proof.
  split; [vm_compute; reflexivity|]. cbn. repeat (constructor; [cbn; intuition discriminate|]). constructor.
Qed.

(** The end date is not looked at, so a unit whose record has ended is returned, though
    the documentation says it is not. *)
Theorem C40_ended_refuted : exists dt (table : list (spell nat)) r, In r (started dx_sort dt table) /\ text_le (s_end r) dt = true.
Proof.
  exists "2019/01/02 12:00:00", dx_spells, (Spell "B" "2019/01/01 00:00:00" "2019/01/02 00:00:00" 3%nat). split; [vm_compute; auto|vm_compute; reflexivity].
Qed.
Print Assumptions C40_ended_refuted.

(** The tables by day are read at the market day the XML cache uses, and exactly the
    rows of this day are returned. *)
Theorem C40_day : forall (A : Type) t (table : list (datetime * A)), dispatch_time t -> d_year (t_date t) <= 9999 ->
  (forall r, In r table -> stamped (fst r)) -> forall r, In r table ->
  (In (stamp (fst r), snd r) (by_day t (map (fun r => (stamp (fst r), snd r)) table)) <-> fst r = DateTime (market_date t) 0 0 0).
Proof. exact by_day_iff. Qed.
Print Assumptions C40_day.

Example dx_day_rows : by_day (DateTime (Date 2019 1 2) 4 0 0) [("2019/01/01 00:00:00", 1%nat); ("2019/01/02 00:00:00", 2%nat)] = [("2019/01/01 00:00:00", 1%nat)]
  /\ by_day (DateTime (Date 2019 1 2) 4 5 0) [("2019/01/01 00:00:00", 1%nat); ("2019/01/02 00:00:00", 2%nat)] = [("2019/01/02 00:00:00", 2%nat)].
Proof. vm_compute. auto. Qed.

(** The tables by interval return exactly the rows of the time. *)
Theorem C40_time : forall (A : Type) t (table : list (datetime * A)), stamped t -> (forall r, In r table -> stamped (fst r)) -> forall r, In r table ->
  (In (stamp (fst r), snd r) (by_time (stamp t) (map (fun r => (stamp (fst r), snd r)) table)) <-> fst r = t).
Proof. exact by_time_iff. Qed.
Print Assumptions C40_time.

(** The tables of generic constraints return the rows of the constraints, dates and
    versions used in the interval. *)
Theorem C40_matched : forall (A : Type) dt dispatch (table : list (dated A)),
  (forall r, In r (matched dt dispatch table) <->
     In r table /\ exists d, In d dispatch /\ i_time d = dt /\ e_id r = [i_con d] /\ e_date r = i_date d /\ e_version r = i_version d)
  /\ (NoDup (map (fun d => (i_time d, i_con d)) dispatch) -> exists keep, matched dt dispatch table = filter keep table).
Proof. intros A dt dispatch table. split; [exact (matched_iff A dt dispatch table)|exact (matched_filter A dt dispatch table)]. Qed.
Print Assumptions C40_matched.

Definition dx_gens : list (dated nat) :=
  [Dated ["F_I+NIL"] "2019/01/01 00:00:00" (Num 1) 1%nat; Dated ["F_I+NIL"] "2019/01/01 00:00:00" (Num 2) 2%nat; Dated ["N>>N-NIL"] "2018/01/01 00:00:00" (Num 1) 3%nat].
Definition dx_invoked : list invoked :=
  [Invoked "2019/01/02 00:00:00" "F_I+NIL" "2019/01/01 00:00:00" (Num 2); Invoked "2019/01/02 00:05:00" "N>>N-NIL" "2018/01/01 00:00:00" (Num 1)].
Example dx_matched : map e_data (matched "2019/01/02 00:00:00" dx_invoked dx_gens) = [2%nat] /\ NoDup (map (fun d => (i_time d, i_con d)) dx_invoked).
Proof. split; [vm_compute; reflexivity|]. cbn. repeat (constructor; [cbn; intuition discriminate|]). constructor. Qed.

(** ** C41: the months asked for *)

(** Every table of results is asked for the months from the one before the start to
    the end, each once and in order, every table of records for the last month, and no
    other table for any. *)
Theorem C41_months : forall start last, is_month start -> is_month last -> month_index start <= month_index last ->
  let calls := populate (fst start) (snd start) (fst last) (snd last) in
  (forall t, In t result_tables -> from_to (month_index start - 1) (month_index last) (calls_of t calls))
  /\ (forall t, In t record_tables -> calls_of t calls <> [] /\ forall ym, In ym (calls_of t calls) -> ym = last)
  /\ (forall t, calls_of t calls <> [] -> In t result_tables \/ In t record_tables).
Proof. exact populate_calls. Qed.
Print Assumptions C41_months.

Example dx_months : is_month (2020, 1) /\ is_month (2020, 2) /\ month_index (2020, 1) <= month_index (2020, 2)
  /\ calls_of "DISPATCHLOAD" (populate 2020 1 2020 2) = [(2019, 12); (2020, 1); (2020, 2)]
  /\ calls_of "LOSSMODEL" (populate 2020 1 2020 2) = [(2020, 2)].
Proof. unfold is_month. cbn. repeat split; try lia; vm_compute; auto; discriminate. Qed.

(** A start up to two months after the end still asks for no month after the end. *)
Theorem C41_late_start : forall start last, is_month start -> is_month last -> month_index start <= month_index last + 2 ->
  from_to (month_index start - 1) (month_index last) (populate_months (fst start) (snd start) (fst last) (snd last)).
Proof. exact populate_ok. Qed.
Print Assumptions C41_late_start.

(** A later one asks for the rest of the year. *)
Theorem C41_order_refuted : exists start last, is_month start /\ is_month last
  /\ exists ym, In ym (populate_months (fst start) (snd start) (fst last) (snd last)) /\ month_index last < month_index ym.
Proof.
  exists (2020, 5), (2020, 1). split; [unfold is_month; cbn; lia|]. split; [unfold is_month; cbn; lia|]. exists (2020, 12).
  split; [vm_compute; intuition|]. vm_compute. reflexivity.
Qed.
Print Assumptions C41_order_refuted.

(** ** C50: the contents of a filled table *)

(** A table filled by month holds one row for every key of the rows of the files that
    are not of an intervention run, and nothing else. *)
Theorem C50_months : forall (A : Type) (files : Z * Z -> option (csv A)) months t, add_months files months [] = (t, None) ->
  NoDup (map fst t)
  /\ (forall k a, In (k, a) t -> exists ym f, In ym months /\ files ym = Some f /\ own_run f k a)
  /\ (forall ym, In ym months -> exists f, files ym = Some f /\ forall k a, own_run f k a -> exists a', In (k, a') t /\ own_run f k a').
Proof. exact months_filled. Qed.
Print Assumptions C50_months.

(** It is filled without an exception if all files are there and no key is in the files
    of two months. *)
Theorem C50_complete : forall (A : Type) (files : Z * Z -> option (csv A)) months, NoDup months ->
  (forall ym, In ym months -> exists f, files ym = Some f) ->
  (forall ym ym' f f' k a a', In ym months -> In ym' months -> files ym = Some f -> files ym' = Some f' -> own_run f k a -> own_run f' k a' -> ym = ym') ->
  snd (add_months files months []) = None.
Proof. exact months_done. Qed.
Print Assumptions C50_complete.

Definition dx_csv (rows : list (ident * Z * nat)) : csv nat := Csv ["SETTLEMENTDATE"; "REGIONID"; "TOTALDEMAND"; "INTERVENTION"] rows.
Definition dx_files (ym : Z * Z) : option (csv nat) :=
  if (snd ym =? 1)%Z then Some (dx_csv [(["2020/01/01 00:05:00"; "NSW1"], 1, 5%nat); (["2020/01/01 00:05:00"; "NSW1"], 0, 6%nat); (["2020/01/01 00:05:00"; "VIC1"], 0, 7%nat)])
  else if (snd ym =? 2)%Z then Some (dx_csv [(["2020/02/01 00:05:00"; "NSW1"], 0, 8%nat)]) else None.
Example dx_filled : add_months dx_files [(2020, 1); (2020, 2)] [] =
  ([(["2020/01/01 00:05:00"; "NSW1"], 6%nat); (["2020/01/01 00:05:00"; "VIC1"], 7%nat); (["2020/02/01 00:05:00"; "NSW1"], 8%nat)], None).
Proof. vm_compute. reflexivity. Qed.

Example dx_disjoint : NoDup [(2020, 1); (2020, 2)] /\ (forall ym, In ym [(2020, 1); (2020, 2)] -> exists f, dx_files ym = Some f)
  /\ forall ym ym' f f' k a a', In ym [(2020, 1); (2020, 2)] -> In ym' [(2020, 1); (2020, 2)] -> dx_files ym = Some f -> dx_files ym' = Some f' -> own_run f k a -> own_run f' k a' -> ym = ym'.
Proof.
  split; [repeat (constructor; [cbn; intuition discriminate|]); constructor|]. split.
  - intros ym [<-|[<-|[]]]; eexists; reflexivity.
  - intros ym ym' f f' k a a' [<-|[<-|[]]] [<-|[<-|[]]] F F' [i [R _]] [j [R' _]]; auto; cbn in F, F'; injection F as <-; injection F' as <-; cbn in R, R'; exfalso;
      intuition congruence.
Qed.

(** A historical table holds the rows of each key that are in the latest file with the
    key, of the files from 2010 to the month asked for. *)
Theorem C50_history : forall (A : Type) columns (files : Z * Z -> option (csv A)) last table k a, is_month last ->
  (exists ym f, is_month ym /\ 2010 <= fst ym /\ month_index ym <= month_index last /\ files ym = Some f /\ wider columns f) ->
  In (k, a) (set_history columns files (fst last) (snd last) table) <->
  exists ym f, is_month ym /\ 2010 <= fst ym /\ month_index ym <= month_index last /\ files ym = Some f /\ wider columns f /\ file_row f k a
    /\ forall ym' f' a', is_month ym' -> month_index ym < month_index ym' <= month_index last -> files ym' = Some f' -> wider columns f' -> ~ file_row f' k a'.
Proof. exact (fun A => @history_rows A). Qed.
Print Assumptions C50_history.

Definition dx_hist (ym : Z * Z) : option (csv nat) :=
  if (month_index ym =? month_index (2019, 12))%Z then Some (Csv ["GENCONID"; "RHS"; "LASTCHANGED"] [(["a"], 0, 1%nat); (["b"], 0, 2%nat)])
  else if (month_index ym =? month_index (2020, 2))%Z then Some (Csv ["GENCONID"; "RHS"; "LASTCHANGED"] [(["a"], 0, 3%nat)])
  else if (month_index ym =? month_index (2020, 4))%Z then Some (Csv ["GENCONID"; "RHS"] [(["a"], 0, 9%nat); (["c"], 0, 9%nat)]) else None.
Example dx_history : set_history ["GENCONID"; "RHS"] dx_hist 2020 3 [(["old"], 7%nat)] = [(["a"], 3%nat); (["b"], 2%nat)]
  /\ wider ["GENCONID"; "RHS"] (Csv ["GENCONID"; "RHS"; "LASTCHANGED"] [(["a"], 0, 3%nat)]) /\ dx_hist (2020, 2) = Some (Csv ["GENCONID"; "RHS"; "LASTCHANGED"] [(["a"], 0, 3%nat)]).
Proof. split; [vm_compute; reflexivity|]. split; [apply strict_wider; vm_compute; reflexivity|vm_compute; reflexivity]. Qed.

(** If there is no such file, the table stays as it was. *)
Theorem C50_history_none : forall (A : Type) columns (files : Z * Z -> option (csv A)) last table, is_month last ->
  (forall ym f, is_month ym -> 2010 <= fst ym -> month_index ym <= month_index last -> files ym = Some f -> ~ wider columns f) ->
  set_history columns files (fst last) (snd last) table = table.
Proof. exact (fun A => @history_none A). Qed.
Print Assumptions C50_history_none.

(** A file with exactly the columns of the table is passed over. *)
Theorem C50_exact_columns_refuted : exists columns (files : Z * Z -> option (csv nat)) f k a,
  files (2020, 4) = Some f /\ complete columns f /\ file_row f k a /\ ~ In (k, a) (set_history columns files 2020 4 []).
Proof.
  exists ["GENCONID"; "RHS"], dx_hist, (Csv ["GENCONID"; "RHS"] [(["a"], 0, 9%nat); (["c"], 0, 9%nat)]), ["c"], 9%nat.
  split; [vm_compute; reflexivity|]. split; [intros c H; exact H|]. split; [exists 0; right; now left|]. vm_compute. intuition discriminate.
Qed.
Print Assumptions C50_exact_columns_refuted.
