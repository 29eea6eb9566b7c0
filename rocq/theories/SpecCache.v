(** The calendar, dispatch intervals and the contents of the cache described without
    the cache manager. *)

From Coq Require Import ZArith String List Bool.
Import ListNotations.
From Verif Require Import PandasModel CacheModel.
Open Scope string_scope.
Open Scope list_scope.

(** ** Dates *)

Definition valid_date (d : date) : Prop :=
  (1 <= d_year d)%Z /\ (1 <= d_month d <= 12)%Z /\ (1 <= d_day d <= days_in_month (d_year d) (d_month d))%Z.
Definition valid_time (t : datetime) : Prop :=
  valid_date (t_date t) /\ (0 <= t_hour t < 24)%Z /\ (0 <= t_min t < 60)%Z /\ (0 <= t_sec t < 60)%Z.

(** The dates in order. *)
Definition before (a b : date) : Prop :=
  (d_year a < d_year b \/ (d_year a = d_year b /\ (d_month a < d_month b \/ (d_month a = d_month b /\ d_day a < d_day b))))%Z.

(** A dispatch interval ends on a multiple of five minutes.  The first day has no day
    before. *)
Definition dispatch_time (t : datetime) : Prop := valid_time t /\ (2 <= d_year (t_date t))%Z /\ (t_min t mod 5 = 0)%Z /\ t_sec t = 0%Z.

(** The n-th interval of the market day that starts on a date at 4 o'clock. *)
Definition nth_interval (d : date) (n : Z) (t : datetime) : Prop :=
  (moment t = 86400 * ordinal d + 4 * 3600 + 300 * n)%Z.

(** ** Histories of a manager *)

(** One call with what the world does during it. *)
Definition load_step {C : Type} (m : manager C) (s : datetime * world C) : manager C := fst (load_interval (fst s) (snd s) m).
Definition loads {C : Type} (steps : list (datetime * world C)) (m : manager C) : manager C := fold_left load_step steps m.
Definition fresh {C : Type} : manager C := Manager None None.

(** The files named after an interval hold the data of the interval. *)
Definition faithful {C : Type} (of : C -> datetime) (fs : files C) : Prop :=
  forall t c, dispatch_time t -> dget (name t) fs = Some c \/ dget (name_ocd t) fs = Some c -> of c = t.
Definition honest {C : Type} (of : C -> datetime) (w : world C) : Prop := faithful of (w_before w) /\ faithful of (w_after w).

(** The contents a call can read: the ordinary file or else that of the re-run, of the
    folder or else of the folder after the download. *)
Definition found {C : Type} (fs : files C) (t : datetime) : option C :=
  match dget (name t) fs with Some c => Some c | None => dget (name_ocd t) fs end.
Definition available {C : Type} (t : datetime) (w : world C) : option C :=
  match found (w_before w) t with Some c => Some c | None => found (w_after w) t end.

(** The intervals with violations in the order of the search. *)
Definition violated {C : Type} (violations : C -> list string) (s : datetime * world C) : list (datetime * list string) :=
  match available (fst s) (snd s) with
  | Some c => match violations c with [] => [] | v => [(fst s, v)] end
  | None => []
  end.
