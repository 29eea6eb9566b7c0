(** The fast start modes as a process in time. *)

From Coq Require Import QArith String List Bool ZArith.
Import ListNotations.
From Verif Require Import TablesModel ReportsModel ModesModel.
Open Scope string_scope.
Open Scope list_scope.

(** The length of a mode. *)
Definition mode_length (p : profile) (k : Z) : Q :=
  match k with 1%Z => pf_len1 p | 2%Z => pf_len2 p | 3%Z => pf_len3 p | 4%Z => pf_len4 p | _ => 0 end.

(** [advance p k t d k' t' s]: a unit that has been in mode [k] for [t] minutes is
    after [d] more minutes in mode [k'], for [t'] minutes, and passed the end of
    mode 2 on the way [s] minutes before.  Modes 1, 2 and 3 end when their length
    has been spent in them. *)
Inductive advance (p : profile) : Z -> Q -> Q -> Z -> Q -> option Q -> Prop :=
| Off : forall t d, advance p 0 t d 0 0 None
| Stay : forall k t d t', (1 <= k <= 3)%Z -> t + d <= mode_length p k -> t' == t + d -> advance p k t d k t' None
| Done : forall t d t', t + d <= pf_len4 p -> t' == t + d -> advance p 4 t d 4 t' None
| Past : forall t d t', pf_len4 p < t + d -> t' == pf_len4 p -> advance p 4 t d 4 t' None
| Next : forall k t d e k' t' s s', (1 <= k <= 3)%Z -> t <= mode_length p k ->
    mode_length p k < t + d -> e == t + d - mode_length p k ->
    advance p (k + 1) 0 e k' t' s ->
    match s' with
    | Some q => if Z.eqb k 2 then q == e else exists q', s = Some q' /\ q == q'
    | None => k <> 2%Z /\ s = None
    end ->
    advance p k t d k' t' s'.

(** A profile as the market operator's data have it: a mode from 0 to 4, no time in
    mode 0, not longer in modes 1 to 3 than they last, lengths not negative. *)
Definition sound (p : profile) : Prop :=
  (0 <= pf_mode p <= 4)%Z /\ 0 <= pf_time p /\ (pf_mode p = 0%Z -> pf_time p == 0)
  /\ ((1 <= pf_mode p <= 3)%Z -> pf_time p <= mode_length p (pf_mode p))
  /\ 0 <= pf_len1 p /\ 0 <= pf_len2 p /\ 0 <= pf_len3 p /\ 0 <= pf_len4 p.

(** The same without the bounds on the time spent in the current mode. *)
Definition in_modes (p : profile) : Prop :=
  (0 <= pf_mode p <= 4)%Z /\ 0 <= pf_time p
  /\ 0 <= pf_len1 p /\ 0 <= pf_len2 p /\ 0 <= pf_len3 p /\ 0 <= pf_len4 p.

(** The mode a unit starts the interval in: mode 1 if it is off but dispatched. *)
Definition start_mode (p : profile) (d : Q) : Z :=
  if Z.eqb (pf_mode p) 0 then (if Qlt_le_dec 0 d then 1%Z else 0%Z) else pf_mode p.

(** Energy dispatch of a unit in a report. *)
Definition dispatched (rep : list (ukey * Q)) (u : string) (d : Q) : Prop :=
  exists dt, In ((u, dt, "energy"), d) rep.

(** The time spent in the modes from [k] up to but not including [k']. *)
Definition passed (p : profile) (k k' : Z) : Q :=
  (if (k <=? 1)%Z && (1 <? k')%Z then pf_len1 p else 0)
  + (if (k <=? 2)%Z && (2 <? k')%Z then pf_len2 p else 0)
  + (if (k <=? 3)%Z && (3 <? k')%Z then pf_len3 p else 0).
