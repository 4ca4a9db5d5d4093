(** Model of structure/time/timers.hpp and timers.cpp. HAL::millis() is a parameter of each call: the clock does not advance
    within a call. Times are counts of milliseconds. *)
From Coq Require Import ZArith Bool List.
From Verif Require Import Base KTimeModel.
Import ListNotations.
Open Scope Z_scope.

(** timers.hpp:10-25 *)
Record timer := mkTimer { tlast : Z }.
(** timers.cpp:5 *)
Definition timer_new (epoch : Z) : timer := mkTimer epoch.
(** timers.cpp:13 *)
Definition timer_reset (epoch : Z) (t : timer) : timer := mkTimer epoch.
(** timers.cpp:7-11 *)
Definition time_since_last (now : Z) (reset : bool) (t : timer) : Z * timer :=
  (ksub MS MS now (tlast t), if reset then timer_reset now t else t).

(** timers.hpp:28-46 *)
Record alarm := mkAlarm { afuture : Z; aexpired : bool }.
(** timers.cpp:19-21 *)
Definition alarm_new (dbg : bool) (now future : Z) (absolute : bool) : outcome alarm :=
  let a := mkAlarm (if absolute then future else kadd MS MS now future) false in
  sassert dbg (negb absolute || kgt MS MS future now) ;;; Ok a.
(** timers.cpp:23-33 *)
Definition alarm_expired (now : Z) (a : alarm) : bool * alarm :=
  if aexpired a then (true, a)
  else if kle MS MS (afuture a) now then (true, mkAlarm (afuture a) true) else (false, a).
(** timers.cpp:35 *)
Definition alarm_time_from_now (now : Z) (a : alarm) : Z := ksub MS MS (afuture a) now.

(** timers.hpp:49-72 *)
Record itimer := mkIT { iprev : Z; ival : Z; icatch : bool }.
(** timers.cpp:41-42 *)
Definition itimer_new (now i : Z) (catch_up : bool) : itimer := mkIT now i catch_up.
(** timers.cpp:44-56 *)
Definition itimer_expired (now : Z) (t : itimer) : bool * itimer :=
  if kgt MS MS (ksub MS MS now (iprev t)) (ival t)
  then (true, mkIT (if icatch t then kadd MS MS (iprev t) (ival t) else now) (ival t) (icatch t))
  else (false, t).
(** timers.cpp:58 *)
Definition itimer_reset (now : Z) (t : itimer) : itimer := mkIT now (ival t) (icatch t).
(** timers.cpp:60 *)
Definition itimer_future (t : itimer) : Z := kadd MS MS (iprev t) (ival t).
(** timers.cpp:62 *)
Definition itimer_until_next (now : Z) (t : itimer) : Z := ksub MS MS (itimer_future t) now.

Global Arguments time_since_last : simpl never.
Global Arguments alarm_expired : simpl never.
Global Arguments itimer_expired : simpl never.
