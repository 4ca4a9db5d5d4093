(** Model of controller/sr_latch.{hpp,cpp}. HAL::millis() is a parameter of each call; it does not advance within a call. *)
From Coq Require Import ZArith Bool List.
From Verif Require Import Base KTimeModel TimersModel.
Import ListNotations.
Open Scope Z_scope.

Section Latch.
(** float with its < ; v > h is h < v *)
Variable F : Type.
Variable ltb : F -> F -> bool.

(** sr_latch.hpp:18-25; times in milliseconds *)
Record config := mkConfig { high : F; low : F; min_on : Z; max_on : Z; min_off : Z; max_off : Z }.
Variable cfg : config.

(** sr_latch.hpp:45-46; State::ON is true *)
Record latch := mkLatch { lvalue : bool; lturned : timer }.

(** sr_latch.hpp:29, 45 *)
Definition latch_new (now : Z) : latch := mkLatch false (timer_new (ksub MS MS now (min_off cfg))).
(** sr_latch.hpp:34 *)
Definition response (l : latch) : bool := lvalue l.
(** sr_latch.hpp:37-40 *)
Definition latch_set (now : Z) (state : bool) (l : latch) : latch := mkLatch state (timer_reset now (lturned l)).

(** sr_latch.cpp:5-30; SPN_DBG only prints *)
Definition new_reading (now : Z) (value : F) (l : latch) : latch :=
  let since := fst (time_since_last now false (lturned l)) in
  if lvalue l && klt MS MS since (min_on cfg) then l
  else if negb (lvalue l) && klt MS MS since (min_off cfg) then l
  else if kne MS MS (max_on cfg) 0 && lvalue l && kgt MS MS since (max_on cfg) then latch_set now false l
  else if kne MS MS (max_off cfg) 0 && negb (lvalue l) && kgt MS MS since (max_off cfg) then latch_set now true l
  else if ltb (high cfg) value then latch_set now true l
  else if ltb value (low cfg) then latch_set now false l
  else l.

(** Readings at times *)
Fixpoint readings (l : latch) (rs : list (Z * F)) : latch :=
  match rs with [] => l | (t, v) :: rs' => readings (new_reading t v l) rs' end.
End Latch.
