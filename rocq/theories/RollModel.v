(** Model of the millisecond clock of Arduino boards and of timers that read it. *)
From Coq Require Import ZArith List.
From Verif Require Import Base KTimeModel TimersModel.
Open Scope Z_scope.

(** platform/implementations/arduino.hpp:333: ::millis() returns an unsigned long, which has 32 bits on these boards, so the count
    rolls around every 49.7 days (platform/platform.hpp:89 says that it does); the kernel time made of it has 64 bits. [t] is the
    time since the board started. *)
Definition arduino_millis (t : Z) : Z := t mod 2 ^ 32.
