(** Durations and clock readings of thousands of years. *)
From Coq Require Import ZArith.
From Verif Require Import KTimeModel KTimeSpec.
Open Scope Z_scope.

(** At most 2^61 microseconds: 73 066 years *)
Definition amount (u : kunit) (x : Z) : Prop := Z.abs (x * micros_per u) <= 2 ^ 61.
(** At most 2^49 milliseconds: 17 839 years *)
Definition long (t : Z) : Prop := 0 <= t <= 2 ^ 49.
