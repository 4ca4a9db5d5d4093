(** Property C115: true times and turns of the clock. *)
From Coq Require Import ZArith Bool List Sorting.Sorted.
From Verif Require Import Base.
Import ListNotations.
Open Scope Z_scope.

(** How often the clock has rolled around by the true time [T] *)
Definition turns (T : Z) : Z := T / 2 ^ 32.
(** Readings of a sensor at true times, none before [T0] *)
Inductive later {F : Type} : Z -> list (Z * F) -> Prop :=
| lt_nil T0 : later T0 []
| lt_cons T0 T v rs : T0 <= T -> later T rs -> later T0 ((T, v) :: rs).
