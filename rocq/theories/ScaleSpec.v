(** Counts of a kernel time; independent of the model. *)
From Coq Require Import ZArith Reals.
From Flocq Require Import Core IEEE754.BinarySingleNaN.
Open Scope Z_scope.

(** What time_t holds *)
Definition count (t : Z) : Prop := - 2 ^ 63 <= t < 2 ^ 63.
(** [r] is [q] to within one count and three roundings to [prec] bits *)
Definition about (prec : Z) (r : Z) (q : R) : Prop := (Rabs (IZR r - q) <= 1 + 3 * bpow radix2 (- prec) * Rabs q)%R.
(** The whole number [n] as a floating-point number *)
Definition whole {prec emax} (f : binary_float prec emax) (n : Z) : Prop := is_finite f = true /\ B2R f = IZR n.
