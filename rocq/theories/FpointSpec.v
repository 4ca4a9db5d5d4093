(** Lengths of points in space. *)
From Coq Require Import ZArith Reals.
From Flocq Require Import Core.
From Verif Require Import FloatModel FloatFacts FpointModel.
Open Scope R_scope.

(** Pythagoras *)
Definition len (p : fpoint) : R := sqrt (val (fx p) * val (fx p) + val (fy p) * val (fy p) + val (fz p) * val (fz p)).
Definition all_finite (p : fpoint) : Prop := finite (fx p) = true /\ finite (fy p) = true /\ finite (fz p) = true.
(** Neither so long that its length might be beyond the range of float nor so short that it is not a normal number *)
Definition ordinary (p : fpoint) : Prop := all_finite p /\ bpow radix2 (-125) <= len p <= bpow radix2 127.
Definition zero_point (p : fpoint) : Prop := val (fx p) = 0 /\ val (fy p) = 0 /\ val (fz p) = 0.
(** Half the smallest float above zero, and two roundings to float with some of double *)
Definition tiny : R := bpow radix2 (-150).
Definition unit_error : R := bpow radix2 (-23) + bpow radix2 (-45).

(** [r] is, component by component, [f] of [p] and [q], rounded to a float; [h] allows for results too small for full precision. *)
Definition componentwise (h : R) (f : R -> R -> R) (p q r : fpoint) : Prop :=
  all_finite r /\
  Rabs (val (fx r) - f (val (fx p)) (val (fx q))) <= bpow radix2 (-24) * Rabs (f (val (fx p)) (val (fx q))) + h /\
  Rabs (val (fy r) - f (val (fy p)) (val (fy q))) <= bpow radix2 (-24) * Rabs (f (val (fy p)) (val (fy q))) + h /\
  Rabs (val (fz r) - f (val (fz p)) (val (fz q))) <= bpow radix2 (-24) * Rabs (f (val (fz p)) (val (fz q))) + h.
(** The results are within the range of float. *)
Definition within_range (f : R -> R -> R) (p q : fpoint) : Prop :=
  Rabs (f (val (fx p)) (val (fx q))) <= bpow radix2 127 /\ Rabs (f (val (fy p)) (val (fy q))) <= bpow radix2 127 /\ Rabs (f (val (fz p)) (val (fz q))) <= bpow radix2 127.
