(** Model of the scaling of kernel times by numbers of the other arithmetic types (structure/units/primitives/unit.hpp:81-100): float and
    double, as IEEE-754 numbers of precision [prec] below 2^[emax] with rounding to nearest, and unsigned long of 64 bits. Scalars of
    signed types, and of unsigned ones of fewer bits, are converted to time_t: sscale and sdiv_scalar of SpanModel. For float, double and
    unsigned long the compound forms *= and /= are meant: * and / construct a Unit from the product in braces (lines 83 and 93), a
    narrowing conversion, which some compilers reject and others carry out like these. *)
From Coq Require Import ZArith Bool.
From Flocq Require Import Core IEEE754.BinarySingleNaN.
From Verif Require Import Base SpanModel UnitModel.
Open Scope Z_scope.

Section Real.
Variable prec emax : Z.
Context {Hp : Prec_gt_0 prec} {Hx : Prec_lt_emax prec emax}.
Notation real := (binary_float prec emax).
(** The conversion of a time_t to the type of the scalar, which the product and the quotient of both have *)
Definition of_count (t : Z) : real := binary_normalize prec emax Hp Hx mode_NE t 0 false.
(** The conversion back into time_t truncates; it is undefined outside of its range *)
Definition to_count (x : real) : outcome Z := if is_finite x then i64 (Btrunc x) else UB.
(** unit.hpp:85-89 *)
Definition rscale (t : Z) (f : real) : outcome Z := to_count (Bmult mode_NE (of_count t) f).
(** unit.hpp:95-100: [scalar == 0] holds of both zeros *)
Definition rdivide (t : Z) (f : real) : outcome Z := if Beqb f (B754_zero false) then Halt else to_count (Bdiv mode_NE (of_count t) f).
End Real.
Arguments of_count {prec emax Hp Hx}. Arguments to_count {prec emax}. Arguments rscale {prec emax Hp Hx}. Arguments rdivide {prec emax Hp Hx}.

(** unit.hpp:85-89 with an unsigned long: both operands are taken modulo 2^64, as is their product; what does not fit in time_t is taken
    modulo 2^64 by the compilers (implementation-defined before C++20) *)
Definition uscale (t s : Z) : Z := signed64 ((t mod 2 ^ 64) * s).
(** unit.hpp:95-100 with an unsigned long *)
Definition udivide (t s : Z) : outcome Z := udivide64 t s.
