(** Model of integral units (structure/units/primitives/unit.hpp) for kernel time (structure/units/time.hpp), with the single
    precision arithmetic of their conversions computed exactly on integers. *)
From Coq Require Import ZArith Bool List.
From Verif Require Import Base.
Import ListNotations.
Open Scope Z_scope.

(** ** binary32 numbers as used here: m * 2^e. Rounding is to nearest, ties to even, on 24 bits. Not modelled: the exponent
    range (the numbers here stay between 2^-64 and 2^127), infinities and NaN, which these conversions cannot produce. *)
Record fl := mkFl { fm : Z; fe : Z }.

(** The quotient n / d (d > 0) rounded to the nearest integer, ties to even *)
Definition rne (n d : Z) : Z :=
  let q := n / d in let r := n mod d in
  match 2 * r ?= d with Lt => q | Gt => q + 1 | Eq => if Z.even q then q else q + 1 end.

(** The exponent e for which n / (d * 2^e) has 24 bits, n and d positive *)
Definition fexp (n d : Z) : Z :=
  let e := Z.log2 n - Z.log2 d - 23 in
  (* 2^22 < n / (d 2^e) < 2^25 *)
  if n * 2 ^ Z.max 0 (- e) <? d * 2 ^ Z.max 0 e * 2 ^ 23 then e - 1 else e.

(** The quotient n / d (d > 0) as a binary32 number *)
Definition fquot (n d : Z) : fl :=
  if n =? 0 then mkFl 0 0 else
  let e := fexp (Z.abs n) d in
  mkFl (rne (n * 2 ^ Z.max 0 (- e)) (d * 2 ^ Z.max 0 e)) e.

(** Conversion of an integer to float *)
Definition f_of_int (n : Z) : fl := fquot n 1.
(** Product of two floats *)
Definition fmul (a b : fl) : fl :=
  let n := fm a * fm b in let e := fe a + fe b in
  fquot (n * 2 ^ Z.max 0 e) (2 ^ Z.max 0 (- e)).
(** Quotient of two floats, the second one positive *)
Definition fdiv (a b : fl) : fl :=
  let e := fe a - fe b in
  fquot (fm a * 2 ^ Z.max 0 e) (fm b * 2 ^ Z.max 0 (- e)).
(** std::round: to nearest, halves away from zero; the result is converted to an integer *)
Definition fround (a : fl) : Z :=
  if 0 <=? fe a then fm a * 2 ^ fe a
  else let d := 2 ^ (- fe a) in Z.sgn (fm a) * ((2 * Z.abs (fm a) + d) / (2 * d)).

(** ** units/primitives/magnitudes.hpp:18-20 (Micro: 1e-6f), 21-23 (Milli), 55-57 (Base), 60-62 (Minute), 63-65 (Hour),
    66-68 (Day); the units of time.hpp:27-32 *)
Inductive kunit := US | MS | SEC | MIN | HOUR | DAY.
Definition magnitude (u : kunit) : fl :=
  match u with
  | US => fquot 1 1000000
  | MS => fquot 1 1000
  | SEC => fquot 1 1
  | MIN => fquot 60 1
  | HOUR => fmul (fquot 60 1) (fquot 60 1)
  | DAY => fmul (fmul (fquot 60 1) (fquot 60 1)) (fquot 24 1)
  end.

(** unit.hpp:140: constexpr float ratio *)
Definition ratio (other this : kunit) : fl := fdiv (magnitude other) (magnitude this).

(** unit.hpp:138-143 for an integral value type: the count [x] of [other] as a count of [this]. Counts are unbounded
    integers: the range of time_t (int64) and its overflows are not modelled. *)
Definition from_other (other this : kunit) (x : Z) : Z := fround (fmul (ratio other this) (f_of_int x)).

(** A kernel time in unit [u] is its count. The left operand of the binary operators is in [this], the right one in [other];
    even when both are the same unit the right one goes through from_other. *)
Section Ops.
Variable this other : kunit.
(** unit.hpp:36-37, 39-48. (Copies of the same unit use the defaulted functions, unit.hpp:23-26, and are exact.) *)
Definition kconv (y : Z) : Z := from_other other this y.
(** unit.hpp:50-53, 64-68 *)
Definition kadd (x y : Z) : Z := x + from_other other this y.
(** unit.hpp:54-57, 59-63 *)
Definition ksub (x y : Z) : Z := x - from_other other this y.
(** unit.hpp:69-73 *)
Definition kmul (x y : Z) : Z := x * from_other other this y.
(** unit.hpp:74-79; integer division truncates *)
Definition kdivide (x y : Z) : outcome Z :=
  let v := from_other other this y in if v =? 0 then Halt else Ok (Z.quot x v).
(** unit.hpp:102-106 *)
Definition keq (x y : Z) : bool := x =? from_other other this y.
(** unit.hpp:107-110 *)
Definition kne (x y : Z) : bool := negb (keq x y).
(** unit.hpp:111-126 *)
Definition klt (x y : Z) : bool := x <? from_other other this y.
Definition kgt (x y : Z) : bool := from_other other this y <? x.
Definition kle (x y : Z) : bool := x <=? from_other other this y.
Definition kge (x y : Z) : bool := from_other other this y <=? x.
End Ops.
(** unit.hpp:33, 58 *)
Definition kneg (x : Z) : Z := - x.
Definition kis_negative (x : Z) : bool := x <? 0.
(** unit.hpp:81-89, an integral scalar *)
Definition kscale (x s : Z) : Z := x * s.
(** unit.hpp:90-100, an integral scalar *)
Definition kdiv_scalar (x s : Z) : outcome Z := if s =? 0 then Halt else Ok (Z.quot x s).

Global Arguments from_other : simpl never.
