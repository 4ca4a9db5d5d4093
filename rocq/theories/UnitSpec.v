(** What units mean: every magnitude is an exact number, a quantity is a count times its magnitude, a compound is a quotient. *)
From Coq Require Import ZArith Reals.
From Flocq Require Import Core.
From Verif Require Import FloatModel FloatFacts UnitModel.
Open Scope R_scope.

(** The factors of the SI prefixes and of the units of time *)
Definition factor (m : mag) : R :=
  match m with
  | Atto => / IZR (10 ^ 18) | Femto => / IZR (10 ^ 15) | Pico => / IZR (10 ^ 12) | Nano => / IZR (10 ^ 9)
  | Micro => / IZR (10 ^ 6) | Milli => / IZR (10 ^ 3) | Centi => / IZR (10 ^ 2) | Deci => / IZR 10
  | Deca => IZR 10 | Hecto => IZR (10 ^ 2) | Kilo => IZR (10 ^ 3) | Mega => IZR (10 ^ 6) | Giga => IZR (10 ^ 9)
  | Tera => IZR (10 ^ 12) | Peta => IZR (10 ^ 15) | Exa => IZR (10 ^ 18)
  | Unity => 1
  | Minute => IZR 60 | Hour => IZR (60 * 60) | Day => IZR (24 * 60 * 60) | Week => IZR (7 * 24 * 60 * 60)
  | Month => IZR (28 * 24 * 60 * 60) | Year => IZR (365 * 24 * 60 * 60)
  end.

(** [x] and [y] agree within [k] units of relative rounding error, 2^-24 each *)
Definition within (k : Z) (x y : R) : Prop := Rabs (x - y) <= IZR k / IZR (2 ^ 24) * Rabs y.

(** A count that neither overflows nor underflows when multiplied with another one *)
Definition part (x : float) : Prop :=
  finite x = true /\ (val x = 0 \/ / IZR (2 ^ 60) <= Rabs (val x) <= IZR (2 ^ 60)).
Definition sane (c : cu) : Prop := part (num c) /\ part (den c) /\ val (den c) <> 0.
(** The exact quotient *)
Definition quotient (c : cu) : R := val (num c) / val (den c).
(** The exact quotient of whole parts *)
Definition kquot (c : ku) : R := IZR (knum c) / IZR (kden c).
(** Converted from [other] to [this], the count is zero or far from overflow and underflow *)
Definition converts (other this : mag) (x : float) : Prop :=
  finite x = true /\ (val x = 0 \/ bpow radix2 (-125) <= Rabs (val x * (factor other / factor this)) <= bpow radix2 126).
Definition fits (nt dt no do : mag) (c : cu) : Prop := converts no nt (num c) /\ converts do dt (den c) /\ val (den c) <> 0.
(** [x] is the integer [n], at most 2^k in absolute value *)
Definition whole (k : Z) (x : float) (n : Z) : Prop := finite x = true /\ val x = IZR n /\ (Z.abs n <= 2 ^ k)%Z.
(** The count [y] of [other], read in [this], is a [part] with some room *)
Definition moderate (other this : mag) (y : float) : Prop :=
  finite y = true /\ (val y = 0 \/ / IZR (2 ^ 59) <= Rabs (val y * (factor other / factor this)) <= IZR (2 ^ 59)).
