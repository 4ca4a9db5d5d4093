(** Model of units with real value types (structure/units/primitives/unit.hpp with RealRawType = float, raw_types.hpp:14-15), of
    compound units (structure/units/primitives/compound_unit.hpp) over real and over kernel-time parts, and of the temperature
    conversions (structure/units/temperature.hpp). *)
From Coq Require Import ZArith Bool List.
From Flocq Require Import Core IEEE754.BinarySingleNaN.
From Verif Require Import Base FloatModel KTimeModel.
Import ListNotations.
Open Scope Z_scope.

Definition f_neg (x : float) : float := Bopp x.
(** The float m * 2^e, rounded *)
Definition f_mk (m e : Z) : float := binary_normalize 24 128 _ _ mode_NE m e false.

(** ** magnitudes.hpp:6-77. The literals are written as the floats nearest to them; Lemma [magnitude_error] in UnitProofs shows that
    they are. *)
Inductive mag :=
| Atto | Femto | Pico | Nano | Micro | Milli | Centi | Deci | Deca | Hecto | Kilo | Mega | Giga | Tera | Peta | Exa
| Unity | Minute | Hour | Day | Week | Month | Year.
Definition mday : float := f_mul (f_mul (f_ofZ 60) (f_ofZ 60)) (f_ofZ 24).
Definition mweek : float := f_mul mday (f_ofZ 7).
Definition mag_val (m : mag) : float :=
  match m with
  | Atto => f_mk 9671407 (-83) | Femto => f_mk 9444733 (-73) | Pico => f_mk 9223372 (-63) | Nano => f_mk 9007199 (-53)
  | Micro => f_mk 8796093 (-43) | Milli => f_mk 8589935 (-33) | Centi => f_mk 10737418 (-30) | Deci => f_mk 13421773 (-27)
  | Deca => f_ofZ 10 | Hecto => f_ofZ 100 | Kilo => f_ofZ 1000 | Mega => f_ofZ 1000000 | Giga => f_ofZ 1000000000
  | Tera => f_mk 15258789 16 | Peta => f_mk 14901161 26 | Exa => f_mk 14551915 36
  | Unity => f_ofZ 1
  | Minute => f_ofZ 60
  | Hour => f_mul (f_ofZ 60) (f_ofZ 60)
  | Day => mday
  | Week => mweek
  | Month => f_mul mweek (f_ofZ 4)
  | Year => f_mul mday (f_ofZ 365)
  end.

(** unit.hpp:140 *)
Definition uratio (other this : mag) : float := f_div (mag_val other) (mag_val this).
(** unit.hpp:138-143, a real value type *)
Definition ufrom (other this : mag) (y : float) : float := f_mul (uratio other this) y.

Section Ops.
Variable this other : mag.
(** unit.hpp:36-37, 39-48. (A copy in the same unit uses unit.hpp:23-26 and is exact, as is this one: C74.) *)
Definition uconv (y : float) : float := ufrom other this y.
(** unit.hpp:50-57, 59-68 *)
Definition uadd (x y : float) : float := f_add x (ufrom other this y).
Definition usub (x y : float) : float := f_sub x (ufrom other this y).
(** unit.hpp:69-79 *)
Definition umul (x y : float) : float := f_mul x (ufrom other this y).
Definition udiv (x y : float) : outcome float :=
  let v := ufrom other this y in if f_eq v f_zero then Halt else Ok (f_div x v).
(** unit.hpp:129-133: epsilon is 2^-23; std::max(a, b) is (a < b) ? b : a *)
Definition eps : float := f_mk 1 (-23).
Definition approx (a b : float) : bool :=
  f_le (f_abs (f_sub a b)) (f_mul eps (let x := f_abs a in let y := f_abs b in if f_lt x y then y else x)).
(** unit.hpp:102-126 *)
Definition ueq (x y : float) : bool := approx x (ufrom other this y).
Definition une (x y : float) : bool := negb (ueq x y).
Definition ult (x y : float) : bool := f_lt x (ufrom other this y).
Definition ugt (x y : float) : bool := f_gt x (ufrom other this y).
Definition ule (x y : float) : bool := f_le x (ufrom other this y).
Definition uge (x y : float) : bool := f_ge x (ufrom other this y).
End Ops.
(** unit.hpp:58 *)
Definition uneg (x : float) : float := f_neg x.
(** unit.hpp:81-100, a float scalar *)
Definition uscale (x s : float) : float := f_mul x s.
Definition udiv_scalar (x s : float) : outcome float := if f_eq s f_zero then Halt else Ok (f_div x s).

(** temperature.hpp:21-26: 273.15 as a float *)
Definition c27315 : float := f_mk 8950579 (-15).
Definition to_celsius (k : float) : float := f_sub k c27315.
Definition to_kelvin (c : float) : float := f_add c c27315.

(** ** CompoundUnit with real parts: a numerator and a denominator (compound_unit.hpp:229-230) *)
Record cu := mkCu { num : float; den : float }.
(** compound_unit.hpp:99-102 *)
Definition craw (c : cu) : outcome float := if f_eq (den c) f_zero then Halt else Ok (f_div (num c) (den c)).
(** compound_unit.hpp:79-94: numerator and denominator are converted; [nt], [dt] are this unit's magnitudes, [no], [do] the other's *)
Definition cconv (nt dt no do : mag) (c : cu) : cu := mkCu (ufrom no nt (num c)) (ufrom do dt (den c)).
(** compound_unit.hpp:116-130, 132-137 *)
Definition cadd (nt dt no do : mag) (a b : cu) : cu :=
  let b' := cconv nt dt no do b in
  mkCu (f_add (f_mul (num a) (den b')) (f_mul (num b') (den a))) (f_mul (den a) (den b')).
(** compound_unit.hpp:143-156, 158-163: the difference is Unit's operator-, whose right operand goes through from_other *)
Definition csub (nt dt no do : mag) (a b : cu) : cu :=
  let b' := cconv nt dt no do b in
  mkCu (usub nt nt (uscale (num a) (den b')) (uscale (num b') (den a))) (uscale (den a) (den b')).
(** compound_unit.hpp:164 *)
Definition cneg (c : cu) : cu := mkCu (num c) (uneg (den c)).
(** compound_unit.hpp:166-185, a float scalar *)
Definition cscale (c : cu) (s : float) : cu := mkCu (uscale (num c) s) (den c).
Definition cdiv_scalar (c : cu) (s : float) : outcome cu :=
  if f_eq s f_zero then Halt else n <- udiv_scalar (num c) s ;; Ok (mkCu n (den c)).
(** compound_unit.hpp:187-211: both operands' raw values, whatever their units *)
Definition ccmp (test : float -> float -> bool) (a b : cu) : outcome bool := x <- craw a ;; y <- craw b ;; Ok (test x y).
Definition ceq := ccmp approx.
Definition cne (a b : cu) : outcome bool := r <- ceq a b ;; Ok (negb r).
Definition clt := ccmp f_lt.
Definition cgt := ccmp f_gt.
Definition cle := ccmp f_le.
Definition cge := ccmp f_ge.
(** std::round, halves away from zero, as an integer; None for an infinity or NaN *)
Definition f_round (x : float) : option Z :=
  match x with
  | B754_zero _ => Some 0
  | B754_finite s m e _ =>
      let a := if 0 <=? e then Z.pos m * 2 ^ e else let d := 2 ^ (- e) in (2 * Z.pos m + d) / (2 * d) in
      Some (if s then - a else a)
  | _ => None
  end.
(** compound_unit.hpp:220-222: the conversion to unsigned long (64 bits) of a number it cannot represent is undefined *)
Definition scale_to_integer (x sf : float) : outcome Z :=
  match f_round (f_mul x sf) with
  | Some n => if (0 <=? n) && (n <? 2 ^ 64) then Ok n else UB
  | None => UB
  end.
(** compound_unit.hpp:106-110, 223-226 *)
Definition csimplify (sf : float) (c : cu) : outcome cu :=
  a <- scale_to_integer (num c) sf ;; b <- scale_to_integer (den c) sf ;;
  let g := f_ofZ (Z.gcd a b) in
  n <- udiv_scalar (num c) g ;; d <- udiv_scalar (den c) g ;; Ok (mkCu n d).

(** ** CompoundUnit with kernel-time parts (an integral value type). Overflow of the 64-bit parts is not modelled, except in
    simplify, where the code itself computes modulo 2^64. *)
Record ku := mkKu { knum : Z; kden : Z }.
Definition kraw (c : ku) : outcome Z := if kden c =? 0 then Halt else Ok (Z.quot (knum c) (kden c)).
(** compound_unit.hpp:123-124: a part in the same unit is copied *)
Definition kpart (other this : kunit) (same : bool) (y : Z) : Z := if same then y else from_other other this y.
Definition same_unit (a b : kunit) : bool :=
  match a, b with US, US | MS, MS | SEC, SEC | MIN, MIN | HOUR, HOUR | DAY, DAY => true | _, _ => false end.
Definition kconvert (nt dt no do : kunit) (c : ku) : ku :=
  mkKu (kpart no nt (same_unit no nt) (knum c)) (kpart do dt (same_unit do dt) (kden c)).
(** compound_unit.hpp:116-130 *)
Definition kcadd (nt dt no do : kunit) (a b : ku) : ku :=
  let b' := kconvert nt dt no do b in mkKu (knum a * kden b' + knum b' * kden a) (kden a * kden b').
(** compound_unit.hpp:143-156: the right operand of the difference goes through from_other *)
Definition kcsub (nt dt no do : kunit) (a b : ku) : ku :=
  let b' := kconvert nt dt no do b in mkKu (ksub nt nt (knum a * kden b') (knum b' * kden a)) (kden a * kden b').
(** compound_unit.hpp:164 *)
Definition kcneg (c : ku) : ku := mkKu (knum c) (kneg (kden c)).
(** compound_unit.hpp:166-169, an integral scalar *)
Definition kcscale (c : ku) (s : Z) : ku := mkKu (knum c * s) (kden c).
(** compound_unit.hpp:187-211 *)
Definition kccmp (test : Z -> Z -> bool) (a b : ku) : outcome bool := x <- kraw a ;; y <- kraw b ;; Ok (test x y).
(** int64 from a number modulo 2^64 *)
Definition signed64 (n : Z) : Z := let m := n mod 2 ^ 64 in if m <? 2 ^ 63 then m else m - 2 ^ 64.
(** unit.hpp:95-100 with an unsigned long scalar of 64 bits: the signed value is converted to unsigned before the division *)
Definition udivide64 (x g : Z) : outcome Z := if g =? 0 then Halt else Ok (signed64 ((x mod 2 ^ 64) / g)).
(** compound_unit.hpp:106-110, 224 *)
Definition ksimplify (c : ku) : outcome ku :=
  let g := Z.gcd (knum c) (kden c) in n <- udivide64 (knum c) g ;; d <- udivide64 (kden c) g ;; Ok (mkKu n d).
