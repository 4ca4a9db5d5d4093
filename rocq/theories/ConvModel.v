(** Model of the conversions between real and kernel times: structure/units/time.hpp:34-47, TimeRawType being float
    (raw_types.hpp:14; without SPN_PLATFORM_CAP_DOUBLE). *)
From Coq Require Import ZArith Bool List.
From Flocq Require Import Core IEEE754.BinarySingleNaN.
From Verif Require Import Base FloatModel UnitModel.
Open Scope Z_scope.

(** std::ceil and std::floor, as integers; None for an infinity or NaN *)
Definition f_ceil (x : float) : option Z :=
  match x with
  | B754_zero _ => Some 0
  | B754_finite s m e _ =>
      let n := if s then Z.neg m else Z.pos m in
      Some (if 0 <=? e then n * 2 ^ e else - (- n / 2 ^ (- e)))
  | _ => None
  end.
Definition f_floor (x : float) : option Z :=
  match x with
  | B754_zero _ => Some 0
  | B754_finite s m e _ =>
      let n := if s then Z.neg m else Z.pos m in
      Some (if 0 <=? e then n * 2 ^ e else n / 2 ^ (- e))
  | _ => None
  end.
(** time.hpp:36-40, with the rounding function's result; a number that time_t (64 bits) does not hold is undefined *)
Definition to_kernel_time (rounded : option Z) : outcome Z :=
  match rounded with
  | Some n => if (- 2 ^ 63 <=? n) && (n <? 2 ^ 63) then Ok n else UB
  | None => UB
  end.
(** time.hpp:44-47 *)
Definition to_real_time (n : Z) : float := f_ofZ n.
