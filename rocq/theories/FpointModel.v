(** Model of mag() and normalize() of points over float (structure/point.hpp:39-45 and 80-85). sqrt and pow without a cast are those of
    double (C's); pow(x, 2) is taken to be exact where the square is a double, as it is for any float. Conversion of a double beyond the
    range of float gives an infinity (IEEE 754; undefined in C++). *)
From Coq Require Import ZArith Bool.
From Flocq Require Import Core IEEE754.BinarySingleNaN.
From Verif Require Import Base FloatModel.
Open Scope Z_scope.

Definition double : Set := binary_float 53 1024.
#[global] Instance d_gt : FLX.Prec_gt_0 53. Proof. reflexivity. Qed.
#[global] Instance d_lt : Prec_lt_emax 53 1024. Proof. reflexivity. Qed.
Definition d_add (x y : double) : double := Bplus mode_NE x y.
Definition d_mul (x y : double) : double := Bmult mode_NE x y.
Definition d_sqrt (x : double) : double := Bsqrt mode_NE x.
(** float to double, and back *)
Definition to_double (x : float) : double :=
  match x with
  | B754_zero s => B754_zero s
  | B754_infinity s => B754_infinity s
  | B754_nan => B754_nan
  | B754_finite s m e _ => binary_normalize 53 1024 _ _ mode_NE (cond_Zopp s (Zpos m)) e s
  end.
Definition to_float (x : double) : float :=
  match x with
  | B754_zero s => B754_zero s
  | B754_infinity s => B754_infinity s
  | B754_nan => B754_nan
  | B754_finite s m e _ => binary_normalize 24 128 _ _ mode_NE (cond_Zopp s (Zpos m)) e s
  end.
Definition square (x : float) : double := d_mul (to_double x) (to_double x).

Record fpoint := mkF { fx : float; fy : float; fz : float }.
(** point.hpp:39 *)
Definition fmag (p : fpoint) : float := to_float (d_sqrt (d_add (d_add (square (fx p)) (square (fy p))) (square (fz p)))).
(** point.hpp:40-45: the object after the call *)
Definition fnormalize (p : fpoint) : fpoint := let m := fmag p in mkF (f_div (fx p) m) (f_div (fy p) m) (f_div (fz p) m).
(** point.hpp:80 and 81-85: the points of a plane *)
Definition fmag2 (x y : float) : float := to_float (d_sqrt (d_add (square x) (square y))).
Definition fnormalize2 (x y : float) : float * float := let m := fmag2 x y in (f_div x m, f_div y m).
(** point.hpp:16-22, component by component *)
Definition fadd (p q : fpoint) : fpoint := mkF (f_add (fx p) (fx q)) (f_add (fy p) (fy q)) (f_add (fz p) (fz q)).
Definition fsub (p q : fpoint) : fpoint := mkF (f_sub (fx p) (fx q)) (f_sub (fy p) (fy q)) (f_sub (fz p) (fz q)).
(** point.hpp:18, 46 (operator* and dot) and 19 *)
Definition fmulp (p q : fpoint) : fpoint := mkF (f_mul (fx p) (fx q)) (f_mul (fy p) (fy q)) (f_mul (fz p) (fz q)).
Definition fdivp (p q : fpoint) : fpoint := mkF (f_div (fx p) (fx q)) (f_div (fy p) (fy q)) (f_div (fz p) (fz q)).
(** point.hpp:34-38 *)
Definition fscale (s : float) (p : fpoint) : fpoint := mkF (f_mul (fx p) s) (f_mul (fy p) s) (f_mul (fz p) s).
Definition feq (p q : fpoint) : bool := f_eq (fx p) (fx q) && f_eq (fy p) (fy q) && f_eq (fz p) (fz q).
Definition fne (p q : fpoint) : bool := negb (f_eq (fx p) (fx q)) || negb (f_eq (fy p) (fy q)) || negb (f_eq (fz p) (fz q)).
