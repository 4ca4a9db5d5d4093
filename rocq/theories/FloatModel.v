(** IEEE-754 binary32 as the code's [float]: Flocq's BinarySingleNaN (one NaN, payloads and sign of NaN not modelled), rounding
    to nearest, ties to even. Assumed of the platform: every float expression is evaluated in single precision operation by
    operation (FLT_EVAL_METHOD 0, no contraction into fused operations, no fast-math). *)
From Coq Require Import ZArith Bool.
From Flocq Require Import Core IEEE754.BinarySingleNaN.
Open Scope Z_scope.

Definition float : Set := binary_float 24 128.
#[global] Instance prec24 : Prec_gt_0 24. Proof. reflexivity. Qed.
#[global] Instance emax128 : Prec_lt_emax 24 128. Proof. reflexivity. Qed.

Definition f_add (x y : float) : float := Bplus mode_NE x y.
Definition f_sub (x y : float) : float := Bminus mode_NE x y.
Definition f_mul (x y : float) : float := Bmult mode_NE x y.
Definition f_div (x y : float) : float := Bdiv mode_NE x y.
Definition f_abs (x : float) : float := Babs x.
(** Conversion from an integer *)
Definition f_ofZ (n : Z) : float := binary_normalize 24 128 _ _ mode_NE n 0 false.
(** The float nearest to m / d: how a decimal literal is read *)
Definition f_lit (m d : Z) : float := f_div (f_ofZ m) (f_ofZ d).
(** Comparisons: false when an operand is NaN *)
Definition f_lt (x y : float) : bool := Bltb x y.
Definition f_gt (x y : float) : bool := Bltb y x.
Definition f_le (x y : float) : bool := Bleb x y.
Definition f_ge (x y : float) : bool := Bleb y x.
Definition f_eq (x y : float) : bool := Beqb x y.
Definition f_isnan (x : float) : bool := is_nan x.
Definition f_zero : float := B754_zero false.
Definition f_inf (s : bool) : float := B754_infinity s.
Definition f_nan : float := B754_nan.
