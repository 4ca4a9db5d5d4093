(** Properties C30, C31: structure/units/primitives/unit.hpp for the kernel times of structure/units/time.hpp. *)
From Coq Require Import ZArith Lia Bool.
From Verif Require Import Base KTimeModel KTimeSpec KTimeProofs KTimeConv.
Open Scope Z_scope.

(** C30. Operands up to 2^24 counts (16777216 ms are 4 hours 39 minutes): arithmetic and comparison within a unit are those
    of the counts. Missing: larger operands, see C30_equality_refuted and C30_difference_refuted. *)
Theorem C30_exact_partial : forall u x y, Z.abs y <= 2 ^ 24 ->
  kadd u u x y = x + y /\ ksub u u x y = x - y /\ kmul u u x y = x * y /\
  kdivide u u x y = (if y =? 0 then Halt else Ok (Z.quot x y)) /\
  keq u u x y = (x =? y) /\ kne u u x y = negb (x =? y) /\ klt u u x y = (x <? y) /\ kgt u u x y = (y <? x) /\
  kle u u x y = (x <=? y) /\ kge u u x y = (y <=? x) /\ kconv u u y = y.
Proof.
  intros u x y H. unfold kadd, ksub, kmul, kdivide, keq, kne, keq, klt, kgt, kle, kge, kconv.
  rewrite from_other_same, near24_id by exact H. splits; reflexivity.
Qed.
Print Assumptions C30_exact_partial.
Example C30_exact_case : Z.abs 16777216 <= 2 ^ 24 /\ ksub MS MS 16777300 16777216 = 84 /\ keq MS MS 16777216 16777216 = true.
Proof. vm_compute. repeat split; discriminate. Qed.

(** C30, any operand: the right hand operand is replaced by the single precision number nearest to it, for every operator. *)
Theorem C30_operand_partial : forall u x y, exists y', nearest_f32 y y' /\ 2 ^ 24 * Z.abs (y' - y) <= Z.abs y /\
  kadd u u x y = x + y' /\ ksub u u x y = x - y' /\ kmul u u x y = x * y' /\
  kdivide u u x y = (if y' =? 0 then Halt else Ok (Z.quot x y')) /\
  keq u u x y = (x =? y') /\ kne u u x y = negb (x =? y') /\ klt u u x y = (x <? y') /\ kgt u u x y = (y' <? x) /\
  kle u u x y = (x <=? y') /\ kge u u x y = (y' <=? x) /\ kconv u u y = y'.
Proof.
  intros u x y. exists (near24 y). unfold kadd, ksub, kmul, kdivide, keq, kne, keq, klt, kgt, kle, kge, kconv.
  rewrite from_other_same. splits; auto using near24_nearest, near24_error.
Qed.
Print Assumptions C30_operand_partial.
Example C30_operand_case : kadd MS MS 0 16777219 = 16777220 /\ kgt MS MS 16777217 16777217 = true.
Proof. vm_compute. split; reflexivity. Qed.

(** C30, any operand: a time equals itself, and differs from itself by nothing, exactly if single precision represents it. *)
Theorem C30_self_partial : forall u x, (keq u u x x = true <-> f32_int x) /\ (ksub u u x x = 0 <-> f32_int x).
Proof.
  intros u x. unfold keq, ksub. rewrite from_other_same, Z.eqb_eq, <- near24_fix. split; split; lia.
Qed.
Print Assumptions C30_self_partial.
Example C30_self_case : f32_int 33554436 /\ keq MS MS 33554436 33554436 = true /\ keq MS MS 33554434 33554434 = false.
Proof. split; [exists 8388609, 2; lia|]. vm_compute. split; reflexivity. Qed.

(** C30, any operands: order is kept up to ties. *)
Theorem C30_order_partial : forall u x y z, y <= z -> (kle u u x y = true -> kle u u x z = true) /\ (klt u u x y = true -> klt u u x z = true).
Proof.
  intros u x y z H. unfold kle, klt. rewrite !from_other_same. pose proof (near24_mono y z H). split; lia.
Qed.
Print Assumptions C30_order_partial.
Example C30_order_case : 16777217 <= 16777219 /\ kle MS MS 16777216 16777217 = true. Proof. vm_compute. split; [discriminate|reflexivity]. Qed.

(** Operations without a second time are exact. *)
Theorem C30_unary : forall x s, kneg x + x = 0 /\ kscale x s = x * s /\ (kis_negative x = true <-> x < 0) /\
  kdiv_scalar x s = (if s =? 0 then Halt else Ok (Z.quot x s)).
Proof. intros x s. unfold kneg, kscale, kis_negative, kdiv_scalar. rewrite Z.ltb_lt. splits; try lia; reflexivity. Qed.
Print Assumptions C30_unary.
Example C30_unary_case : kscale 16777217 3 = 50331651 /\ kdiv_scalar (-7) 2 = Ok (-3). Proof. split; reflexivity. Qed.

(** C30 is false beyond: after 4 hours 39 minutes and 37.217 seconds a time in milliseconds does not equal itself. *)
Theorem C30_equality_refuted : exists x, keq MS MS x x = false /\ klt MS MS x x = false /\ kgt MS MS x x = true.
Proof. exists 16777217. vm_compute. repeat split. Qed.
Print Assumptions C30_equality_refuted.
Theorem C30_difference_refuted : exists x y, ksub MS MS x x = 1 /\ x < y /\ ksub MS MS y y = -1 /\ kadd MS MS 0 x <> x.
Proof. exists 16777217, 16777219. vm_compute. repeat split. discriminate. Qed.
Print Assumptions C30_difference_refuted.

(** C31. Conversions between any two units of kernel time give the nearest count while the time is less than 1677721 of the
    smaller of the two units (28 minutes, when that is the millisecond). Missing: longer times, see C31_hours_refuted. *)
Theorem C31_nearest_partial : forall other this x,
  Z.abs (x * micros_per other) < 1677721 * Z.min (micros_per other) (micros_per this) ->
  nearest_count other this x (kconv this other x).
Proof. exact from_other_nearest. Qed.
Print Assumptions C31_nearest_partial.
Example C31_nearest_case : Z.abs (1677 * micros_per SEC) < 1677721 * Z.min (micros_per SEC) (micros_per MS) /\ kconv MS SEC 1677 = 1677000.
Proof. vm_compute. split; reflexivity. Qed.
Example C31_nearest_case_up : Z.abs (1677499 * micros_per MS) < 1677721 * Z.min (micros_per MS) (micros_per SEC) /\ kconv SEC MS 1677499 = 1677.
Proof. vm_compute. split; reflexivity. Qed.

(** C31, any time: the result is off by at most half a count and 5 * 2^-24 of the value. *)
Theorem C31_error_partial : forall other this x,
  2 ^ 24 * (2 * Z.abs (kconv this other x * micros_per this - x * micros_per other)) <=
  2 ^ 24 * micros_per this + 10 * Z.abs (x * micros_per other).
Proof. exact from_other_error. Qed.
Print Assumptions C31_error_partial.
Example C31_error_case : kconv MS DAY 365 = 31535996928 /\ kconv SEC HOUR 24 = 86400. Proof. vm_compute. split; reflexivity. Qed.

(** C31 is false: 3 hours are 10799999 ms and a day is 86399992 ms. *)
Theorem C31_hours_refuted : exists x, kconv MS HOUR x = 10799999 /\ ~ nearest_count HOUR MS x (kconv MS HOUR x).
Proof. exists 3. vm_compute. split; [reflexivity|]. intros H. apply H. reflexivity. Qed.
Print Assumptions C31_hours_refuted.
Theorem C31_day_refuted : exists x, kconv MS DAY x = 86399992 /\ ~ nearest_count DAY MS x (kconv MS DAY x).
Proof. exists 1. vm_compute. split; [reflexivity|]. intros H. apply H. reflexivity. Qed.
Print Assumptions C31_day_refuted.
(** time.hpp:26 documents that half a second in milliseconds is zero seconds; it is one. *)
Theorem C31_documented_refuted : exists x, x = 500 /\ kconv SEC MS x = 1 /\ keq SEC SEC (kconv SEC MS x) 0 = false.
Proof. exists 500. vm_compute. auto. Qed.
Print Assumptions C31_documented_refuted.
