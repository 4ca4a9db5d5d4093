(** Property C87: conversions between units of kernel time keep the order; their arithmetic is that of binary32. *)
From Coq Require Import ZArith Bool Lia.
From Verif Require Import Base KTimeModel KTimeSpec KTimeProofs KTimeFlocq KTimeFloat.
Open Scope Z_scope.

(** A longer time never converts to a smaller count. *)
Theorem C87_order : forall this other x y, x <= y -> kconv this other x <= kconv this other y.
Proof. intros this other x y. apply from_other_mono. Qed.
Print Assumptions C87_order.
Example C87_order_case : kconv HOUR MS 5399999 = 1 /\ kconv HOUR MS 5400001 = 2 /\ kconv DAY US 86400000000000 = 1000.
Proof. vm_compute. repeat split. Qed.

(** What is not later than a time in another unit is not later than anything after it, and sums grow with their parts. *)
Lemma c87_compare : forall this other x x' y y', x' <= x -> y <= y' ->
  (kle this other x y = true -> kle this other x' y' = true) /\ (klt this other x y = true -> klt this other x' y' = true) /\
  kadd this other x' y <= kadd this other x y' /\ ksub this other x' y' <= ksub this other x y.
Proof.
  intros this other x x' y y' X Y. unfold kle, klt, kadd, ksub. pose proof (from_other_mono other this y y' Y).
  repeat split; rewrite ?Z.leb_le, ?Z.ltb_lt; lia.
Qed.
Theorem C87_compare : forall this other x x' y y', x' <= x -> y <= y' ->
  (kle this other x y = true -> kle this other x' y' = true) /\ (klt this other x y = true -> klt this other x' y' = true) /\
  kadd this other x' y <= kadd this other x y' /\ ksub this other x' y' <= ksub this other x y.
Proof. exact c87_compare. Qed.
Print Assumptions C87_compare.
Example C87_compare_case : kle SEC MS 2 1600 = true /\ kle SEC MS 1 1700 = true /\ kadd SEC MS 1 1600 = 3.
Proof. vm_compute. repeat split. Qed.

(** The integer computation of conversions used throughout is std::round of the product of the ratio and the count in binary32, for
    every count of 64 bits. *)
Theorem C87_binary32 : forall this other x, Z.abs x <= 2 ^ 63 -> from_other_float other this x = Some (kconv this other x).
Proof. intros this other x. apply from_other_float_ok. Qed.
Print Assumptions C87_binary32.
Example C87_binary32_case : from_other_float DAY MS 1 = Some 86399992 /\ kconv MS DAY 1 = 86399992.
Proof. vm_compute. split; reflexivity. Qed.
