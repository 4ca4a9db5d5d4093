(** C106: arithmetic of real quantities written in different units. *)
From Coq Require Import ZArith Reals Lra Lia.
From Flocq Require Import Core IEEE754.BinarySingleNaN.
From Verif Require Import Base FloatModel FloatFacts UnitModel UnitSpec UnitProofs UnitArithProofs.
Open Scope R_scope.

(** Sum and difference, the result in the unit of the left operand *)
Theorem C106_sum : forall this other x y, part x -> moderate other this y ->
  let y' := val y * (factor other / factor this) in
  finite (uadd this other x y) = true /\ finite (usub this other x y) = true /\
  Rabs (val (uadd this other x y) - (val x + y')) <= 6 / IZR (2 ^ 24) * (Rabs (val x) + Rabs y') /\
  Rabs (val (usub this other x y) - (val x - y')) <= 6 / IZR (2 ^ 24) * (Rabs (val x) + Rabs y').
Proof. exact uadd_units. Qed.
Print Assumptions C106_sum.

(** For the examples: less than 0.1 from a whole number *)
Definition near_to (x : float) (n : Z) : bool := f_lt (f_abs (f_sub x (f_ofZ n))) (f_lit 1 10).
Lemma part_whole n : (1 <= Z.abs n <= 2 ^ 24)%Z -> part (f_ofZ n) /\ val (f_ofZ n) = IZR n.
Proof.
  intros H. destruct (ofZ_exact n) as [V F]; [lia |]. split; [| exact V]. split; [exact F |]. right. rewrite V, <- abs_IZR. split.
  - apply Rle_trans with 1; [rewrite <- Rinv_1; apply Rinv_le_contravar; [lra | apply IZR_le; now vm_compute] | apply IZR_le; lia].
  - apply IZR_le. apply Z.le_trans with (2 ^ 24)%Z; [lia | now vm_compute].
Qed.
Lemma moderate_seconds : moderate Unity Milli (f_ofZ 3) /\ val (f_ofZ 3) <> 0.
Proof.
  destruct (part_whole 3) as [[F _] V]; [cbn; lia |]. split; [| rewrite V; lra]. split; [exact F |]. right. rewrite V. cbn [factor].
  change (10 ^ 3)%Z with 1000%Z. assert (IZR (2 ^ 59) >= 3000) by (apply Rle_ge, IZR_le; now vm_compute).
  assert (/ IZR (2 ^ 59) <= 1) by (rewrite <- Rinv_1; apply Rinv_le_contravar; [lra | lra]). rewrite Rabs_pos_eq by lra. lra.
Qed.
(** 250 ms and 3 s: the sum is 3249.9998 ms, as the ratio of seconds to milliseconds is 999.99994 *)
Example C106_sum_case : part (f_ofZ 250) /\ moderate Unity Milli (f_ofZ 3) /\
  near_to (uadd Milli Unity (f_ofZ 250) (f_ofZ 3)) 3250 = true /\ near_to (usub Milli Unity (f_ofZ 250) (f_ofZ 3)) (-2750) = true.
Proof.
  split; [apply part_whole; cbn; lia |]. split; [apply moderate_seconds |]. split; vm_compute; reflexivity.
Qed.

(** Product and quotient of the counts once both are in the unit of the left operand; a zero divisor is reported in every unit *)
Theorem C106_product : forall this other x y, part x -> moderate other this y ->
  let y' := val y * (factor other / factor this) in
  finite (umul this other x y) = true /\ within 6 (val (umul this other x y)) (val x * y').
Proof. exact umul_units. Qed.
Print Assumptions C106_product.
Example C106_product_case : near_to (umul Milli Unity (f_ofZ 250) (f_ofZ 3)) 750000 = true.
Proof. vm_compute. reflexivity. Qed.
Theorem C106_quotient : forall this other x y,
  (part x -> moderate other this y -> val y <> 0 ->
   exists z, udiv this other x y = Ok z /\ finite z = true /\ within 6 (val z) (val x / (val y * (factor other / factor this)))) /\
  (finite y = true -> val y = 0 -> udiv this other x y = Halt).
Proof. exact (fun this other x y => conj (udiv_units this other x y) (udiv_zero this other x y)). Qed.
Print Assumptions C106_quotient.
(** 6 s divided by 3000 ms is 2 (in seconds); 6 s divided by 0 ms *)
Example C106_quotient_case : match udiv Unity Milli (f_ofZ 6) (f_ofZ 3000) with Ok z => near_to z 2 | _ => false end = true /\
  udiv Unity Milli (f_ofZ 6) f_zero = Halt.
Proof. split; vm_compute; reflexivity. Qed.
