(** Property C126: the filters compute what they are named for, up to rounding. *)
From Coq Require Import ZArith Lia Bool List Reals Lra.
From Flocq Require Import Core IEEE754.BinarySingleNaN.
From Verif Require Import Base FloatModel FloatFacts PidProofs FilterModel FilterSpec FilterProofs AvgSpec AvgProofs.
Import ListNotations.
Open Scope Z_scope.

(** Samples up to [B]: output number i is the average of the samples so far, at most 2^-22 * B * min (i+1, K) off; the error does not
    grow with the number of samples *)
Theorem C126_average : forall (B : R) k xs, (bpow radix2 (-100) <= B <= bpow radix2 126)%R -> f_le (f_ofZ 2) k = true -> f_le k (f_ofZ (2 ^ 24)) = true ->
  Forall (fun x => finite x = true /\ (Rabs (val x) <= B)%R) xs -> forall i y, nth_error (ewma_run xs (ewma_new k)) i = Some y ->
  (Rabs (val y - average (val k) (map val (firstn (S i) xs))) <= bpow radix2 (-22) * B * Rmin (INR (S i)) (val k))%R.
Proof. exact @avg_right. Qed.
Print Assumptions C126_average.
Lemma int_upto (B : R) z : Z.abs z <= 2 ^ 24 -> (IZR (Z.abs z) <= B)%R -> finite (f_ofZ z) = true /\ (Rabs (val (f_ofZ z)) <= B)%R.
Proof. intros H1 H2. destruct (ofZ_exact z H1) as [E F]. split; [exact F|]. rewrite E, <- abs_IZR. exact H2. Qed.
Example C126_average_case : (bpow radix2 (-100) <= 32 <= bpow radix2 126)%R /\ Forall (fun x => finite x = true /\ (Rabs (val x) <= 32)%R) (map f_ofZ [10; 20; 30; 0]) /\
  (exists y, nth_error (ewma_run (map f_ofZ [10; 20; 30; 0]) (ewma_new (f_ofZ 2))) 3 = Some y /\ f_eq y (f_lit 45 4) = true) /\
  average 2 [10; 20; 30; 0]%R = (45 / 4)%R.
Proof.
  split; [split; [apply Rle_trans with (bpow radix2 0); [apply bpow_le; lia|cbn; lra]|apply Rle_trans with (bpow radix2 5); [cbn; lra|apply bpow_le; lia]]|].
  split; [cbn [map]; repeat (apply Forall_cons; [apply int_upto; (lia || (cbn; lra))|]); constructor|]. split; [apply some_test; vm_compute; reflexivity|].
  unfold average. rewrite Zfloor_IZR. change (Z.to_nat 2) with 2%nat. unfold mean. cbn. lra.
Qed.

(** Then [m] samples of one value: the output has gone there *)
Theorem C126_settles : forall (B : R) k xs c m y, (bpow radix2 (-100) <= B <= bpow radix2 126)%R -> f_le (f_ofZ 2) k = true -> f_le k (f_ofZ (2 ^ 24)) = true -> xs <> [] ->
  Forall (fun x => finite x = true /\ (Rabs (val x) <= B)%R) (c :: xs) -> nth_error (ewma_run (xs ++ repeat c m) (ewma_new k)) (length xs + m - 1) = Some y ->
  (Rabs (val y - val c) <= (1 - / val k) ^ m * (2 * B) + bpow radix2 (-22) * B * val k)%R.
Proof. exact @settles_right. Qed.
Print Assumptions C126_settles.
Example C126_settles_case : Forall (fun x => finite x = true /\ (Rabs (val x) <= 32)%R) (map f_ofZ [16; 0; 8]) /\
  exists y, nth_error (ewma_run (map f_ofZ [0; 8] ++ repeat (f_ofZ 16) 3) (ewma_new (f_ofZ 2))) (2 + 3 - 1) = Some y /\ f_eq y (f_lit 29 2) = true.
Proof. split; [cbn [map]; repeat (apply Forall_cons; [apply int_upto; (lia || (cbn; lra))|]); constructor|]. apply some_test. vm_compute. reflexivity. Qed.

(** The output is on the straight line through the two corners, the sample cut to the input range; the output range may run downwards *)
Theorem C126_mapped : forall (M : R) f s, map_ok f -> (bpow radix2 (-100) <= M)%R -> (Rabs (val (mr_olo f)) <= M)%R -> (Rabs (val (mr_ohi f)) <= M)%R -> finite s = true ->
  mr_throw f = false \/ (val (mr_ilo f) <= val s <= val (mr_ihi f))%R ->
  exists y f', mapped_value s f = Ok (y, f') /\ finite y = true /\
    (Rabs (val y - straight (val (mr_ilo f)) (val (mr_ihi f)) (val (mr_olo f)) (val (mr_ohi f)) (val s)) <= bpow radix2 (-20) * M)%R.
Proof. exact @mapped_right. Qed.
Print Assumptions C126_mapped.
Lemma int_bounded n : Z.abs n <= 2 ^ 24 -> bounded 125 (f_ofZ n).
Proof. intros H. apply int_upto; [exact H|]. apply Rle_trans with (IZR (2 ^ 24)); [apply IZR_le, H|]. change (IZR (2 ^ 24)) with (bpow radix2 24). apply bpow_le. lia. Qed.
Example C126_mapped_case : map_ok (mkMap (f_ofZ 4) (f_ofZ 20) (f_ofZ 100) (f_ofZ 0) false f_zero) /\
  (exists p, mapped_value (f_ofZ 8) (mkMap (f_ofZ 4) (f_ofZ 20) (f_ofZ 100) (f_ofZ 0) false f_zero) = Ok p /\ f_eq (fst p) (f_ofZ 75) = true) /\
  straight 4 20 100 0 8 = 75%R /\ straight 4 20 100 0 40 = 0%R.
Proof.
  split; [unfold map_ok; cbn [mr_ilo mr_ihi mr_olo mr_ohi]; split; [now apply int_bounded|]; split; [now apply int_bounded|]; split; [now apply int_bounded|]; split; [now apply int_bounded|vm_compute; reflexivity]|].
  split; [apply ok_test; vm_compute; reflexivity|]. unfold straight. split; [rewrite Rmin_right, Rmax_right by lra|rewrite Rmin_left, Rmax_right by lra]; lra.
Qed.

(** The output is as far from the upper limit as the sample is from the lower *)
Theorem C126_inverted : forall dbg (M : R) lo hi v s, bounded 125 lo -> bounded 125 hi -> (Rabs (val lo) <= M)%R -> (Rabs (val hi) <= M)%R -> f_le lo s = true -> f_le s hi = true ->
  exists y f', invert_value dbg s (mkInv lo hi v) = Ok (y, f') /\ finite y = true /\ (Rabs (val y - (val hi + val lo - val s)) <= bpow radix2 (-22) * M)%R.
Proof. exact @invert_right. Qed.
Print Assumptions C126_inverted.
Example C126_inverted_case : bounded 125 (f_ofZ (-5)) /\ f_le (f_ofZ (-5)) (f_lit 1 4) = true /\ f_le (f_lit 1 4) (f_ofZ 3) = true /\
  exists p, invert_value true (f_lit 1 4) (mkInv (f_ofZ (-5)) (f_ofZ 3) f_zero) = Ok p /\ f_eq (fst p) (f_lit (-9) 4) = true.
Proof. split; [now apply int_bounded|]. split; [vm_compute; reflexivity|]. split; [vm_compute; reflexivity|]. apply ok_test. vm_compute. reflexivity. Qed.
