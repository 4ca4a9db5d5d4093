(** Property C139: the moving average follows its samples without overshooting. *)
From Coq Require Import ZArith Lia Reals Lra Bool List.
From Flocq Require Import Core IEEE754.BinarySingleNaN.
From Verif Require Import Base FloatModel FloatFacts PidProofs TunerProofs FilterModel FilterSpec FilterProofs FilterProps AvgProps EaseSpec EaseProofs.
Import ListNotations.
Open Scope Z_scope.

(** Every sample moves the output toward the sample, and not beyond it. Missing, here and below: samples above 2^126, see C43_overflow_refuted,
    and frames shorter than two samples, see C43_one_refuted. *)
Theorem C139_toward_partial : forall k xs i x y y', f_le (f_ofZ 2) k = true -> Forall (fun x => finite x = true /\ (Rabs (val x) <= bpow radix2 126)%R) xs -> nth_error xs (S i) = Some x ->
  nth_error (ewma_run xs (ewma_new k)) i = Some y -> nth_error (ewma_run xs (ewma_new k)) (S i) = Some y' -> toward y x y'.
Proof. exact @steps_right. Qed.
Print Assumptions C139_toward_partial.
(** After a step to [c], whatever came before, the output goes to [c] without turning back: a later output is between an earlier one and [c]. *)
Theorem C139_approach_partial : forall k xs c m i j y y', f_le (f_ofZ 2) k = true -> Forall (fun x => finite x = true /\ (Rabs (val x) <= bpow radix2 126)%R) (c :: xs) -> (length xs <= S i)%nat -> (i <= j)%nat ->
  nth_error (ewma_run (xs ++ repeat c m) (ewma_new k)) i = Some y -> nth_error (ewma_run (xs ++ repeat c m) (ewma_new k)) j = Some y' -> i = j \/ toward y c y'.
Proof. exact @approach_right. Qed.
Print Assumptions C139_approach_partial.
Lemma ints_small zs : forallb (fun z => Z.abs z <=? 2 ^ 24) zs = true -> Forall (fun x => finite x = true /\ (Rabs (val x) <= bpow radix2 126)%R) (ints zs).
Proof.
  intros H. unfold ints. apply Forall_map, Forall_forall. intros z Hz. rewrite forallb_forall in H. specialize (H z Hz). apply Z.leb_le in H. apply int_upto; [exact H|].
  apply Rle_trans with (IZR (2 ^ 24)); [apply IZR_le, H|]. change (IZR (2 ^ 24)) with (bpow radix2 24). apply bpow_le. lia.
Qed.
Example C139_case : f_le (f_ofZ 2) (f_ofZ 2) = true /\ Forall (fun x => finite x = true /\ (Rabs (val x) <= bpow radix2 126)%R) (ints [16; 0; 8]) /\
  same (ewma_run (ints [0; 8] ++ repeat (f_ofZ 16) 3) (ewma_new (f_ofZ 2))) [f_ofZ 0; f_ofZ 4; f_ofZ 10; f_ofZ 13; f_lit 29 2] = true.
Proof. split; [vm_compute; reflexivity|]. split; [apply ints_small; reflexivity|vm_compute; reflexivity]. Qed.

(** But it need not get there, however long the step lasts: the output stays at 1 while every sample is the next float. *)
Theorem C139_reaches_refuted : exists k x c, f_le (f_ofZ 2) k = true /\ finite x = true /\ finite c = true /\ f_lt x c = true /\
  forall m, Forall (fun y => f_lt y c = true) (ewma_run (x :: repeat c m) (ewma_new k)).
Proof.
  exists (f_ofZ 2), (f_ofZ 1), next_one. split; [vm_compute; reflexivity|]. split; [vm_compute; reflexivity|]. split; [vm_compute; reflexivity|]. split; [vm_compute; reflexivity|].
  intros m. assert (X : small (f_ofZ 1)). { pose proof (ints_small [1] eq_refl) as H. inversion H as [|? ? H1 H2]. exact H1. }
  destruct (start_ready (f_ofZ 2) (f_ofZ 1) ltac:(vm_compute; reflexivity) X) as [E _]. cbn [ewma_run]. rewrite E. constructor; [vm_compute; reflexivity|].
  eapply Forall_impl; [|apply stuck, count_1]. intros y ->. vm_compute. reflexivity.
Qed.
Print Assumptions C139_reaches_refuted.
