(** Property C143: a band-pass in front keeps samples that are not numbers from the filters and the controller behind it. *)
From Coq Require Import ZArith Lia Reals Lra Bool List.
From Flocq Require Import Core IEEE754.BinarySingleNaN.
From Verif Require Import Base FloatModel FloatFacts PidModel PidSpec PidProofs GpioModel GpioSpec GpioProofs FilterModel FilterSpec FilterProofs GainSpec SteadySpec SteadyProofs SteadyProps GuardProofs GuardCtlProofs.
Import ListNotations.
Open Scope Z_scope.

(** Every output of a band-pass that stops on too many rejections is a number, and one of the samples so far; whatever samples come
    after the first, as long as it has not stopped. Missing for C143: a first sample that is not a number, a sample equal to the mark
    for "no sample yet", and a band-pass that passes samples after too many rejections; see below. *)
Theorem C143_band_partial : forall c x xs ys, bc_throw c = true -> is_nan x = false -> Forall (fun x => f_eq x bp_default = false) (x :: xs) ->
  bp_run (x :: xs) (bp_new c) = Ok ys -> forall i y, nth_error ys i = Some y -> is_nan y = false /\ In y (firstn (S i) (x :: xs)).
Proof. exact guard_thm. Qed.
Print Assumptions C143_band_partial.
Definition guard (mode : bp_mode) (throw : bool) : bp_config := mkBC mode (f_ofZ 100) (f_ofZ 0) 2 throw.
Definition spiky : list float := [f_ofZ 10; f_nan; f_nan; f_ofZ 20; f_nan; f_ofZ 500; f_ofZ 24].
Example C143_band_case : Forall (fun x => f_eq x bp_default = false) spiky /\ (exists ys, bp_run spiky (bp_new (guard RELATIVE true)) = Ok ys /\
  (forallb (fun p => f_eq (fst p) (snd p)) (combine ys (map f_ofZ [10; 10; 10; 20; 20; 20; 24])) && (length ys =? 7)%nat) = true).
Proof. split; [repeat (apply Forall_cons; [vm_compute; reflexivity|]); constructor|]. apply ok_test. vm_compute. reflexivity. Qed.

(** So a moving average behind it gives one output for each sample, which lies between two of the samples so far: these are numbers *)
Theorem C143_average_partial : forall dbg c k x xs zs, bc_throw c = true -> f_le (f_ofZ 2) k = true ->
  is_nan x = false -> Forall (fun x => f_eq x bp_default = false) (x :: xs) ->
  Forall (fun x => is_nan x = true \/ (is_finite x = true /\ (Rabs (B2R x) <= bpow radix2 126)%R)) (x :: xs) ->
  stack_run dbg (build [of_bandpass (bp_new c); of_ewma (ewma_new k)]) (x :: xs) = Ok zs ->
  length zs = S (length xs) /\ forall i z, nth_error zs i = Some z ->
  exists a b, In a (firstn (S i) (x :: xs)) /\ In b (firstn (S i) (x :: xs)) /\ f_le a z = true /\ f_le z b = true.
Proof. exact guarded_thm. Qed.
Print Assumptions C143_average_partial.
Example C143_average_case : f_le (f_ofZ 2) (f_ofZ 2) = true /\ exists zs, stack_run true (build [of_bandpass (bp_new (guard RELATIVE true)); of_ewma (ewma_new (f_ofZ 2))]) spiky = Ok zs /\
  (f_eq (nth 2 zs f_zero) (f_ofZ 10) && (f_eq (nth 3 zs f_zero) (f_ofZ 15) && f_lt (nth 6 zs f_zero) (f_ofZ 24))) = true.
Proof. split; [vm_compute; reflexivity|]. apply ok_test. vm_compute. reflexivity. Qed.

(** And a controller behind both always has a number within its limits for a response *)
Theorem C143_controller_partial : forall dbg c k cfg now0 sp x xs zs ts p0 p, bc_throw c = true -> f_le (f_ofZ 2) k = true ->
  is_nan x = false -> Forall (fun x => f_eq x bp_default = false) (x :: xs) ->
  Forall (fun x => is_nan x = true \/ (is_finite x = true /\ (Rabs (B2R x) <= bpow radix2 40)%R)) (x :: xs) ->
  stack_run dbg (build [of_bandpass (bp_new c); of_ewma (ewma_new k)]) (x :: xs) = Ok zs ->
  modest cfg -> up_to 40 sp -> pid_new dbg now0 cfg = Ok p0 ->
  pid_run dbg (PInitialize :: PSetpoint sp :: map (fun r => PReading (fst r) (snd r)) (combine zs ts)) p0 = Ok p ->
  exists y, pid_response dbg p = Ok y /\ is_finite y = true /\ within (c_lower cfg, c_upper cfg) y.
Proof. exact guarded_controller. Qed.
Print Assumptions C143_controller_partial.
Example C143_controller_case : modest steady_cfg /\ up_to 40 (f_ofZ 30) /\ exists p,
  (zs <- stack_run true (build [of_bandpass (bp_new (guard RELATIVE true)); of_ewma (ewma_new (f_ofZ 2))]) spiky ;; p0 <- pid_new true 0 steady_cfg ;;
   pid_run true (PInitialize :: PSetpoint (f_ofZ 30) :: map (fun r => PReading (fst r) (snd r)) (combine zs [1000; 2000; 3000; 4000; 5000; 6000; 7000])) p0) = Ok p /\
  match pid_response true p with Ok y => f_eq y (f_ofZ 1) | _ => false end = true.
Proof. split; [exact steady_modest|]. split; [apply modest_Z; lia|]. apply ok_test. vm_compute. reflexivity. Qed.

(** Without the band-pass one such sample spoils the average for good: every output from it on is not a number, whatever came before and
    comes after *)
Theorem C143_lost : forall k h x xs, is_nan x = true -> Forall (fun y => is_nan y = true) (skipn (length h) (ewma_run (h ++ x :: xs) (ewma_new k))).
Proof. intros k h x xs N. exact (lost_thm h k (ewma_new k) x xs eq_refl (or_introl eq_refl) N). Qed.
Print Assumptions C143_lost.
Example C143_lost_case : is_nan f_nan = true /\ (f_eq (nth 0 (ewma_run spiky (ewma_new (f_ofZ 2))) f_nan) (f_ofZ 10) && (length (skipn 1 (ewma_run spiky (ewma_new (f_ofZ 2)))) =? 6)%nat) = true.
Proof. split; vm_compute; reflexivity. Qed.

(** C143 is false: the band-pass takes its first sample unseen, *)
Theorem C143_first_refuted : exists c x x', bc_throw c = true /\ is_nan x = true /\ is_nan x' = false /\
  exists ys, bp_run [x; x'] (bp_new c) = Ok ys /\ forallb (fun y => is_nan y) ys && (length ys =? 2)%nat = true.
Proof.
  exists (guard RELATIVE true), f_nan, (f_ofZ 10). split; [reflexivity|]. split; [reflexivity|]. split; [vm_compute; reflexivity|].
  apply ok_test. vm_compute. reflexivity.
Qed.
(** and again one that follows a sample that happens to be its mark for "no sample yet", *)
Theorem C143_mark_refuted : exists c s x, bc_throw c = true /\ is_finite s = true /\ is_nan x = true /\
  exists ys, bp_run [f_ofZ (-789); s; x] (bp_new c) = Ok ys /\ is_nan (nth 2 ys f_zero) = true.
Proof.
  exists (guard RELATIVE true), bp_default, f_nan. split; [reflexivity|]. split; [vm_compute; reflexivity|]. split; [reflexivity|].
  apply ok_test. vm_compute. reflexivity.
Qed.
(** and when it is not to stop, it passes the sample after too many in a row. From then on, with a band relative to the last output,
    the next good samples are rejected too. *)
Theorem C143_pass_refuted : exists c, bc_throw c = false /\
  exists ys, bp_run [f_ofZ 10; f_nan; f_nan; f_nan; f_ofZ 11] (bp_new c) = Ok ys /\ is_nan (nth 3 ys f_zero) = true.
Proof. exists (guard RELATIVE false). split; [reflexivity|]. apply ok_test. vm_compute. reflexivity. Qed.
