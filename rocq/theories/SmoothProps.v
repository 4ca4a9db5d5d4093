(** Property C144: a latch behind a moving average. *)
From Coq Require Import ZArith Lia Reals Lra Bool List.
From Flocq Require Import Core IEEE754.BinarySingleNaN.
From Verif Require Import Base FloatModel FloatFacts PidProofs FilterModel FilterSpec FilterProofs FilterProps EaseSpec EaseProofs EaseProps LatchModel LatchSpec SmoothSpec SmoothProofs.
Import ListNotations.
Open Scope Z_scope.

(** The latch is read at the times [ts], each reading is the average of the samples so far; [after .. i] is its output after [i] of them. *)
Definition after (k : float) (cfg : config float) (t0 : Z) (ts : list Z) (xs : list float) (i : nat) : bool :=
  response (readings float f_lt cfg (latch_new float cfg t0) (firstn i (combine ts (ewma_run xs (ewma_new k))))).

(** The latch switches on only at a sample that is itself above the upper level, and off only at one below the lower level: averaging
    delays switching, but adds none. Missing for C144: latches with minimal or maximal times, see below; samples above 2^126 and frames
    shorter than two samples, see C43; readings closer in time than the clock resolves, see C37_plain_refuted. *)
Theorem C144_causes_partial : forall k cfg t0 ts xs, f_le (f_ofZ 2) k = true -> Forall (fun x => finite x = true /\ (Rabs (val x) <= bpow radix2 126)%R) xs ->
  max_on _ cfg = 0 /\ max_off _ cfg = 0 /\ min_on _ cfg = 0 /\ min_off _ cfg = 0 -> spaced t0 ts ->
  finite (high _ cfg) = true -> finite (low _ cfg) = true -> f_le (low _ cfg) (high _ cfg) = true ->
  forall i x, nth_error xs i = Some x ->
  (after k cfg t0 ts xs i = false -> after k cfg t0 ts xs (S i) = true -> f_lt (high _ cfg) x = true) /\
  (after k cfg t0 ts xs i = true -> after k cfg t0 ts xs (S i) = false -> f_lt x (low _ cfg) = true).
Proof.
  intros k cfg t0 ts xs K B U Sp Fh Fl Hl i x X. split; intros H1 H2.
  - exact (on_cause k cfg t0 ts xs K B U Sp Fh Fl i x H1 H2 X).
  - exact (off_cause k cfg t0 ts xs K B U Sp Fh Fl Hl i x H1 H2 X).
Qed.
Print Assumptions C144_causes_partial.
Definition room : config float := mkConfig float (f_ofZ 30) (f_ofZ 20) 0 0 0 0.
Definition swing : list float := ints [25; 40; 28; 50; 29; 0; 0; 25].
Definition seconds : list Z := [1000; 2000; 3000; 4000; 5000; 6000; 7000; 8000].
Lemma seconds_spaced : spaced 0 seconds.
Proof.
  intros p t q E. unfold seconds in E. do 8 (destruct p as [|? p]; [injection E as <- _; repeat constructor; lia|injection E as <- E]). destruct p; discriminate E.
Qed.
Example C144_causes_case : Forall (fun x => finite x = true /\ (Rabs (val x) <= bpow radix2 126)%R) swing /\ spaced 0 seconds /\
  map (after (f_ofZ 2) room 0 seconds swing) [0; 1; 2; 3; 4; 5; 6; 7; 8]%nat = [false; false; true; true; true; true; false; false; false].
Proof. split; [apply ints_small; reflexivity|]. split; [exact seconds_spaced|]. vm_compute. reflexivity. Qed.

(** While no sample was above the upper level it has never been on; here with any minimal and maximal times but the one that forces it on,
    at any times *)
Theorem C144_quiet_partial : forall k cfg t0 ts xs, f_le (f_ofZ 2) k = true -> Forall (fun x => finite x = true /\ (Rabs (val x) <= bpow radix2 126)%R) xs ->
  max_off _ cfg = 0 -> Forall (fun x => f_le x (high _ cfg) = true) xs ->
  response (readings float f_lt cfg (latch_new float cfg t0) (combine ts (ewma_run xs (ewma_new k)))) = false.
Proof. exact quiet_thm. Qed.
Print Assumptions C144_quiet_partial.
Example C144_quiet_case : Forall (fun x => f_le x (high _ room) = true) (ints [25; 10; 30]) /\ Forall (fun x => finite x = true /\ (Rabs (val x) <= bpow radix2 126)%R) (ints [25; 10; 30]).
Proof. split; [repeat (apply Forall_cons; [vm_compute; reflexivity|]); constructor|]. apply ints_small. reflexivity. Qed.

(** It does react: a value [c] above the upper level by a margin, once it has lasted for so many samples that the rest of the past is less
    than the margin, has it on, whatever the samples before *)
Theorem C144_reacts_partial : forall B k cfg t0 ts xs c m, (bpow radix2 (-100) <= B <= bpow radix2 126)%R -> f_le (f_ofZ 2) k = true -> f_le k (f_ofZ (2 ^ 24)) = true ->
  xs <> [] -> Forall (fun x => finite x = true /\ (Rabs (val x) <= B)%R) (c :: xs) ->
  max_on _ cfg = 0 /\ max_off _ cfg = 0 /\ min_on _ cfg = 0 /\ min_off _ cfg = 0 -> spaced t0 ts -> finite (high _ cfg) = true ->
  length ts = (length xs + m)%nat ->
  (val (high _ cfg) + ((1 - / val k) ^ m * (2 * B) + bpow radix2 (-22) * B * val k) < val c)%R ->
  response (readings float f_lt cfg (latch_new float cfg t0) (combine ts (ewma_run (xs ++ repeat c m) (ewma_new k)))) = true.
Proof. exact reacts_thm. Qed.
Print Assumptions C144_reacts_partial.
Example C144_reacts_case : length seconds = (length (ints [0; 10]%Z) + 6)%nat /\ Forall (fun x => finite x = true /\ (Rabs (val x) <= 64)%R) (f_ofZ 60 :: ints [0; 10]) /\
  (val (high _ room) + ((1 - / val (f_ofZ 2)) ^ 6 * (2 * 64) + bpow radix2 (-22) * 64 * val (f_ofZ 2)) < val (f_ofZ 60))%R /\
  response (readings float f_lt room (latch_new float room 0) (combine seconds (ewma_run (ints [0; 10] ++ repeat (f_ofZ 60) 6) (ewma_new (f_ofZ 2))))) = true.
Proof.
  split; [reflexivity|]. split.
  - cbn [ints map]. repeat (apply Forall_cons; [match goal with |- finite (f_ofZ ?z) = true /\ _ => destruct (ofZ_exact z) as [E F]; [now vm_compute|]; split; [exact F|rewrite E; unfold Rabs; destruct Rcase_abs; lra] end|]). constructor.
  - split; [|vm_compute; reflexivity]. cbn [room high]. destruct (ofZ_exact 30) as [-> _]; [now vm_compute|]. destruct (ofZ_exact 2) as [-> _]; [now vm_compute|]. destruct (ofZ_exact 60) as [-> _]; [now vm_compute|].
    change (bpow radix2 (-22)) with (/ 4194304)%R. lra.
Qed.

(** and likewise a value below the lower level has it off *)
Theorem C144_reacts_low_partial : forall B k cfg t0 ts xs c m, (bpow radix2 (-100) <= B <= bpow radix2 126)%R -> f_le (f_ofZ 2) k = true -> f_le k (f_ofZ (2 ^ 24)) = true ->
  xs <> [] -> Forall (fun x => finite x = true /\ (Rabs (val x) <= B)%R) (c :: xs) ->
  max_on _ cfg = 0 /\ max_off _ cfg = 0 /\ min_on _ cfg = 0 /\ min_off _ cfg = 0 -> spaced t0 ts -> finite (high _ cfg) = true ->
  finite (low _ cfg) = true -> f_le (low _ cfg) (high _ cfg) = true -> length ts = (length xs + m)%nat ->
  (val c + ((1 - / val k) ^ m * (2 * B) + bpow radix2 (-22) * B * val k) < val (low _ cfg))%R ->
  response (readings float f_lt cfg (latch_new float cfg t0) (combine ts (ewma_run (xs ++ repeat c m) (ewma_new k)))) = false.
Proof. exact reacts_low_thm. Qed.
Print Assumptions C144_reacts_low_partial.
Example C144_reacts_low_case : (val (f_ofZ 5) + ((1 - / val (f_ofZ 2)) ^ 6 * (2 * 64) + bpow radix2 (-22) * 64 * val (f_ofZ 2)) < val (low _ room))%R /\ f_le (low _ room) (high _ room) = true /\
  response (readings float f_lt room (latch_new float room 0) (combine seconds (ewma_run (ints [60; 50]) (ewma_new (f_ofZ 2))))) = true /\
  response (readings float f_lt room (latch_new float room 0) (combine seconds (ewma_run (ints [60; 50] ++ repeat (f_ofZ 5) 6) (ewma_new (f_ofZ 2))))) = false.
Proof.
  split; [|split; [vm_compute; reflexivity|split; vm_compute; reflexivity]]. cbn [room low]. destruct (ofZ_exact 5) as [-> _]; [now vm_compute|]. destruct (ofZ_exact 2) as [-> _]; [now vm_compute|]. destruct (ofZ_exact 20) as [-> _]; [now vm_compute|].
  change (bpow radix2 (-22)) with (/ 4194304)%R. lra.
Qed.

(** C144 is false with a minimal time: the latch may switch on late, at a sample between the levels *)
Theorem C144_minimal_refuted : exists k cfg ts xs i x, f_le (f_ofZ 2) k = true /\ max_on _ cfg = 0 /\ max_off _ cfg = 0 /\ min_on _ cfg = 0 /\ spaced 0 ts /\
  nth_error xs i = Some x /\ after k cfg 0 ts xs i = false /\ after k cfg 0 ts xs (S i) = true /\ f_le (low _ cfg) x && f_le x (high _ cfg) = true.
Proof.
  exists (f_ofZ 2), (mkConfig float (f_ofZ 30) (f_ofZ 20) 0 0 5000 0), seconds, (ints [100; -200; 300; 25; 25; 25; 25]), 6%nat, (f_ofZ 25).
  split; [vm_compute; reflexivity|]. do 3 (split; [reflexivity|]). split; [exact seconds_spaced|]. split; [reflexivity|]. split; [vm_compute; reflexivity|]. split; vm_compute; reflexivity.
Qed.
(** and without a margin it may never react, however long the samples are above the upper level *)
Theorem C144_margin_refuted : exists k cfg x c, f_le (f_ofZ 2) k = true /\ (max_on _ cfg = 0 /\ max_off _ cfg = 0 /\ min_on _ cfg = 0 /\ min_off _ cfg = 0) /\
  f_lt (high _ cfg) c = true /\ forall m t0 ts, response (readings float f_lt cfg (latch_new float cfg t0) (combine ts (ewma_run (x :: repeat c m) (ewma_new k)))) = false.
Proof.
  exists (f_ofZ 2), (mkConfig float (f_ofZ 1) (f_ofZ 0) 0 0 0 0), (f_ofZ 1), next_one.
  split; [vm_compute; reflexivity|]. split; [repeat split; reflexivity|]. split; [vm_compute; reflexivity|]. intros m t0 ts. apply stays_off; [reflexivity|reflexivity|].
  assert (A : Forall (fun y => y = f_ofZ 1) (ewma_run (f_ofZ 1 :: repeat next_one m) (ewma_new (f_ofZ 2)))).
  { assert (X : small (f_ofZ 1)) by (pose proof (ints_small [1] eq_refl) as H; exact (Forall_inv H)).
    destruct (start_ready (f_ofZ 2) (f_ofZ 1) ltac:(vm_compute; reflexivity) X) as [E _]. cbn [ewma_run]. rewrite E. constructor; [reflexivity|]. apply stuck, count_1. }
  apply Forall_forall. intros [t y] I. apply in_combine_r in I. pose proof (proj1 (Forall_forall _ _) A y I) as Ey. cbn [snd]. rewrite Ey. vm_compute. reflexivity.
Qed.
Print Assumptions C144_margin_refuted.
