(** Property C140: the gains found by autotuning can be set as tunings. *)
From Coq Require Import ZArith Lia Reals Lra Bool List.
From Flocq Require Import Core IEEE754.BinarySingleNaN.
From Verif Require Import Base FloatModel FloatFacts PidModel TunerModel TunerSpec TunerProofs GainSpec GainProofs PidProofs.
Import ListNotations.
Open Scope Z_scope.

(** Gains found by measurements that are apart by more than the 2^24th part of the uptime are not negative, and a controller
    accepts them with its assertions enabled. Missing for C140: shorter waits (false, below) and a single cycle (false, below). *)
Theorem C140_tunings_partial : forall c t0 ms os t, sensible c -> 0 <= t0 -> measured t0 ms -> well_apart (map snd ms) -> Forall (fun m => snd m <= 2 ^ 62) ms ->
  autotune_loop c ms (start c t0) = Some (os, t) ->
  (f_ge (gp t) f_zero = true /\ f_ge (gi t) f_zero = true /\ f_ge (gd t) f_zero = true) /\
  forall dbg p k, 0 < sampling k -> exists k', set_tunings dbg (gp t) (gi t) (gd t) p k = Ok k'.
Proof.
  intros c t0 ms os t Hc H0 [Fm Lt] Ap Lm E. assert (Ln : match ms with [] => True | m :: _ => t0 <= snd m end) by (destruct ms; [exact Logic.I|apply Lt]).
  split; [exact (gains_nonneg c Hc t0 ms os t H0 Fm Ln Ap Lm E)|]. intros dbg p k Hk. exact (gains_set c Hc t0 ms os t p H0 Fm Ln Ap Lm E dbg k Hk).
Qed.
Print Assumptions C140_tunings_partial.
(** So in the first 2^24 ms (4.6 hours) whatever the waits *)
Theorem C140_early_partial : forall c t0 ms os t, sensible c -> 0 <= t0 -> measured t0 ms -> Forall (fun m => snd m <= 2 ^ 24) ms ->
  autotune_loop c ms (start c t0) = Some (os, t) ->
  forall dbg p k, 0 < sampling k -> exists k', set_tunings dbg (gp t) (gi t) (gd t) p k = Ok k'.
Proof.
  intros c t0 ms os t Hc H0 M Lm E. apply (C140_tunings_partial c t0 ms os t Hc H0 M); [apply (later_well_apart t0); [exact H0|apply M|exact Lm]| |exact E].
  apply (Forall_impl _ (P := fun m => snd m <= 2 ^ 24)); [intros m Hm; lia|exact Lm].
Qed.
Print Assumptions C140_early_partial.

Definition gain_c : tuner_config := configure (f_ofZ 50) (f_ofZ 1) 1000 (f_ofZ 0) (f_ofZ 100) BasicPID 3.
Definition gain_ms (t d : Z) : list (float * Z) :=
  [(f_ofZ 60, t); (f_ofZ 40, t + d); (f_ofZ 61, t + 2 * d); (f_ofZ 39, t + 3 * d); (f_ofZ 62, t + 4 * d); (f_ofZ 45, t + 5 * d)].
Lemma gain_ok n : 2 <= n <= 100 -> sensible (with_cycles gain_c n).
Proof.
  assert (U : forall z, Z.abs z <= 100 -> up_to 120 (f_ofZ z)).
  { intros z Hz. destruct (ofZ_exact z) as [E F]; [lia|]. split; [exact F|]. unfold val in E. rewrite E, <- abs_IZR. apply Rle_trans with (IZR 128); [apply IZR_le; lia|]. change (IZR 128) with (bpow radix2 7). apply bpow_le. lia. }
  intros H. constructor.
  - split; [apply U; lia|split; [apply U; lia|vm_compute; reflexivity]].
  - assert (E : t_hyst (with_cycles gain_c n) = f_ofZ 1) by (apply B2SF_inj; vm_compute; reflexivity). rewrite E. split; [apply U; lia|split; [apply U; lia|vm_compute; reflexivity]].
  - cbn. lia.
  - cbn. lia.
Qed.
Lemma gain_measured t d : 0 < d -> measured t (gain_ms t d).
Proof. intros H. split; [repeat constructor; vm_compute; reflexivity|]. cbn [gain_ms later map snd]. lia. Qed.
Example C140_case : sensible gain_c /\ measured 500 (gain_ms 500 1000) /\ Forall (fun m => snd m <= 2 ^ 24) (gain_ms 500 1000) /\
  exists os t, autotune_loop gain_c (gain_ms 500 1000) (start gain_c 0) = Some (os, t) /\
    f_gt (gp t) (f_ofZ 1) = true /\ f_gt (gi t) (f_ofZ 1) = true /\ f_gt (gd t) f_zero = true.
Proof.
  split; [exact (gain_ok 3 ltac:(lia))|]. split; [apply gain_measured; lia|]. split; [repeat constructor; cbn; lia|].
  destruct (some_test (autotune_loop gain_c (gain_ms 500 1000) (start gain_c 0)) (fun r => f_gt (gp (snd r)) (f_ofZ 1) && (f_gt (gi (snd r)) (f_ofZ 1) && f_gt (gd (snd r)) f_zero))) as ([os t] & H1 & H2); [vm_compute; reflexivity|].
  exists os, t. split; [exact H1|]. cbn [snd] in H2. apply andb_prop in H2. destruct H2 as [A H2]. apply andb_prop in H2. destruct H2 as [B D]. auto.
Qed.

(** 40 days after the start, measured every second *)
Example C140_apart_case : measured (40 * 86400000) (gain_ms (40 * 86400000) 1000) /\ well_apart (map snd (gain_ms (40 * 86400000) 1000)) /\
  exists os t, autotune_loop gain_c (gain_ms (40 * 86400000) 1000) (start gain_c (40 * 86400000)) = Some (os, t) /\ f_gt (gi t) (f_ofZ 1) = true.
Proof.
  split; [apply gain_measured; lia|]. split; [cbn [map gain_ms snd well_apart apart]; lia|].
  destruct (some_test (autotune_loop gain_c (gain_ms (40 * 86400000) 1000) (start gain_c (40 * 86400000))) (fun r => f_gt (gi (snd r)) (f_ofZ 1))) as ([os t] & H1 & H2); [vm_compute; reflexivity|].
  exists os, t. split; [exact H1|exact H2].
Qed.
(** Later the integral gain can be below zero: times past 2^24 ms are rounded when they are subtracted. The assertions of the
    controller then stop the program. *)
Theorem C140_uptime_refuted : exists c t0 ms os t, sensible c /\ 0 <= t0 /\ measured t0 ms /\ Forall (fun m => snd m < t0 + 30) ms /\
  autotune_loop c ms (start c t0) = Some (os, t) /\ f_lt (gi t) f_zero = true /\
  forall p k, set_tunings true (gp t) (gi t) (gd t) p k = Halt.
Proof.
  exists gain_c, (2 ^ 32 + 270), (gain_ms (2 ^ 32 + 270) 5).
  destruct (some_test (autotune_loop gain_c (gain_ms (2 ^ 32 + 270) 5) (start gain_c (2 ^ 32 + 270))) (fun r => f_lt (gi (snd r)) f_zero && negb (f_ge (gi (snd r)) f_zero))) as ([os t] & H1 & H2); [vm_compute; reflexivity|].
  cbn [snd] in H2. apply andb_prop in H2. destruct H2 as [A B]. apply negb_true_iff in B. exists os, t.
  split; [exact (gain_ok 3 ltac:(lia))|]. split; [lia|]. split; [apply gain_measured; lia|]. split; [repeat constructor; cbn [snd]; lia|].
  split; [exact H1|]. split; [exact A|]. intros p k. unfold set_tunings. rewrite B, andb_false_r. reflexivity.
Qed.
(** One cycle of tuning gives gains that are not numbers *)
Theorem C140_one_refuted : exists c t0 ms os t, t_cycles c = 1 /\ sensible (with_cycles c 2) /\ 0 <= t0 /\ measured t0 ms /\ Forall (fun m => snd m <= 2 ^ 24) ms /\
  autotune_loop c ms (start c t0) = Some (os, t) /\
  forall p k, set_tunings true (gp t) (gi t) (gd t) p k = Halt.
Proof.
  exists (with_cycles gain_c 1), 500, (gain_ms 500 1000).
  destruct (some_test (autotune_loop (with_cycles gain_c 1) (gain_ms 500 1000) (start (with_cycles gain_c 1) 500)) (fun r => negb (f_ge (gp (snd r)) f_zero))) as ([os t] & H1 & H2); [vm_compute; reflexivity|].
  cbn [snd] in H2. apply negb_true_iff in H2. exists os, t.
  split; [reflexivity|]. split; [exact (gain_ok 2 ltac:(lia))|]. split; [lia|]. split; [apply gain_measured; lia|]. split; [repeat constructor; cbn [snd]; lia|].
  split; [exact H1|]. intros p k. unfold set_tunings. rewrite H2. reflexivity.
Qed.
