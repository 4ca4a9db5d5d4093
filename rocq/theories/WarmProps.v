(** Properties C102, C103 and C104: autotuning before and between measurements. *)
From Coq Require Import ZArith Bool List Lia.
From Flocq Require Import IEEE754.BinarySingleNaN.
From Verif Require Import Base FloatModel KTimeModel KTimeProofs TimersModel TunerModel WarmModel WarmProofs.
Import ListNotations.
Open Scope Z_scope.

(** C102. The process is driven with the upper limit up to the first round that finds it at the start point, or half an hour after the
    beginning, and then set to the lower limit. [near24]: the clock of the platform as rounded to single precision, exact up to 4.6 hours
    and within its 2^24th part later (C26_clock). *)
Theorem C102_start_partial : forall lower upper sp satured t0 rs r rest, f_gt sp f_zero = true ->
  Forall (fun x => f_lt (reading x) sp = true /\ near24 (hal x) < t0 + 1800000) rs ->
  f_lt (reading r) sp = false \/ t0 + 1800000 <= near24 (hal r) ->
  autotune_start lower upper sp satured t0 (rs ++ r :: rest) = (repeat upper (length rs) ++ [lower], Some rest).
Proof. exact (fun lower upper sp satured t0 rs r rest => start_done lower upper sp t0 satured rs r rest). Qed.
Print Assumptions C102_start_partial.
(** C102. When a round takes a second or more, there are at most 1800 within 4.6 hours of uptime, and later at most as many as it takes for
    half an hour and the 2^24th part of the clock *)
Theorem C102_ends_partial : forall lower upper sp satured t0 rs m, f_gt sp f_zero = true -> 0 <= t0 ->
  t0 + 1000 * Z.of_nat m <= 2 ^ 24 * (1000 * Z.of_nat m - 1800000) \/ m = 1800%nat /\ t0 + 1800000 <= 2 ^ 24 ->
  (forall k r, nth_error rs k = Some r -> t0 + 1000 * Z.of_nat k <= hal r) -> (m < length rs)%nat ->
  exists n rest, (n <= m)%nat /\ autotune_start lower upper sp satured t0 rs = (repeat upper n ++ [lower], Some rest).
Proof. exact start_ends. Qed.
Print Assumptions C102_ends_partial.
Definition at_ (v h u : Z) : round := mkRound (f_ofZ v) h u.
Example C102_start_case : autotune_start (f_ofZ 0) (f_ofZ 100) (f_ofZ 60) true 500 [at_ 20 1500 1500; at_ 40 2500 2500; at_ 61 3500 3500; at_ 70 4500 4500] =
  ([f_ofZ 100; f_ofZ 100; f_ofZ 0], Some [at_ 70 4500 4500]).
Proof. apply (C102_start_partial (f_ofZ 0) (f_ofZ 100) (f_ofZ 60) true 500 [at_ 20 1500 1500; at_ 40 2500 2500] (at_ 61 3500 3500)); [vm_compute; reflexivity | | left; vm_compute; reflexivity].
  repeat (apply Forall_cons; [split; [vm_compute; reflexivity | cbn; reflexivity] |]). apply Forall_nil. Qed.
Example C102_ends_case : exists rs, (1800 < length rs)%nat /\ 500 + 1800000 <= 2 ^ 24 /\ 31536000000 + 1000 * Z.of_nat 1802 <= 2 ^ 24 * (1000 * Z.of_nat 1802 - 1800000) /\
  (forall k r, nth_error rs k = Some r -> 500 + 1000 * Z.of_nat k <= hal r).
Proof.
  exists (map (fun k => at_ 20 (500 + 1000 * Z.of_nat k) 0) (seq 0 2000)). split; [rewrite map_length, seq_length; lia |]. split.
  - lia.
  - split; [lia |]. intros k r H. rewrite nth_error_map in H. destruct (nth_error (seq 0 2000) k) as [j |] eqn:J; [| discriminate]. injection H as <-.
    assert (j = k) as ->; [| unfold at_; cbn [hal]; apply Z.le_refl]. assert (k < 2000)%nat by ((assert (Q : nth_error (seq 0 2000) k <> None) by congruence; apply nth_error_Some in Q; now rewrite seq_length in Q)).
    rewrite (nth_error_nth' _ 0%nat) in J by now rewrite seq_length. rewrite seq_nth in J by assumption. now injection J.
Qed.
(** The half hour is not one of the clock that autotune was given: with the clock of the platform at rest the heating has no end,
    here over any number of rounds of an hour each *)
Theorem C102_clock_refuted : exists v t0, forall n, exists rs, length rs = n /\
  (forall k r, nth_error rs k = Some r -> reading r = v /\ up r = t0 + 3600000 * Z.of_nat k) /\
  autotune_start (f_ofZ 0) (f_ofZ 100) (f_ofZ 60) true t0 rs = (repeat (f_ofZ 100) n, None).
Proof.
  exists (f_ofZ 20), 500. intros n. exists (map (fun k => at_ 20 500 (500 + 3600000 * Z.of_nat k)) (seq 0 n)). split; [now rewrite map_length, seq_length |]. split.
  - intros k r H. rewrite nth_error_map in H. destruct (nth_error (seq 0 n) k) as [j |] eqn:J; [| discriminate]. injection H as <-.
    assert (K : (k < n)%nat) by (assert (Q : nth_error (seq 0 n) k <> None) by congruence; apply nth_error_Some in Q; now rewrite seq_length in Q).
    rewrite (nth_error_nth' _ 0%nat) in J by now rewrite seq_length. rewrite seq_nth in J by assumption. injection J as <-. split; [reflexivity |]. unfold at_. cbn [up Nat.add]. reflexivity.
  - rewrite (start_pending (f_ofZ 0) (f_ofZ 100) (f_ofZ 60) 500 true).
    + now rewrite map_length, seq_length.
    + vm_compute. reflexivity.
    + apply Forall_forall. intros r R. apply in_map_iff in R as (k & <- & _). split; [vm_compute; reflexivity | cbn; reflexivity].
Qed.
Print Assumptions C102_clock_refuted.

(** C103. Autotuning that is configured not to start saturated begins with the process above its start point all the same *)
Theorem C103_flag_refuted : exists sp t0 rs rest, f_gt sp f_zero = true /\
  autotune_start (f_ofZ 0) (f_ofZ 100) sp false t0 rs = ([f_ofZ 0], Some rest) /\ Forall (fun r => f_gt (reading r) sp = true) rs.
Proof.
  exists (f_ofZ 60), 500, [at_ 90 600 600; at_ 80 1600 1600], [at_ 80 1600 1600]. split; [vm_compute; reflexivity |]. split.
  - apply (C102_start_partial (f_ofZ 0) (f_ofZ 100) (f_ofZ 60) false 500 [] (at_ 90 600 600)); [vm_compute; reflexivity | apply Forall_nil | left; vm_compute; reflexivity].
  - repeat (apply Forall_cons; [vm_compute; reflexivity |]). apply Forall_nil.
Qed.
Print Assumptions C103_flag_refuted.
(** What waiting until the process has fallen back means: block_until without "saturated" does, within the time-out *)
Lemma cooled : forall lower upper sp timeout t0 r rs x rest, 0 < timeout -> f_lt (reading r) sp = false ->
  Forall (fun y => f_gt (reading y) sp = true /\ near24 (hal y) < t0 + near24 timeout) rs -> f_gt (reading x) sp = false ->
  block_until lower upper sp timeout false t0 (r :: rs ++ x :: rest) = ([lower], Some rest).
Proof.
  intros lower upper sp timeout t0 r rs x rest T H F X. unfold block_until. cbn [heat]. rewrite H. cbn [app]. f_equal.
  unfold kadd. rewrite from_other_same.
  induction F as [| y rs (G & B) F IH]; cbn [app cool]; [now rewrite X |]. rewrite G, go_before by lia. exact IH.
Qed.
Theorem C103_fall_back_partial : forall lower upper sp timeout t0 r rs x rest, 0 < timeout -> f_lt (reading r) sp = false ->
  Forall (fun y => f_gt (reading y) sp = true /\ near24 (hal y) < t0 + near24 timeout) rs -> f_gt (reading x) sp = false ->
  block_until lower upper sp timeout false t0 (r :: rs ++ x :: rest) = ([lower], Some rest).
Proof. exact cooled. Qed.
Print Assumptions C103_fall_back_partial.
Example C103_case : block_until (f_ofZ 0) (f_ofZ 100) (f_ofZ 60) 1800000 false 500 [at_ 90 600 600; at_ 80 1600 1600; at_ 59 2600 2600] = ([f_ofZ 0], Some []).
Proof.
  apply (C103_fall_back_partial (f_ofZ 0) (f_ofZ 100) (f_ofZ 60) 1800000 500 (at_ 90 600 600) [at_ 80 1600 1600] (at_ 59 2600 2600) []);
    [lia | vm_compute; reflexivity | | vm_compute; reflexivity].
  apply Forall_cons; [split; [vm_compute; reflexivity | cbn; reflexivity] | apply Forall_nil].
Qed.

(** C104. On a clock that advances with sleep, measurement k is taken k sampling intervals after the first, and the tuning is that of
    measurements at these times. Up to 4.6 hours of uptime. *)
Theorem C104_pace_partial : forall c fuel vs s t os t2, 0 < t_interval c -> 0 <= s -> s + t_interval c * Z.of_nat (length vs) <= 2 ^ 24 -> (Z.to_nat (t_interval c) <= fuel)%nat ->
  paced c fuel vs s t = Ok (os, t2) ->
  (forall k x, nth_error os k = Some x -> fst x = s + t_interval c * Z.of_nat k) /\
  autotune_loop c (combine vs (map (fun k => s + t_interval c * Z.of_nat k) (seq 0 (length vs)))) t = Some (map snd os, t2).
Proof. exact pace. Qed.
Print Assumptions C104_pace_partial.
Example C104_pace_case :
  match paced (configure (f_ofZ 50) (f_ofZ 1) 1000 (f_ofZ 20) (f_ofZ 100) BasicPID 1) 1000 [f_ofZ 20; f_ofZ 60; f_ofZ 40; f_ofZ 60] 7
          (start (configure (f_ofZ 50) (f_ofZ 1) 1000 (f_ofZ 20) (f_ofZ 100) BasicPID 1) 7) with
  | Ok (os, t2) => map fst os | _ => [] end = [7; 1007; 2007; 3007].
Proof. vm_compute. reflexivity. Qed.
(** C104. At any uptime: the tuning is that of the measurements at the times that they are taken, and two measurements are a sampling
    interval apart up to 2^-24 of it and of the clock. *)
Theorem C104_deviation_partial : forall c fuel vs s t os t2, 0 <= t_interval c -> 0 <= s -> paced c fuel vs s t = Ok (os, t2) ->
  (exists x, hd_error os = Some x /\ fst x = s) /\ spaced (t_interval c) os /\
  autotune_loop c (combine vs (map fst os)) t = Some (map snd os, t2).
Proof. exact pace_any. Qed.
Print Assumptions C104_deviation_partial.
Example C104_deviation_case :
  match paced (configure (f_ofZ 50) (f_ofZ 1) 1000 (f_ofZ 20) (f_ofZ 100) BasicPID 1) 1200 [f_ofZ 20; f_ofZ 60; f_ofZ 40; f_ofZ 60] (2 ^ 31 + 1)
          (start (configure (f_ofZ 50) (f_ofZ 1) 1000 (f_ofZ 20) (f_ofZ 100) BasicPID 1) (2 ^ 31 + 1)) with
  | Ok (os, t2) => map (fun x => fst x - 2 ^ 31) os | _ => [] end = [1; 1000; 2024; 3048].
Proof. vm_compute. reflexivity. Qed.
(** Later, measurements may follow each other without any time between them: here at an uptime of 25 days, for an interval of 100 ms *)
Theorem C104_uptime_refuted : exists s fuel, wait fuel s 100 s = Ok s.
Proof. exists (2 ^ 31 + 127), 1000%nat. vm_compute. reflexivity. Qed.
Print Assumptions C104_uptime_refuted.
