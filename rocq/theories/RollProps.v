(** Property C96. *)
From Coq Require Import ZArith Lia Bool List Sorted.
From Verif Require Import Base KTimeModel TimersModel TimersSpec TimersProofs RollModel RollProofs.
Import ListNotations.
Open Scope Z_scope.

(** C96: as long as the clock has not rolled around, alarms and intervals are right up to one part in 2^24 of the times. Missing:
    everything behind the roll, see below. *)
Lemma c96_before : forall dbg s d a ts i t b, 0 <= s < 2 ^ 32 -> 0 <= d -> StronglySorted Z.le ts -> Forall (fun t => 0 <= t < 2 ^ 32) ts ->
  alarm_new dbg (arduino_millis s) d false = Ok a -> nth_error ts i = Some t -> nth_error (alarm_polls a (map arduino_millis ts)) i = Some b ->
  (b = true -> 2 ^ 24 * (s + d - t) <= t + d) /\ (b = false -> 2 ^ 24 * (t - (s + d)) < t + d).
Proof.
  intros dbg s d a ts i t b S0 D0 So F N I P. rewrite (reading_before s S0) in N.
  rewrite (map_ext_in arduino_millis (fun t => t)), map_id in P; [| intros x X; rewrite Forall_forall in F; now apply reading_before, F].
  destruct (alarm_deviation _ _ _ _ _ _ _ _ _ N So I P) as (A & T & E). cbv iota in A.
  assert (0 <= t) by (rewrite Forall_forall in F; apply (F t), (nth_error_In _ _ I)).
  split; intros B; [specialize (T B) | specialize (E B)]; lia.
Qed.
Theorem C96_before_partial : forall dbg s d a ts i t b, 0 <= s < 2 ^ 32 -> 0 <= d -> StronglySorted Z.le ts -> Forall (fun t => 0 <= t < 2 ^ 32) ts ->
  alarm_new dbg (arduino_millis s) d false = Ok a -> nth_error ts i = Some t -> nth_error (alarm_polls a (map arduino_millis ts)) i = Some b ->
  (b = true -> 2 ^ 24 * (s + d - t) <= t + d) /\ (b = false -> 2 ^ 24 * (t - (s + d)) < t + d).
Proof. exact c96_before. Qed.
Print Assumptions C96_before_partial.
Example C96_before_case : exists a, alarm_new true (arduino_millis (2 ^ 31)) 5000 false = Ok a /\
  alarm_polls a (map arduino_millis [2 ^ 31 + 4000; 2 ^ 31 + 6000]) = [false; true].
Proof. exists (mkAlarm (2 ^ 31 + 5000) false). split; vm_compute; reflexivity. Qed.
Lemma c96_interval : forall s i ts t, 0 <= s < 2 ^ 32 -> 0 <= i -> Forall (fun t => 0 <= t < 2 ^ 32) (ts ++ [t]) ->
  exists bs b, itimer_polls (itimer_new (arduino_millis s) i false) (map arduino_millis (ts ++ [t])) = bs ++ [b] /\ length bs = length ts /\
    let l := last_expiry s ts bs in
    (b = true -> 2 ^ 24 * (i - (t - l)) < i + Z.abs l) /\ (b = false -> 2 ^ 24 * ((t - l) - i) <= i + Z.abs l).
Proof.
  intros s i ts t S0 I F. rewrite (reading_before s S0).
  rewrite (map_ext_in arduino_millis (fun t => t)), map_id; [| intros x X; rewrite Forall_forall in F; now apply reading_before, F].
  destruct (plain_deviation s i ts t) as (bs & b & P & L & D). exists bs, b. rewrite (Z.abs_eq i I) in D. auto.
Qed.
Theorem C96_interval_before_partial : forall s i ts t, 0 <= s < 2 ^ 32 -> 0 <= i -> Forall (fun t => 0 <= t < 2 ^ 32) (ts ++ [t]) ->
  exists bs b, itimer_polls (itimer_new (arduino_millis s) i false) (map arduino_millis (ts ++ [t])) = bs ++ [b] /\ length bs = length ts /\
    let l := last_expiry s ts bs in
    (b = true -> 2 ^ 24 * (i - (t - l)) < i + Z.abs l) /\ (b = false -> 2 ^ 24 * ((t - l) - i) <= i + Z.abs l).
Proof. exact c96_interval. Qed.
Print Assumptions C96_interval_before_partial.
Example C96_interval_before_case : itimer_polls (itimer_new (arduino_millis 5) 1000 false) (map arduino_millis [900; 1100; 2110; 2200]) = [false; true; true; false].
Proof. vm_compute. reflexivity. Qed.
(** An alarm of up to 4.6 hours that is due behind the roll of the clock never expires, whenever it is polled: neither before the roll
    nor at any time after it. *)
Theorem C96_alarm_lost : forall dbg s d ts, 0 <= d <= 2 ^ 24 -> 2 ^ 32 < arduino_millis s + d ->
  exists a, alarm_new dbg (arduino_millis s) d false = Ok a /\ alarm_polls a (map arduino_millis ts) = repeat false (length ts).
Proof. exact alarm_across. Qed.
Print Assumptions C96_alarm_lost.
Example C96_alarm_lost_case : 2 ^ 32 < arduino_millis (2 ^ 32 - 500) + 1000 /\
  exists a, alarm_new true (arduino_millis (2 ^ 32 - 500)) 1000 false = Ok a /\ alarm_polls a (map arduino_millis [2 ^ 32 - 1; 2 ^ 32 + 501; 2 ^ 32 + 2000]) = [false; false; false].
Proof. split; [reflexivity|]. eexists. split; [reflexivity|]. vm_compute. reflexivity. Qed.
Theorem C96_alarm_refuted : exists s d ts, d = 1000 /\ Forall (fun t => s + d + 500 <= t) ts /\
  exists a, alarm_new true (arduino_millis s) d false = Ok a /\ alarm_polls a (map arduino_millis ts) = [false; false; false].
Proof.
  exists (2 ^ 32 - 1), 1000, [2 ^ 32 + 1500; 2 ^ 33; 2 ^ 40 + 2 ^ 31]. split; [reflexivity |]. split; [repeat constructor; lia |].
  apply (C96_alarm_lost true (2 ^ 32 - 1) 1000 [2 ^ 32 + 1500; 2 ^ 33; 2 ^ 40 + 2 ^ 31]); [lia | reflexivity].
Qed.
Print Assumptions C96_alarm_refuted.
(** An interval timer that last expired, or was made, before the roll is silent after it, and a timer shows negative times, until the
    clock shows that time again, 49 days later. *)
Theorem C96_interval_silent : forall reset s i catch ts, 0 <= i -> 0 <= s < 2 ^ 32 -> Forall (fun t => 0 <= t - 2 ^ 32 <= s - 256) ts ->
  itimer_polls (itimer_new (arduino_millis s) i catch) (map arduino_millis ts) = repeat false (length ts) /\
  Forall (fun x => x < 0) (map (fun t => fst (time_since_last (arduino_millis t) reset (timer_new (arduino_millis s)))) ts).
Proof. exact silent_after. Qed.
Print Assumptions C96_interval_silent.
Example C96_interval_silent_case : Forall (fun t => 0 <= t - 2 ^ 32 <= (2 ^ 32 - 500) - 256) [2 ^ 32 + 600; 2 ^ 32 + 86400000] /\
  itimer_polls (itimer_new (arduino_millis (2 ^ 32 - 500)) 1000 true) (map arduino_millis [2 ^ 32 + 600; 2 ^ 32 + 86400000]) = [false; false].
Proof. split; [repeat constructor; lia|]. vm_compute. reflexivity. Qed.
Theorem C96_interval_refuted : exists s i ts, i = 1000 /\ ts = [2 ^ 32 + 1000; 2 ^ 32 + 3600000; 2 ^ 32 + 86400000; 2 ^ 32 + 4233600000] /\ s = 2 ^ 32 - 500 /\
  itimer_polls (itimer_new (arduino_millis s) i false) (map arduino_millis ts) = [false; false; false; false].
Proof. do 3 eexists. split; [reflexivity |]. split; [reflexivity |]. split; reflexivity. Qed.
Print Assumptions C96_interval_refuted.
