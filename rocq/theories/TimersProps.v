(** Properties C32, C33, C60: structure/time/timers.hpp. *)
From Coq Require Import ZArith List Bool Lia Sorting.Sorted.
From Verif Require Import Base KTimeModel KTimeSpec KTimeProofs TimersModel TimersSpec TimersProofs.
Import ListNotations.
Open Scope Z_scope.

(** C32. Within 2^24 ms of uptime: whenever it is polled, an alarm says whether its due time has been reached. Missing: longer
    uptimes, see C32_early_refuted and C32_late_refuted. *)
Theorem C32_due_partial : forall dbg now d absolute a ts, alarm_new dbg now d absolute = Ok a -> short d ->
  StronglySorted Z.le ts -> Forall short ts ->
  afuture a = (if absolute then d else now + d) /\
  alarm_polls a ts = map (fun t => (if absolute then d else now + d) <=? t) ts.
Proof. exact alarm_due. Qed.
Print Assumptions C32_due_partial.
Example C32_due_case : exists a, alarm_new true 100 50 false = Ok a /\ short 50 /\ StronglySorted Z.le [100; 149; 150; 150; 400] /\
  Forall short [100; 149; 150; 150; 400] /\ alarm_polls a [100; 149; 150; 150; 400] = [false; false; true; true; true].
Proof.
  eexists. split; [reflexivity|]. split; [unfold short; lia|]. split; [repeat constructor; lia|]. split; [|vm_compute; reflexivity].
  repeat constructor; unfold short; lia.
Qed.

(** C32, at any uptime and whatever the clock does: once true, always true. *)
Theorem C32_latched : forall a ts i j, (i <= j)%nat -> nth_error (alarm_polls a ts) i = Some true -> (j < length ts)%nat ->
  nth_error (alarm_polls a ts) j = Some true.
Proof. exact alarm_latch. Qed.
Print Assumptions C32_latched.
Example C32_latched_case : alarm_polls (mkAlarm 10 false) [9; 10; 3] = [false; true; true]. Proof. vm_compute. reflexivity. Qed.

(** C32, at any uptime: the due time is kept up to 2^-24 of the delay, and an alarm is early or late by at most 2^-24 of the
    uptime. *)
Theorem C32_deviation_partial : forall dbg now d absolute a ts i t b, alarm_new dbg now d absolute = Ok a -> StronglySorted Z.le ts ->
  nth_error ts i = Some t -> nth_error (alarm_polls a ts) i = Some b ->
  2 ^ 24 * Z.abs (afuture a - (if absolute then d else now + d)) <= Z.abs d /\
  (b = true -> 2 ^ 24 * (afuture a - t) <= Z.abs t) /\ (b = false -> 2 ^ 24 * (t - afuture a) < Z.abs t).
Proof. exact alarm_deviation. Qed.
Print Assumptions C32_deviation_partial.
Example C32_deviation_case : exists a, alarm_new true (2 ^ 31) 1000 false = Ok a /\ alarm_polls a [2 ^ 31 + 800; 2 ^ 31 + 1200] = [false; true].
Proof. eexists. split; [reflexivity|]. vm_compute. reflexivity. Qed.

(** time_from_now() *)
Theorem C32_remaining_partial : forall dbg now d absolute a t, alarm_new dbg now d absolute = Ok a -> short d -> short t ->
  alarm_time_from_now t a = (if absolute then d else now + d) - t.
Proof. exact alarm_left. Qed.
Print Assumptions C32_remaining_partial.
Example C32_remaining_case : exists a, alarm_new true 100 50 false = Ok a /\ alarm_time_from_now 120 a = 30 /\ alarm_time_from_now 170 a = -20.
Proof. eexists. split; [reflexivity|]. vm_compute. auto. Qed.

(** time_from_now() at any uptime *)
Theorem C32_remaining_any_partial : forall dbg now d absolute a t, alarm_new dbg now d absolute = Ok a ->
  2 ^ 24 * Z.abs (alarm_time_from_now t a - ((if absolute then d else now + d) - t)) <= (if absolute then 0 else Z.abs d) + Z.abs t.
Proof. exact left_any. Qed.
Print Assumptions C32_remaining_any_partial.
Example C32_remaining_any_case : exists a, alarm_new true (2 ^ 31 + 1) 1000 false = Ok a /\ alarm_time_from_now (2 ^ 31 + 1) a = 1001.
Proof. eexists. split; [reflexivity|]. vm_compute. reflexivity. Qed.

(** C32. A debug build refuses exactly the absolute times which are not in the future. *)
Theorem C32_absolute_partial : forall now d absolute, short now ->
  alarm_new true now d absolute = if absolute && (d <=? now) then Halt else alarm_new false now d absolute.
Proof.
  intros now d absolute H. unfold alarm_new, kgt. rewrite !from_other_same, (short_near now H). destruct absolute; simpl; auto.
  destruct (Z.leb_spec d now), (Z.ltb_spec now d); try lia; reflexivity.
Qed.
Print Assumptions C32_absolute_partial.
Example C32_absolute_case : alarm_new true 100 100 true = Halt /\ exists a, alarm_new true 100 101 true = Ok a.
Proof. split; [vm_compute; reflexivity|]. eexists. vm_compute. reflexivity. Qed.

(** C32 is false after 2^24 ms: an alarm for 4 ms later expires after 3 ms, and one for 1 ms later has not expired when due. *)
Theorem C32_early_refuted : exists now d a t, alarm_new true now d false = Ok a /\ 0 < d /\ t < now + d /\ alarm_polls a [t] = [true].
Proof. exists 16777216, 4. eexists. exists 16777219. split; [vm_compute; reflexivity|]. vm_compute. repeat split. Qed.
Print Assumptions C32_early_refuted.
Theorem C32_late_refuted : exists now d a, alarm_new true now d false = Ok a /\ 0 < d /\ alarm_polls a [now + d] = [false].
Proof. exists 16777216, 1. eexists. split; [vm_compute; reflexivity|]. vm_compute. repeat split. Qed.
Print Assumptions C32_late_refuted.

(** C33, with catch-up, within 2^24 ms: a poll reports the next expiry, the (k+1)-th, exactly if more than k+1 intervals have
    passed since the start. So none is early, and none is lost: polls go on reporting until the number is made up. *)
Theorem C33_catch_up_partial : forall s i ts t, short s -> short i -> Forall short (ts ++ [t]) ->
  exists bs b, itimer_polls (itimer_new s i true) (ts ++ [t]) = bs ++ [b] /\ length bs = length ts /\
    (b = true <-> (expiries bs + 1) * i < t - s).
Proof. exact catch_up. Qed.
Print Assumptions C33_catch_up_partial.
Example C33_catch_up_case : short 1000 /\ short 10 /\ Forall short ([1005; 1011; 1035; 1035; 1035] ++ [1040]) /\
  itimer_polls (itimer_new 1000 10 true) ([1005; 1011; 1035; 1035; 1035] ++ [1040]) = [false; true; true; true; false] ++ [false].
Proof. split; [unfold short; lia|]. split; [unfold short; lia|]. split; [repeat constructor; unfold short; lia|]. vm_compute. reflexivity. Qed.

(** C33, with catch-up, at any uptime: the timer keeps an interval [i'] within 2^-24 of the one given, without drift, and is early or
    late by at most 2^-24 of the time of the expiry before. *)
Theorem C33_catch_up_any_partial : forall s i, exists i', 2 ^ 24 * Z.abs (i' - i) <= Z.abs i /\ forall ts t,
  exists bs b, itimer_polls (itimer_new s i true) (ts ++ [t]) = bs ++ [b] /\ length bs = length ts /\
    let l := s + expiries bs * i' in
    (b = true -> 2 ^ 24 * (i' - (t - l)) < Z.abs l) /\ (b = false -> 2 ^ 24 * ((t - l) - i') <= Z.abs l).
Proof. exact catch_up_deviation. Qed.
Print Assumptions C33_catch_up_any_partial.
Example C33_catch_up_any_case : itimer_polls (itimer_new (2 ^ 31) 1000 true) [2 ^ 31 + 800; 2 ^ 31 + 5300; 2 ^ 31 + 5300; 2 ^ 31 + 5300; 2 ^ 31 + 5300; 2 ^ 31 + 5400; 2 ^ 31 + 5500] =
  [false; true; true; true; true; true; false].
Proof. vm_compute. reflexivity. Qed.

(** C33, without catch-up, within 2^24 ms: a poll reports an expiry exactly if more than one interval has passed since the
    last one reported (or the start). *)
Theorem C33_plain_partial : forall s i ts t, short s -> short i -> Forall short (ts ++ [t]) ->
  exists bs b, itimer_polls (itimer_new s i false) (ts ++ [t]) = bs ++ [b] /\ length bs = length ts /\
    (b = true <-> i < t - last_expiry s ts bs).
Proof. exact plain. Qed.
Print Assumptions C33_plain_partial.
Example C33_plain_case : short 1000 /\ short 10 /\ Forall short ([1005; 1011; 1035; 1035; 1036] ++ [1046]) /\
  itimer_polls (itimer_new 1000 10 false) ([1005; 1011; 1035; 1035; 1036] ++ [1046]) = [false; true; true; false; false] ++ [true].
Proof. split; [unfold short; lia|]. split; [unfold short; lia|]. split; [repeat constructor; unfold short; lia|]. vm_compute. reflexivity. Qed.

(** C33, without catch-up, at any uptime: off by at most 2^-24 of the interval and the uptime. *)
Theorem C33_deviation_partial : forall s i ts t,
  exists bs b, itimer_polls (itimer_new s i false) (ts ++ [t]) = bs ++ [b] /\ length bs = length ts /\
    let l := last_expiry s ts bs in
    (b = true -> 2 ^ 24 * (i - (t - l)) < Z.abs i + Z.abs l) /\ (b = false -> 2 ^ 24 * ((t - l) - i) <= Z.abs i + Z.abs l).
Proof. exact plain_deviation. Qed.
Print Assumptions C33_deviation_partial.
Example C33_deviation_case : itimer_polls (itimer_new (2 ^ 31) 1000 false) ([2 ^ 31 + 800; 2 ^ 31 + 1300] ++ [2 ^ 31 + 1400]) = [false; true] ++ [false] /\
  last_expiry (2 ^ 31) [2 ^ 31 + 800; 2 ^ 31 + 1300] [false; true] = 2 ^ 31 + 1300.
Proof. split; vm_compute; reflexivity. Qed.

Theorem C33_next_partial : forall i now, short (iprev i) -> short (ival i) -> short now ->
  itimer_future i = iprev i + ival i /\ itimer_until_next now i = iprev i + ival i - now.
Proof. exact itimer_next. Qed.
Print Assumptions C33_next_partial.
Example C33_next_case : itimer_future (itimer_new 100 50 false) = 150 /\ itimer_until_next 120 (itimer_new 100 50 false) = 30.
Proof. vm_compute. auto. Qed.

(** reset() starts the interval over, whatever the state. *)
Theorem C33_reset : forall now i ts, itimer_polls (itimer_reset now i) ts = itimer_polls (itimer_new now (ival i) (icatch i)) ts.
Proof. reflexivity. Qed.
Print Assumptions C33_reset.
Example C33_reset_case : itimer_polls (itimer_reset 1995 (itimer_new 1000 1000 false)) [2001; 2990; 2996] = [false; false; true].
Proof. vm_compute. reflexivity. Qed.

(** C33 is false at long uptimes: with an interval of 200 ms, 49.7 days after start, expiries are reported at every poll, even
    without time passing. *)
Theorem C33_long_uptime_refuted : exists s i, 0 < i /\ itimer_polls (itimer_new s i false) [s; s; s; s] = [true; true; true; true].
Proof. exists (2 ^ 32 + 255), 200. vm_compute. split; reflexivity. Qed.
Print Assumptions C33_long_uptime_refuted.

(** C60. Within 2^24 ms: each poll with reset returns the time since the previous one, so the results add up to the time
    passed. *)
Theorem C60_elapsed_partial : forall s ts, short s -> Forall short ts ->
  timer_polls (timer_new s) ts = map (fun p => snd p - fst p) (combine (s :: ts) ts) /\
  fold_right Z.add 0 (timer_polls (timer_new s) ts) = last ts s - s.
Proof. exact timer_sum. Qed.
Print Assumptions C60_elapsed_partial.
Example C60_elapsed_case : timer_polls (timer_new 100) [110; 110; 250] = [10; 0; 140]. Proof. vm_compute. reflexivity. Qed.

(** C60, at any uptime: each result is off by at most 2^-24 of the time of the poll before. *)
Theorem C60_deviation_partial : forall s ts,
  Forall2 (fun p x => 2 ^ 24 * Z.abs (x - (snd p - fst p)) <= Z.abs (fst p)) (combine (s :: ts) ts) (timer_polls (timer_new s) ts).
Proof. exact timer_any. Qed.
Print Assumptions C60_deviation_partial.
Example C60_deviation_case : timer_polls (timer_new (2 ^ 31 + 1)) [2 ^ 31 + 501; 2 ^ 31 + 900] = [501; 388].
Proof. vm_compute. reflexivity. Qed.

(** C60. A poll without reset keeps the reference point. *)
Theorem C60_no_reset : forall now r, snd (time_since_last now false r) = r /\ (short (tlast r) -> fst (time_since_last now false r) = now - tlast r).
Proof.
  intros now r. unfold time_since_last, ksub. rewrite from_other_same. split; [reflexivity|]. intros H. cbn [fst]. now rewrite (short_near _ H).
Qed.
Print Assumptions C60_no_reset.
Example C60_no_reset_case : time_since_last 150 false (timer_new 100) = (50, timer_new 100).
Proof. vm_compute. reflexivity. Qed.
(** C60 is false after 2^24 ms: a timer read at the instant of its reset shows a millisecond. *)
Theorem C60_long_uptime_refuted : exists t, fst (time_since_last t true (timer_new t)) = 1.
Proof. exists 16777217. vm_compute. reflexivity. Qed.
Print Assumptions C60_long_uptime_refuted.
