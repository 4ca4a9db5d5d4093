(** C123: kernel time within the range of its 64 bits. *)
From Coq Require Import ZArith Bool List Lia.
From Verif Require Import Base KTimeModel KTimeSpec TimersModel TimersSpec SpanModel SpanSpec SpanProofs.
Import ListNotations.
Open Scope Z_scope.

(** No operation on times of up to 73 066 years leaves the range, and each gives what it gives on unbounded counts (C26 to C31). *)
Theorem C123_defined_partial : forall this other x y, amount this x -> amount other y ->
  sconv this other y = Ok (kconv this other y) /\ sadd this other x y = Ok (kadd this other x y) /\ ssub this other x y = Ok (ksub this other x y) /\
  sdivide this other x y = kdivide this other x y /\
  seq this other x y = Ok (keq this other x y) /\ sne this other x y = Ok (kne this other x y) /\ slt this other x y = Ok (klt this other x y) /\
  sgt this other x y = Ok (kgt this other x y) /\ sle this other x y = Ok (kle this other x y) /\ sge this other x y = Ok (kge this other x y) /\
  sneg x = Ok (kneg x) /\ forall s, sdiv_scalar x s = kdiv_scalar x s.
Proof. exact span_ops. Qed.
Print Assumptions C123_defined_partial.
Example C123_defined_case : amount DAY 26000000 /\ amount US (- 2 ^ 61) /\
  sadd US DAY (- 2 ^ 61) 26000000 = Ok (kadd US DAY (- 2 ^ 61) 26000000) /\ kadd US DAY (- 2 ^ 61) 26000000 = -59443034571407360.
Proof. vm_compute. repeat split; discriminate. Qed.

(** A product of such times, or of a count and a scalar, is defined if and only if it is in the range. *)
Theorem C123_products : forall this other x y s, amount this x -> amount other y ->
  (- 2 ^ 63 <= kmul this other x y < 2 ^ 63 -> smul this other x y = Ok (kmul this other x y)) /\
  (~ - 2 ^ 63 <= kmul this other x y < 2 ^ 63 -> smul this other x y = UB) /\
  (- 2 ^ 63 <= x * s < 2 ^ 63 -> sscale x s = Ok (x * s)) /\ (~ - 2 ^ 63 <= x * s < 2 ^ 63 -> sscale x s = UB).
Proof. exact span_products. Qed.
Print Assumptions C123_products.
Example C123_products_case : amount MS (2 ^ 33) /\ amount SEC (2 ^ 22) /\ smul MS SEC 1000 3 = Ok 3000000 /\ smul MS SEC (2 ^ 33) (2 ^ 22) = UB /\
  sscale (2 ^ 33) (2 ^ 29) = Ok (2 ^ 62) /\ sscale (2 ^ 33) (2 ^ 30) = UB.
Proof. vm_compute. repeat split; discriminate. Qed.

(** Alarms set, polled and read within the first 17 839 years *)
Theorem C123_alarms_partial : forall dbg now d absolute ts t, long now -> long d -> Forall long ts -> long t ->
  match alarm_new dbg now d absolute with
  | Ok a => salarm_new dbg now d absolute = Ok a /\ exists a', salarm_polls a ts = Ok (alarm_polls a ts, a') /\ salarm_time_from_now t a' = Ok (alarm_time_from_now t a)
  | r => salarm_new dbg now d absolute = r
  end.
Proof. exact salarm_ok. Qed.
Print Assumptions C123_alarms_partial.
Example C123_alarms_case : exists a, long (2 ^ 48) /\ long 86400000 /\ alarm_new true (2 ^ 48) 86400000 false = Ok a /\
  salarm_polls a [2 ^ 48; 2 ^ 49] = Ok ([false; true], mkAlarm (2 ^ 48 + 86400000) true).
Proof. exists (mkAlarm (2 ^ 48 + 86400000) false). unfold long. vm_compute. repeat split; discriminate. Qed.

(** Interval timers, on any run of the clock whose readings are within the first 17 839 years *)
Theorem C123_intervals_partial : forall s i catch_up ts t, long s -> long i -> Forall long ts -> long t ->
  exists r, sitimer_polls (itimer_new s i catch_up) ts = Ok (itimer_polls (itimer_new s i catch_up) ts, r) /\
    sitimer_future r = Ok (itimer_future r) /\ sitimer_until_next t r = Ok (itimer_until_next t r).
Proof. intros s i c ts t Hs Hi Hts Ht. apply sitimer_polls_ok; try assumption; unfold long in *; cbn [itimer_new ival iprev]; lia. Qed.
Print Assumptions C123_intervals_partial.
Example C123_intervals_case : long (2 ^ 40) /\ long 1000 /\ sitimer_polls (itimer_new 0 1000 true) [500; 2 ^ 40; 2 ^ 40; 100] = Ok ([false; true; true; false], mkIT 2000 1000 true).
Proof. unfold long. vm_compute. repeat split; discriminate. Qed.

Theorem C123_timers_partial : forall s ts, long s -> Forall long ts -> stimer_polls (timer_new s) ts = Ok (timer_polls (timer_new s) ts).
Proof. intros s ts. apply stimer_ok. Qed.
Print Assumptions C123_timers_partial.
Example C123_timers_case : stimer_polls (timer_new (2 ^ 40)) [2 ^ 40 + 7; 2 ^ 49] = Ok [7; 2 ^ 49 - 2 ^ 40].
Proof. vm_compute. reflexivity. Qed.

(** The limit: a count is converted to its own unit, as all binary operations do with their second operand, if and only if it is below
    2^63 - 2^38. *)
Theorem C123_limit : forall u y, - 2 ^ 63 <= y < 2 ^ 63 ->
  (y < 2 ^ 63 - 2 ^ 38 -> exists y', sconv u u y = Ok y' /\ nearest_f32 y y') /\ (2 ^ 63 - 2 ^ 38 <= y -> sconv u u y = UB).
Proof. exact span_limit. Qed.
Print Assumptions C123_limit.
Example C123_limit_case : sconv MS MS (2 ^ 63 - 2 ^ 38 - 1) = Ok (2 ^ 63 - 2 ^ 39) /\ sconv MS MS (2 ^ 63 - 2 ^ 38) = UB.
Proof. vm_compute. auto. Qed.

(** The greatest time is not equal to itself, nor is it usable as a time that never comes: comparing it is undefined. *)
Theorem C123_never_refuted : exists y, - 2 ^ 63 <= y < 2 ^ 63 /\ (forall u, seq u u y y = UB) /\ (forall now, salarm_new true now y false = UB) /\
  forall now, 0 <= now <= 2 ^ 49 -> sitimer_polls (itimer_new 0 y false) [now] = UB.
Proof.
  exists (2 ^ 63 - 1). assert (forall u, sfrom u u (2 ^ 63 - 1) = UB) as U.
  { intros u. destruct (span_limit u (2 ^ 63 - 1) ltac:(lia)) as (_ & H). apply H. lia. }
  split; [lia|]. split; [|split].
  - intros u. unfold seq, scmp. now rewrite U.
  - intros now. unfold salarm_new, sadd. now rewrite U.
  - intros now H. cbn [sitimer_polls]. unfold sitimer_expired. cbn [itimer_new iprev ival icatch].
    destruct (ms_ops now 0 ltac:(lia) ltac:(lia)) as (_ & -> & _). cbn [bind]. unfold sgt, scmp. now rewrite U.
Qed.
Print Assumptions C123_never_refuted.
(** A number of days that fits its own unit but not microseconds *)
Theorem C123_days_refuted : exists d, 0 < d < 2 ^ 31 /\ sconv US DAY d = UB /\ sgt DAY US d 0 = Ok true /\ slt US DAY 0 d = UB.
Proof. exists 110000000. vm_compute. auto. Qed.
Print Assumptions C123_days_refuted.
