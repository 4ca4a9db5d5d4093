(** Properties C39, C40, C63-C66: the PID controller, in IEEE single precision. *)
From Coq Require Import ZArith Lia Bool List Reals Lra.
From Flocq Require Import Core IEEE754.BinarySingleNaN.
From Verif Require Import Base KTimeModel FloatModel FloatFacts PidModel PidSpec PidProofs.
Import ListNotations.
Open Scope Z_scope.

(** For the examples *)
Definition std_tunings := mkTunings (f_ofZ 20) (f_lit 3 10) (f_lit 1 10).
Definition std_config := mkPidConfig std_tunings (f_ofZ 0) (f_ofZ 255) 100 OnError Forward.
Definition shows (o : outcome float) (n : Z) : bool := match o with Ok x => f_eq x (f_ofZ n) | _ => false end.
Definition then_response dbg now cfg os : outcome float := p <- pid_new dbg now cfg ;; p <- pid_run dbg os p ;; pid_response dbg p.

(** C39. Whatever is called and written before: after an update that takes place the output, when it is a number, is within the
    limits in force. All gains, inputs, setpoints and limits, infinities and NaN included (limits: any numbers). *)
Theorem C39_update_within :
  forall dbg now0 Kp Ki Kd p d v0 c0 os v c now v' c',
  ctl_new dbg now0 Kp Ki Kd p d = Ok c0 -> numeric_limits os -> ctl_calls dbg os (v0, c0) = Ok (v, c) -> update now v c = (true, v', c') ->
  is_nan (output v') = false -> within (in_force os) (output v').
Proof. exact @update_within. Qed.
Print Assumptions C39_update_within.
Definition demo_calls : list call := [Limits (f_ofZ (-5)) (f_ofZ 5); SamplingTime 200; Update 1000].
Example C39_update_case : numeric_limits demo_calls /\ in_force demo_calls = (f_ofZ (-5), f_ofZ 5) /\
  match ctl_new true 0 (f_ofZ 1) (f_ofZ 10) (f_ofZ 1) OnError Forward with
  Ok c => match ctl_calls true demo_calls (mkCells (f_ofZ 1000) (f_ofZ 2) (f_ofZ 3), c) with
    Ok (v, c) => let '(b, v', c') := update 2000 v c in b && f_eq (output v') (f_ofZ (-5)) | _ => false end | _ => false end = true.
Proof. split; [|split; [reflexivity|vm_compute; reflexivity]]. intros a b [E|[E|[E|[]]]]; try discriminate E. injection E as <- <-. split; reflexivity. Qed.

(** C39 for the PID class: once initialized, its response always is within the configured limits. *)
Theorem C39_response_within :
  forall dbg now0 cfg p0 os p,
  pid_new dbg now0 cfg = Ok p0 -> Bltb (c_lower cfg) (c_upper cfg) = true -> In PInitialize os -> pid_run dbg os p0 = Ok p ->
  forall x, pid_response dbg p = Ok x -> is_nan x = false -> within (c_lower cfg, c_upper cfg) x.
Proof. exact @pid_within. Qed.
Print Assumptions C39_response_within.
Example C39_response_case : Bltb (c_lower std_config) (c_upper std_config) = true /\
  shows (then_response true 1000 std_config [PInitialize; PSetpoint (f_ofZ 100000); PReading (f_ofZ 0) 1000; PReading (f_ofZ 0) 1100]) 255 = true.
Proof. vm_compute. auto. Qed.

(** Far below the setpoint the output is at its upper limit, far above at its lower *)
Example C39_case :
  shows (then_response true 1000 std_config [PInitialize; PSetpoint (f_ofZ 100000); PReading (f_ofZ 0) 1000]) 255 = true /\
  shows (then_response true 1000 std_config [PInitialize; PSetpoint (f_ofZ 100000); PReading (f_ofZ 0) 1000; PReading (f_ofZ 200000) 1100]) 0 = true /\
  shows (then_response true 1000 std_config [PInitialize; PSetpoint (f_ofZ 100); PReading (f_ofZ 0) 1000]) 3 = true.
Proof. vm_compute. repeat split. Qed.

(** Equal limits are ignored: with 0 and 0 configured the output goes up to 255. *)
Theorem C39_equal_limits_refuted : exists cfg os x,
  c_lower cfg = f_ofZ 0 /\ c_upper cfg = f_ofZ 0 /\ In PInitialize os /\ then_response true 1000 cfg os = Ok x /\ f_lt (c_upper cfg) x = true.
Proof.
  set (cfg := mkPidConfig std_tunings (f_ofZ 0) (f_ofZ 0) 100 OnError Forward). set (os := [PInitialize; PSetpoint (f_ofZ 100000); PReading (f_ofZ 0) 1000]).
  destruct (ok_test (then_response true 1000 cfg os) (f_lt (f_ofZ 0))) as (x & E & T); [vm_compute; reflexivity|].
  exists cfg, os, x. do 2 (split; [reflexivity|]). split; [left; reflexivity|]. split; [exact E|exact T].
Qed.
Print Assumptions C39_equal_limits_refuted.

(** C40 when the new sampling time is a multiple of the old one: the integral gain is multiplied and the derivative gain divided
    by the ratio of the sampling times, up to a relative error of 2^-24 (gains in the normal range or zero). *)
Theorem C40_rescale_partial :
  forall c n t, 0 < sampling c -> 1 <= n <= 2 ^ 24 -> t = n * sampling c -> is_finite (ki c) = true -> is_finite (kd c) = true ->
  (B2R (ki c) * IZR n = 0 \/ bpow radix2 (-126) <= Rabs (B2R (ki c) * IZR n))%R -> (Rabs (B2R (ki c) * IZR n) <= bpow radix2 127)%R ->
  (B2R (kd c) / IZR n = 0 \/ bpow radix2 (-126) <= Rabs (B2R (kd c) / IZR n))%R ->
  exists e1 e2, (Rabs e1 <= bpow radix2 (-24))%R /\ (Rabs e2 <= bpow radix2 (-24))%R /\
  let c' := set_sampling_time t c in
  kp c' = kp c /\ (B2R (ki c') = B2R (ki c) * (IZR t / IZR (sampling c)) * (1 + e1))%R /\
  (B2R (kd c') = B2R (kd c) / (IZR t / IZR (sampling c)) * (1 + e2))%R.
Proof. exact @rescale. Qed.
Print Assumptions C40_rescale_partial.
Example C40_case : match ctl_new true 0 (f_ofZ 1) (f_ofZ 10) (f_ofZ 1) OnError Forward with
  Ok c => let c' := set_sampling_time 300 c in f_eq (ki c) (f_ofZ 1) && f_eq (ki c') (f_ofZ 3) && f_eq (kd c) (f_ofZ 10) && f_eq (kd c') (f_lit 10 3) | _ => false end = true.
Proof. vm_compute. reflexivity. Qed.

(** Any shorter sampling time makes the integral gain zero and the derivative gain infinite. *)
Theorem C40_shorter :
  forall c t, 0 < t < sampling c -> is_finite (ki c) = true -> is_finite_strict (kd c) = true ->
  B2R (ki (set_sampling_time t c)) = 0%R /\ exists s, kd (set_sampling_time t c) = B754_infinity s.
Proof. exact @shorter. Qed.
Print Assumptions C40_shorter.
Example C40_shorter_case : match ctl_new true 0 (f_ofZ 1) (f_ofZ 10) (f_ofZ 1) OnError Forward with
  Ok c => let c' := set_sampling_time 99 c in (99 <? sampling c) && f_eq (ki c) (f_ofZ 1) && f_eq (ki c') (f_ofZ 0) && f_eq (kd c) (f_ofZ 10) && f_eq (kd c') (f_inf false) | _ => false end = true.
Proof. vm_compute. reflexivity. Qed.
(** With the PID class: a sample interval of 50 ms loses the integral gain, one of 150 ms leaves it as for 100 ms. *)
Theorem C40_refuted : exists p,
  pid_new true 0 (mkPidConfig std_tunings (f_ofZ 0) (f_ofZ 255) 50 OnError Forward) = Ok p /\
  f_eq (tKi (pid_tunings (pid_initialize p))) (f_ofZ 0) = true /\ f_eq (tKi (pid_tunings p)) (f_ofZ 0) = false /\
  f_eq (tKd (pid_tunings (pid_initialize p))) (f_inf false) = true.
Proof.
  destruct (ok_test (pid_new true 0 (mkPidConfig std_tunings (f_ofZ 0) (f_ofZ 255) 50 OnError Forward))
    (fun p => f_eq (tKi (pid_tunings (pid_initialize p))) (f_ofZ 0) && (negb (f_eq (tKi (pid_tunings p)) (f_ofZ 0)) && f_eq (tKd (pid_tunings (pid_initialize p))) (f_inf false))))
    as (p & E & T); [vm_compute; reflexivity|]. apply andb_prop in T as [T1 T]. apply andb_prop in T as [T2 T3]. apply negb_true_iff in T2. eauto.
Qed.
Print Assumptions C40_refuted.

(** C63. After an update at [t1], the next one (whatever is called in between) takes place if and only if the sampling time in
    force has passed. Up to 2^24 ms; missing: longer uptimes. *)
Theorem C63_sampling_partial :
  forall dbg now0 Kp Ki Kd p d v0 c0 pre v1 c1 t1 v1' c1' mid v2 c2 t2,
  ctl_new dbg now0 Kp Ki Kd p d = Ok c0 -> ctl_calls dbg pre (v0, c0) = Ok (v1, c1) -> update t1 v1 c1 = (true, v1', c1') ->
  ctl_calls dbg mid (v1', c1') = Ok (v2, c2) -> Forall (fun o => match o with Update _ => true | _ => false end = false) mid ->
  0 <= t1 <= 2 ^ 24 -> sampling_in_force (pre ++ mid) <= 2 ^ 24 ->
  fst (fst (update t2 v2 c2)) = (sampling_in_force (pre ++ mid) <=? t2 - t1).
Proof. exact @sampled. Qed.
Print Assumptions C63_sampling_partial.
Example C63_sampling_case : sampling_in_force [SamplingTime 200; Limits (f_ofZ 0) (f_ofZ 9)] = 200 /\
  match ctl_new true 0 (f_ofZ 1) (f_ofZ 10) (f_ofZ 1) OnError Forward with
  Ok c => let v := mkCells (f_ofZ 1) (f_ofZ 2) (f_ofZ 3) in let '(b1, v1, c1) := update 500 v c in
    match ctl_calls true [SamplingTime 200; Limits (f_ofZ 0) (f_ofZ 9)] (v1, c1) with
    Ok (v2, c2) => (b1, fst (fst (update 699 v2 c2)), fst (fst (update 700 v2 c2))) | _ => (false, false, false) end | _ => (false, false, false) end = (true, false, true).
Proof. vm_compute. auto. Qed.
(** At any uptime: early or late by at most 2^-24 of the sampling time and of the clock *)
Theorem C63_deviation_partial :
  forall dbg now0 Kp Ki Kd p d v0 c0 pre v1 c1 t1 v1' c1' mid v2 c2 t2 b,
  ctl_new dbg now0 Kp Ki Kd p d = Ok c0 -> ctl_calls dbg pre (v0, c0) = Ok (v1, c1) -> update t1 v1 c1 = (true, v1', c1') ->
  ctl_calls dbg mid (v1', c1') = Ok (v2, c2) -> Forall (fun o => match o with Update _ => true | _ => false end = false) mid ->
  fst (fst (update t2 v2 c2)) = b ->
  let s := sampling_in_force (pre ++ mid) in
  (b = true -> 2 ^ 24 * (s - (t2 - t1)) <= s + Z.abs t1) /\ (b = false -> 2 ^ 24 * ((t2 - t1) - s) < s + Z.abs t1).
Proof. exact @sampled_any. Qed.
Print Assumptions C63_deviation_partial.
Example C63_deviation_case :
  match ctl_new true 0 (f_ofZ 1) (f_ofZ 10) (f_ofZ 1) OnError Forward with
  Ok c => let v := mkCells (f_ofZ 1) (f_ofZ 2) (f_ofZ 3) in let '(b1, v1, c1) := update 31536002047 v c in
    (b1, fst (fst (update 31536002048 v1 c1))) | _ => (false, false) end = (true, true).
Proof. vm_compute. reflexivity. Qed.
(** An update that does not take place changes nothing; one that does leaves input and setpoint alone. *)
Theorem C63_no_change :
  forall now v c v' c' b, update now v c = (b, v', c') -> input v' = input v /\ setpoint v' = setpoint v /\ (b = false -> v' = v /\ c' = c).
Proof. exact @update_only_input. Qed.
Print Assumptions C63_no_change.
Example C63_case : match ctl_new true 0 (f_ofZ 1) (f_ofZ 10) (f_ofZ 1) OnError Forward with
  Ok c => let v := mkCells (f_ofZ 1) (f_ofZ 2) (f_ofZ 3) in let '(b1, v1, c1) := update 500 v c in
    (b1, fst (fst (update 599 v1 c1)), fst (fst (update 600 v1 c1))) | _ => (false, false, false) end = (true, false, true).
Proof. vm_compute. reflexivity. Qed.
Theorem C63_long_uptime_refuted : exists v c t, last_time c = t /\ sampling c = 100 /\ fst (fst (update (t + 99) v c)) = true.
Proof.
  exists (mkCells f_zero f_zero f_zero), (mkCtl f_zero f_zero f_zero Forward 16777217 f_zero f_zero 100 f_zero (f_ofZ 255) OnError), 16777217.
  vm_compute. auto.
Qed.
Print Assumptions C63_long_uptime_refuted.

(** C64, for a sampling time of one second (missing: all others). The proportional gain is always reported as set. *)
Theorem C64_reported_partial :
  forall dbg p t pr p', dir (p_backend p) = Forward -> sampling (p_backend p) = 1000 -> is_finite (tKi t) = true -> is_finite (tKd t) = true ->
  pid_set_tunings dbg t pr p = Ok p' -> pid_tunings p' = t.
Proof. exact @tunings_reported. Qed.
Print Assumptions C64_reported_partial.
Example C64_reported_case : match pid_new true 0 (mkPidConfig std_tunings (f_ofZ 0) (f_ofZ 255) 1000 OnError Forward) with
  Ok p => let p := pid_initialize p in match pid_set_tunings true (mkTunings (f_lit 1 3) (f_lit 1 7) (f_lit 1 9)) OnError p with
    Ok p' => (sampling (p_backend p) =? 1000) && f_eq (tKp (pid_tunings p')) (f_lit 1 3) && f_eq (tKi (pid_tunings p')) (f_lit 1 7) && f_eq (tKd (pid_tunings p')) (f_lit 1 9)
    | _ => false end | _ => false end = true.
Proof. vm_compute. reflexivity. Qed.
Theorem C64_kp_partial :
  forall dbg p t pr p', dir (p_backend p) = Forward -> pid_set_tunings dbg t pr p = Ok p' -> tKp (pid_tunings p') = tKp t.
Proof. exact @kp_reported. Qed.
Print Assumptions C64_kp_partial.
Example C64_case : match pid_new true 0 (mkPidConfig std_tunings (f_ofZ 0) (f_ofZ 255) 1000 OnError Forward) with
  Ok p => let p := pid_initialize p in match pid_set_tunings true (mkTunings (f_ofZ 2) (f_ofZ 3) (f_ofZ 4)) OnError p with
    Ok p' => (sampling (p_backend p) =? 1000) && f_eq (tKi (pid_tunings p')) (f_ofZ 3) && f_eq (tKd (pid_tunings p')) (f_ofZ 4) | _ => false end | _ => false end = true.
Proof. vm_compute. reflexivity. Qed.
(** With the default sampling time a tenth of the integral gain and ten times the derivative gain is reported. *)
Theorem C64_scaled_refuted : exists p p', pid_new true 0 std_config = Ok p /\
  pid_set_tunings true (mkTunings (f_ofZ 2) (f_ofZ 10) (f_ofZ 3)) OnError p = Ok p' /\
  f_eq (tKi (pid_tunings p')) (f_ofZ 1) = true /\ f_eq (tKd (pid_tunings p')) (f_ofZ 30) = true.
Proof.
  destruct (ok_test (pid_new true 0 std_config) (fun p => match pid_set_tunings true (mkTunings (f_ofZ 2) (f_ofZ 10) (f_ofZ 3)) OnError p with
    Ok p' => f_eq (tKi (pid_tunings p')) (f_ofZ 1) && f_eq (tKd (pid_tunings p')) (f_ofZ 30) | _ => false end)) as (p & E & T); [vm_compute; reflexivity|].
  apply ok_test in T as (p' & E' & T). apply andb_prop in T as [T1 T2]. eauto 10.
Qed.
Print Assumptions C64_scaled_refuted.

(** C65 is false for every configuration and program: the configured proportionality has no effect on any response. *)
Theorem C65_ignored :
  forall dbg now cfg pr os,
  (p <- pid_new dbg now (mkPidConfig (c_tunings cfg) (c_lower cfg) (c_upper cfg) (c_interval cfg) pr (c_dir cfg)) ;; p <- pid_run dbg os p ;; pid_response dbg p) =
  (p <- pid_new dbg now cfg ;; p <- pid_run dbg os p ;; pid_response dbg p).
Proof. exact @prop_ignored. Qed.
Print Assumptions C65_ignored.
Example C65_ignored_case : let cfg pr := mkPidConfig std_tunings (f_ofZ 0) (f_ofZ 255) 100 pr Forward in
  shows (then_response true 1000 (cfg OnMeasurement) [PInitialize; PSetpoint (f_ofZ 100); PReading (f_ofZ 0) 1000]) 3 = true /\
  shows (then_response true 1000 (cfg OnError) [PInitialize; PSetpoint (f_ofZ 100); PReading (f_ofZ 0) 1000]) 3 = true.
Proof. vm_compute. auto. Qed.
(** A purely proportional controller configured "on error" does not respond to an error of 10; after setting the same tunings
    "on error" it does. *)
Definition p_only := mkPidConfig (mkTunings (f_ofZ 1) (f_ofZ 0) (f_ofZ 0)) (f_ofZ 0) (f_ofZ 255) 100 OnError Forward.
Theorem C65_on_error_refuted : exists x y, c_prop p_only = OnError /\
  then_response true 0 p_only [PInitialize; PSetpoint (f_ofZ 10); PReading (f_ofZ 0) 1000] = Ok x /\ f_eq x (f_ofZ 0) = true /\
  then_response true 0 p_only [PInitialize; PTunings (c_tunings p_only) OnError; PSetpoint (f_ofZ 10); PReading (f_ofZ 0) 1000] = Ok y /\ f_eq y (f_ofZ 10) = true.
Proof.
  destruct (ok_test (then_response true 0 p_only [PInitialize; PSetpoint (f_ofZ 10); PReading (f_ofZ 0) 1000]) (fun x => f_eq x (f_ofZ 0))) as (x & E1 & T1); [vm_compute; reflexivity|].
  destruct (ok_test (then_response true 0 p_only [PInitialize; PTunings (c_tunings p_only) OnError; PSetpoint (f_ofZ 10); PReading (f_ofZ 0) 1000]) (fun x => f_eq x (f_ofZ 10))) as (y & E2 & T2); [vm_compute; reflexivity|].
  exists x, y. auto.
Qed.
Print Assumptions C65_on_error_refuted.

(** C66 is false: readings given to a copy (an object whose backend points into another one) never change the copy's own
    output ... *)
Theorem C66_copy_inert :
  forall i x now h h' o, nth_error h i = Some o -> o_target o <> i -> heap_reading i x now h = Some h' ->
  exists o', nth_error h' i = Some o' /\ output (p_vars (o_pid o')) = output (p_vars (o_pid o)).
Proof. exact @reading_copy. Qed.
Print Assumptions C66_copy_inert.
(** ... but can change the original's. *)
Definition p_program := [PInitialize; PTunings (c_tunings p_only) OnError; PSetpoint (f_ofZ 10)].
Theorem C66_copy_refuted : exists p h h' a b, (p <- pid_new true 0 p_only ;; pid_run true p_program p) = Ok p /\ heap_copy 0 [mkObject p 0] = Some h /\ heap_reading 1 (f_ofZ 5) 1000 h = Some h' /\ nth_error h' 0 = Some a /\ nth_error h' 1 = Some b /\ f_eq (output (p_vars p)) (f_ofZ 0) = true /\ f_eq (output (p_vars (o_pid a))) (f_ofZ 10) = true /\ f_eq (output (p_vars (o_pid b))) (f_ofZ 0) = true.
Proof.
  destruct (ok_test (p <- pid_new true 0 p_only ;; pid_run true p_program p) (fun p => match heap_copy 0 [mkObject p 0] with Some h =>
     match heap_reading 1 (f_ofZ 5) 1000 h with Some h' => match nth_error h' 0 with Some a => match nth_error h' 1 with Some b =>
      f_eq (output (p_vars p)) (f_ofZ 0) && (f_eq (output (p_vars (o_pid a))) (f_ofZ 10) && f_eq (output (p_vars (o_pid b))) (f_ofZ 0))
      | _ => false end | _ => false end | _ => false end | _ => false end)) as (p & E & T); [vm_compute; reflexivity|].
  exists p. apply some_test in T as (h & E1 & T). apply some_test in T as (h' & E2 & T). apply some_test in T as (a & E3 & T). apply some_test in T as (b & E4 & T).
  exists h, h', a, b. apply andb_prop in T as [T1 T]. apply andb_prop in T as [T2 T3]. auto 10.
Qed.
Print Assumptions C66_copy_refuted.
