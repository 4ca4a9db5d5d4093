(** Properties C96 (more) and C115: the clock rolls around (platform.hpp:89, arduino.hpp:333). Times T are true times. *)
From Coq Require Import ZArith Bool List Lia Sorting.Sorted.
From Verif Require Import Base KTimeModel TimersModel TimersSpec LatchModel LatchSpec FloatModel PidModel EvModel RollModel WrapModel WrapSpec WrapProofs.
Import ListNotations.
Open Scope Z_scope.

(** What a Timer says has passed is what has passed, less 2^32 ms for each time the clock has rolled around, up to 255 ms. *)
Theorem C96_elapsed : forall T0 T reset, let x := fst (time_since_last (arduino_millis T) reset (timer_new (arduino_millis T0))) in
  Z.abs (x - (T - T0 - 2 ^ 32 * (turns T - turns T0))) < 256.
Proof. exact elapsed. Qed.
Print Assumptions C96_elapsed.
Example C96_elapsed_case : fst (time_since_last (arduino_millis (2 ^ 40 + 5000)) true (timer_new (arduino_millis (2 ^ 40 + 1000)))) = 4000.
Proof. vm_compute. reflexivity. Qed.
(** So across a roll-over it is negative. *)
Theorem C96_elapsed_refuted : exists T0 T, T - T0 = 1000 /\ fst (time_since_last (arduino_millis T) true (timer_new (arduino_millis T0))) = -4294966296.
Proof. exists (2 ^ 32 - 512), (2 ^ 32 + 488). split; vm_compute; reflexivity. Qed.
Print Assumptions C96_elapsed_refuted.

(** Alarms polled before the clock rolls around are right up to 511 ms, however long the uptime. *)
Theorem C96_turn_partial : forall dbg T0 d a Ts i T b, alarm_new dbg (arduino_millis T0) d false = Ok a -> 0 <= d <= 2 ^ 32 ->
  StronglySorted Z.le Ts -> Forall (fun T => turns T = turns T0) Ts ->
  nth_error Ts i = Some T -> nth_error (alarm_polls a (map arduino_millis Ts)) i = Some b ->
  (b = true -> T0 + d - T < 512) /\ (b = false -> T - (T0 + d) < 512).
Proof. exact alarm_turn. Qed.
Print Assumptions C96_turn_partial.
Example C96_turn_case : exists a, alarm_new true (arduino_millis (2 ^ 40 + 1000)) 500 false = Ok a /\
  alarm_polls a (map arduino_millis [2 ^ 40 + 1499; 2 ^ 40 + 1500]) = [false; true].
Proof. eexists. split; [reflexivity|]. vm_compute. reflexivity. Qed.
(** An alarm for after the roll-over never expires. *)
Theorem C96_alarm_never : forall dbg T0 d a Ts, alarm_new dbg (arduino_millis T0) d false = Ok a -> 0 <= d <= 2 ^ 32 ->
  2 ^ 32 + 256 < arduino_millis T0 + d -> alarm_polls a (map arduino_millis Ts) = repeat false (length Ts).
Proof. exact alarm_never. Qed.
Print Assumptions C96_alarm_never.
Example C96_alarm_never_case : 2 ^ 32 + 256 < arduino_millis (2 ^ 33 - 3600000) + 86400000 /\
  exists a, alarm_new true (arduino_millis (2 ^ 33 - 3600000)) 86400000 false = Ok a.
Proof. split; [vm_compute; reflexivity|]. eexists. reflexivity. Qed.

(** An interval timer is silent for good once its future() is beyond the roll-over. *)
Theorem C96_interval_never : forall t Ts, 0 <= iprev t < 2 ^ 32 -> 2 ^ 32 + 256 <= itimer_future t ->
  itimer_polls t (map arduino_millis Ts) = repeat false (length Ts).
Proof. exact interval_never. Qed.
Print Assumptions C96_interval_never.
(** A timer of one minute, regularly polled before the roll-over, has expired for the last time. *)
Theorem C96_interval_dead_refuted : exists T0 t, T0 = 2 ^ 32 - 100000 /\
  itimer_expired (arduino_millis (T0 + 60480)) (itimer_new (arduino_millis T0) 60000 false) = (true, t) /\
  forall Ts, itimer_polls t (map arduino_millis Ts) = repeat false (length Ts).
Proof.
  exists (2 ^ 32 - 100000). eexists. split; [reflexivity|]. split; [vm_compute; reflexivity|]. intros Ts.
  apply interval_never; vm_compute; [split|]; congruence.
Qed.
Print Assumptions C96_interval_dead_refuted.

(** Between two roll-overs the minimal times of a latch hold, up to 511 ms, however long the uptime. *)
Theorem C115_latch_partial : forall F ltb cfg, nonneg F cfg -> min_on F cfg <= 2 ^ 32 -> min_off F cfg <= 2 ^ 32 -> forall T0 pre T1 v1 mid T2 v2,
  later T0 (pre ++ (T1, v1) :: mid ++ [(T2, v2)]) -> Forall (fun r => turns (fst r) = turns T0) (pre ++ (T1, v1) :: mid ++ [(T2, v2)]) ->
  let out rs := response (readings F ltb cfg (latch_new F cfg (arduino_millis T0)) (map (fun r => (arduino_millis (fst r), snd r)) rs)) in
  let least := if out (pre ++ (T1, v1) :: mid) then min_on F cfg else min_off F cfg in
  out (pre ++ [(T1, v1)]) <> out pre ->
  out (pre ++ (T1, v1) :: mid ++ [(T2, v2)]) <> out (pre ++ (T1, v1) :: mid) ->
  least - (T2 - T1) < 512.
Proof. exact latch_turn. Qed.
Print Assumptions C115_latch_partial.
(** A cooler: on above 30 degrees, off below 20; at least 2 s on and 2 s off, at most 10 s on *)
Definition cooler : LatchModel.config Z := mkConfig Z 30 20 2000 10000 2000 0.
Example C115_latch_case : let out rs := response (readings Z Z.ltb cooler (latch_new Z cooler (arduino_millis (2 ^ 40))) (map (fun r => (arduino_millis (fst r), snd r)) rs)) in
  out [(2 ^ 40 + 5000, 35)] = true /\ out [] = false /\ out [(2 ^ 40 + 5000, 35); (2 ^ 40 + 6999, 10)] = true /\
  out [(2 ^ 40 + 5000, 35); (2 ^ 40 + 6999, 10); (2 ^ 40 + 7000, 10)] = false.
Proof. vm_compute. repeat split. Qed.
(** A latch that turned on (off) stays so from the roll-over until 2^32 ms later than its minimal time, whatever is read. Its maximal
    times are not kept either. *)
Theorem C115_latch_stuck : forall F ltb cfg l pre T1 v1 post,
  let out rs := response (readings F ltb cfg l (map (fun r => (arduino_millis (fst r), snd r)) rs)) in
  out (pre ++ [(T1, v1)]) <> out pre ->
  let least := if out (pre ++ [(T1, v1)]) then min_on F cfg else min_off F cfg in
  0 <= least <= 2 ^ 32 -> Forall (fun r => turns (fst r) = turns T1 + 1 /\ fst r - T1 + 512 < 2 ^ 32 + least) post ->
  out (pre ++ (T1, v1) :: post) = out (pre ++ [(T1, v1)]).
Proof. exact latch_stuck. Qed.
Print Assumptions C115_latch_stuck.
(** On for 40 days, though at most 10 s were configured and the reading is far below the threshold for all that time *)
Theorem C115_latch_refuted : exists T0 T1 T2,
  let out rs := response (readings Z Z.ltb cooler (latch_new Z cooler (arduino_millis T0)) (map (fun r => (arduino_millis (fst r), snd r)) rs)) in
  T2 - T1 = 40 * 86400000 /\ out [(T1, 35)] = true /\ forall vs, Forall (fun r => 2 ^ 32 <= fst r <= T2) vs -> out ((T1, 35) :: vs) = true.
Proof.
  exists 0, (2 ^ 32 - 1000), (2 ^ 32 - 1000 + 40 * 86400000). cbv zeta. split; [reflexivity|]. split; [vm_compute; reflexivity|]. intros vs Hv.
  assert (E : response (readings Z Z.ltb cooler (latch_new Z cooler (arduino_millis 0)) (map (fun r => (arduino_millis (fst r), snd r)) ([] ++ [(2 ^ 32 - 1000, 35)]))) = true)
    by (vm_compute; reflexivity).
  pose proof (latch_stuck Z Z.ltb cooler (latch_new Z cooler (arduino_millis 0)) [] (2 ^ 32 - 1000) 35 vs) as H. cbv zeta in H. unfold wread in H.
  rewrite E in H. apply H.
  - vm_compute. discriminate.
  - cbn [cooler min_on]. lia.
  - rewrite Forall_forall in *. intros r Hr. specialize (Hv r Hr). change (turns (2 ^ 32 - 1000)) with 0. cbn [cooler min_on]. split; [|lia].
    unfold turns. symmetry. apply (Z.div_unique _ _ _ (fst r - 2 ^ 32)); lia.
Qed.
Print Assumptions C115_latch_refuted.

(** A PID controller that has computed its output keeps it from the roll-over until 2^32 ms later than the next computation is due,
    whatever input, setpoint and tunings it is given. *)
Theorem C115_pid_stuck : forall dbg T1 v c v1 c1 os v2 c2, update (arduino_millis T1) v c = (true, v1, c1) -> 0 <= sampling c <= 2 ^ 32 ->
  Forall (fun o => match o with
                   | SetInput _ | SetSetpoint _ | Tunings _ _ _ _ | Direction _ => True
                   | Update r => exists T, r = arduino_millis T /\ turns T = turns T1 + 1 /\ T - T1 + 512 < 2 ^ 32 + sampling c
                   | _ => False
                   end) os ->
  ctl_calls dbg os (v1, c1) = Ok (v2, c2) -> output v2 = output v1.
Proof. exact pid_stuck. Qed.
Print Assumptions C115_pid_stuck.
(** A controller made and run before the roll-over; its setpoint is moved afterwards and it is called a day later *)
Definition before_roll : outcome (bool * cells * ctl) :=
  c <- ctl_new true (arduino_millis (2 ^ 32 - 2000)) (f_ofZ 2) (f_ofZ 0) (f_ofZ 0) OnError Forward ;;
  Ok (update (arduino_millis (2 ^ 32 - 1000)) (mkCells (f_ofZ 10) f_zero (f_ofZ 20)) c).
Example C115_pid_case : match before_roll with
  | Ok (b, v1, c1) => b = true /\ f_eq (output v1) (f_ofZ 20) = true /\
      match ctl_calls true [SetSetpoint (f_ofZ 60); Update (arduino_millis (2 ^ 32 + 86400000))] (v1, c1) with
      | Ok (v2, _) => f_eq (output v2) (f_ofZ 20) = true
      | _ => False
      end
  | _ => False
  end.
Proof.
  assert (T : match before_roll with
    | Ok (b, v1, c1) => b && f_eq (output v1) (f_ofZ 20) &&
        match ctl_calls true [SetSetpoint (f_ofZ 60); Update (arduino_millis (2 ^ 32 + 86400000))] (v1, c1) with
        | Ok (v2, _) => f_eq (output v2) (f_ofZ 20)
        | _ => false
        end
    | _ => false
    end = true) by (vm_compute; reflexivity).
  destruct before_roll as [[[b v1] c1]| | | |]; try discriminate. destruct (ctl_calls _ _ _) as [[v2 c2]| | | |]; rewrite ?andb_false_r in T; try discriminate.
  apply andb_true_iff in T as [T T3]. apply andb_true_iff in T as [T1 T2]. auto.
Qed.

(** Until the clock rolls around, an event system does what it does on a clock that does not (C25-C29 and the others). *)
Theorem C115_events_partial : forall D W L dbg cfg beh, 0 <= kconv MS US (c_min_us cfg) -> forall fuel acts s s',
  run D W L dbg cfg beh fuel (map (OAct D) acts) s = Ok s' -> 0 <= s_now D s -> s_now D s' < 2 ^ 32 ->
  wrun D W L dbg cfg beh fuel acts s = Ok s'.
Proof. exact @same_run. Qed.
Print Assumptions C115_events_partial.
Definition one_kind : EvModel.config := mkCfg 1 4 4 false 0 0.
Definition two_events : list (act nat) :=
  [AAttach nat 0 7; ASchedule nat 0 1000 1%nat; AWait nat 600; ASchedule nat 0 100 2%nat; AWait nat 400; ALoop nat; AWait nat 100000; ALoop nat].
Example C115_events_case : exists s, run nat 64 (Z.to_nat 65536) true one_kind (fun _ => []) 5 (map (OAct nat) two_events) (es_new nat 0%nat one_kind 3000) = Ok s /\
  s_now nat s = 104000 /\ In (LFire nat 4000 0 1%nat 4000) (s_log nat s) /\ In (LFire nat 3700 0 2%nat 4000) (s_log nat s).
Proof. eexists. split; [vm_compute; reflexivity|]. cbn [s_now s_log]. split; [reflexivity|]. simpl. auto 12. Qed.
(** But no event which is due after the roll-over ever fires, in any program. *)
Theorem C115_event_never : forall D nodata W L dbg cfg beh fuel acts T0 s,
  wrun D W L dbg cfg beh fuel acts (es_new D nodata cfg (arduino_millis T0)) = Ok s ->
  forall due id d now, In (LFire D due id d now) (s_log D s) -> due <= 2 ^ 32.
Proof. exact event_never. Qed.
Print Assumptions C115_event_never.
(** The event for a second later, 512 ms before the roll-over, is lost; one scheduled after it fires. *)
Theorem C115_event_refuted : exists T0 s, T0 = 2 ^ 32 - 512 /\
  wrun nat 64 (Z.to_nat 65536) true one_kind (fun _ => []) 5 two_events (es_new nat 0%nat one_kind (arduino_millis T0)) = Ok s /\
  In (LSched nat (2 ^ 32 + 488) 0 1%nat) (s_log nat s) /\ (forall now, ~ In (LFire nat (2 ^ 32 + 488) 0 1%nat now) (s_log nat s)) /\
  In (LFire nat 188 0 2%nat 488) (s_log nat s) /\ s_now nat s = 100488.
Proof.
  exists (2 ^ 32 - 512). eexists. split; [reflexivity|]. split; [vm_compute; reflexivity|]. cbn [s_log s_now]. split; [simpl; auto|]. split.
  - intros now H. simpl in H. repeat (destruct H as [H|H]; [discriminate|]). exact H.
  - split; [simpl; auto 10|reflexivity].
Qed.
Print Assumptions C115_event_refuted.
