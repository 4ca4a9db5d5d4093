(** Property C125: the control law of the PID controller. *)
From Coq Require Import ZArith Lia Bool List Reals Lra.
From Flocq Require Import Core IEEE754.BinarySingleNaN.
From Verif Require Import Base KTimeModel FloatModel FloatFacts StreamProofs PidModel PidSpec PidProofs LawSpec LawProofs.
Import ListNotations.
Open Scope Z_scope.

(** For the examples: a controller over integers, set up and sampled each second *)
Definition readied (k : float) (now0 : Z) (d : direction) (os : list call) : outcome (cells * ctl) :=
  c0 <- ctl_new true now0 k k k OnError d ;; ctl_calls true os (mkCells k k k, c0).
Lemma readied_ready k now0 d os test : match readied k now0 d os with Ok vc => test vc | _ => false end = true -> exists vc, ready true now0 d os vc /\ test vc = true.
Proof.
  intros H. apply ok_test in H. destruct H as (vc & E & H). unfold readied in E. apply StreamProofs.bind_ok in E. destruct E as (c0 & E & E').
  exists vc. split; [|exact H]. exists k, k, k, OnError, c0, (mkCells k k k). split; [exact E|exact E'].
Qed.
Definition demo_setup (p : proportionality) : list call := setup 1000 (f_ofZ 3) (f_ofZ 2) (f_ofZ 4) p (f_ofZ (-500)) (f_ofZ 500) (f_ofZ 10) (f_ofZ 5).
(** Time, setpoint, reading *)
Definition demo_samples : list (Z * (Z * Z)) := [(1000, (20, 5)); (2000, (20, 9)); (2500, (20, 13)); (3000, (20, 30)); (4000, (-20, 28))].
Definition shown (rs : list (bool * float)) (zs : list (bool * Z)) : bool :=
  Nat.eqb (length rs) (length zs) && forallb (fun q => Bool.eqb (fst (fst q)) (fst (snd q)) && f_eq (snd (fst q)) (f_ofZ (snd (snd q)))) (combine rs zs).

(** Whatever was done before the tunings were set, and whatever is done afterwards short of new tunings, direction or sampling time:
    every response is that of the control law on what happened since, in single precision, bit for bit. Any gains, readings,
    setpoints and limits, infinities and NaN among them (limits before the tunings: numbers). *)
Theorem C125_law :
  forall dbg now0 a b k p0 d c0 v0 pre Kp Ki Kd p v1 c1,
  ctl_new dbg now0 a b k p0 d = Ok c0 -> numeric_limits pre -> ctl_calls dbg (pre ++ [Tunings Kp Ki Kd p]) (v0, c0) = Ok (v1, c1) ->
  let g := per_sample (direction_in_force d pre) (sampling_in_force pre) Kp Ki Kd in
  exists i x, forall os hs v2 c2 now v3 c3, Forall plain os -> observe dbg os (v1, c1) = Ok (hs, (v2, c2)) -> update now v2 c2 = (true, v3, c3) ->
    output v3 = response g p (fold_left (happens g p) hs (i, x, in_force pre)) (setpoint v2) (input v2).
Proof. exact @law_right. Qed.
Print Assumptions C125_law.
Definition law_pre : list call := [Limits (f_ofZ (-50)) (f_ofZ 50); Direction Reverse; SamplingTime 500].
Definition law_os : list call := [SetOutput (f_ofZ 7); Initialize; SetSetpoint (f_ofZ 20); Update 1000; SetInput (f_ofZ 3); Update 1100; Limits (f_ofZ (-9)) (f_ofZ 9)].
Example C125_law_case : numeric_limits law_pre /\ Forall plain law_os /\
  match ctl_new true 0 (f_ofZ 9) (f_ofZ 9) (f_ofZ 9) OnError Forward with
  | Ok c0 => match ctl_calls true (law_pre ++ [Tunings (f_ofZ 1) (f_ofZ 2) (f_ofZ 3) OnMeasurement]) (mkCells (f_ofZ 1) (f_ofZ 2) (f_ofZ 3), c0) with
    | Ok vc => match observe true law_os vc with
      | Ok (hs, (v2, c2)) => (length hs =? 3)%nat && let '(b, v3, _) := update 2000 v2 c2 in b && f_eq (output v3) (f_ofZ 3) | _ => false end
    | _ => false end
  | _ => false end = true.
Proof.
  split; [intros a b [E|[E|[E|[]]]]; try discriminate E; injection E as <- <-; split; reflexivity|].
  split; [unfold law_os; repeat constructor|]. vm_compute. reflexivity.
Qed.

(** The direction turned as well, any number of times: each sample is answered with the gains of the direction then in force. *)
Theorem C125_turned :
  forall dbg now0 a b k p0 d c0 v0 pre Kp Ki Kd p v1 c1,
  ctl_new dbg now0 a b k p0 d = Ok c0 -> numeric_limits pre -> ctl_calls dbg (pre ++ [Tunings Kp Ki Kd p]) (v0, c0) = Ok (v1, c1) ->
  let g d := per_sample d (sampling_in_force pre) Kp Ki Kd in
  let d1 := direction_in_force d pre in
  plus_signed (g Forward) ->
  exists i x, forall os hs v2 c2 now v3 c3, Forall steady os -> observe_turns dbg d1 os (v1, c1) = Ok (hs, (v2, c2)) -> update now v2 c2 = (true, v3, c3) ->
    output v3 = response (g (direction_in_force d1 os)) p (fold_left (fun m dh => happens (g (fst dh)) p m (snd dh)) hs (i, x, in_force pre)) (setpoint v2) (input v2).
Proof. exact @law_turned. Qed.
Print Assumptions C125_turned.
Definition turned_os : list call := [SetOutput (f_ofZ 7); SetInput (f_ofZ 5); Initialize; Direction Forward; SetSetpoint (f_ofZ 9); Update 1000; Direction Forward; Direction Reverse; Direction Reverse].
Example C125_turned_case : plus_signed (per_sample Forward 500 (f_ofZ 1) (f_ofZ 2) (f_ofZ 3)) /\ Forall steady turned_os /\
  match ctl_new true 0 (f_ofZ 9) (f_ofZ 9) (f_ofZ 9) OnError Forward with
  | Ok c0 => match ctl_calls true (law_pre ++ [Tunings (f_ofZ 1) (f_ofZ 2) (f_ofZ 3) OnError]) (mkCells (f_ofZ 1) (f_ofZ 2) (f_ofZ 3), c0) with
    | Ok vc => match observe_turns true Reverse turned_os vc with
      | Ok (hs, (v2, c2)) => (length hs =? 2)%nat && f_eq (output v2) (f_ofZ 15) && let '(b, v3, _) := update 2000 v2 c2 in b && f_eq (output v3) (f_ofZ 3) | _ => false end
    | _ => false end
  | _ => false end = true.
Proof.
  split; [split; [|split]; vm_compute; reflexivity|]. split; [unfold turned_os; repeat constructor|]. vm_compute. reflexivity.
Qed.

(** With gains, limits, output, setpoints and readings integers, at a sampling time of a second, and the sums within the limits: each
    output is the textbook's  Kp e + u0 + Ki (sum of the errors) - Kd (difference of the last readings), or with the proportional
    term on measurement  u0 + Ki (sum of the errors) - Kp (reading - first reading) - Kd (difference of the last readings), cut to
    the limits. In reverse direction the gains are those negated. *)
Theorem C125_exact :
  forall dbg now0 d Kp Ki Kd p lo hi u x0 M vc ss,
  0 <= Kp -> 0 <= Ki -> 0 <= Kd -> 1 <= M <= 2 ^ 22 -> Kp * (2 * M) <= 2 ^ 21 -> Ki * (2 * M) <= 2 ^ 21 -> Kd * (2 * M) <= 2 ^ 21 ->
  - 2 ^ 22 <= lo < hi -> hi <= 2 ^ 22 -> Z.abs x0 <= M ->
  Forall (fun q : Z * (Z * Z) => Z.abs (fst (snd q)) <= M /\ Z.abs (snd (snd q)) <= M) ss ->
  ready dbg now0 d (setup 1000 (f_ofZ Kp) (f_ofZ Ki) (f_ofZ Kd) p (f_ofZ lo) (f_ofZ hi) (f_ofZ u) (f_ofZ x0)) vc ->
  Forall (fun r => fst r = true) (outputs (map floats ss) vc) ->
  (forall n, (n <= length ss)%nat -> lo <= sumZ p (sgn d * Kp) (sgn d * Ki) u x0 (map snd (firstn n ss)) <= hi) ->
  forall n now s x, nth_error ss n = Some (now, (s, x)) -> exists o, nth_error (outputs (map floats ss) vc) n = Some (true, o) /\
    num o = IZR (pidZ p (sgn d * Kp) (sgn d * Ki) (sgn d * Kd) lo hi u x0 (map snd (firstn n ss)) s x).
Proof. exact @exact_right. Qed.
Print Assumptions C125_exact.
(** 3*15 + (10+2*15) - 4*0 = 85; 3*11 + (10+2*15+2*11) - 4*4 = 79 *)
Definition exact_samples : list (Z * (Z * Z)) := [(1000, (20, 5)); (2000, (20, 9)); (3000, (20, 30))].
Definition all_taken (vc : cells * ctl) : bool := forallb fst (outputs (map floats exact_samples) vc).
Example C125_exact_case :
  pidZ OnError 3 2 4 (-500) 500 10 5 [] 20 5 = 85 /\ pidZ OnError 3 2 4 (-500) 500 10 5 [(20, 5)] 20 9 = 79 /\
  (forall n, (n <= 3)%nat -> -500 <= sumZ OnError 3 2 10 5 (map snd (firstn n exact_samples)) <= 500) /\
  exists vc, ready true 0 Forward (demo_setup OnError) vc /\ all_taken vc && shown (outputs (map floats exact_samples) vc) [(true, 85); (true, 79); (true, -72)] = true.
Proof.
  split; [reflexivity|]. split; [reflexivity|]. split.
  - intros n Hn. destruct n as [|[|[|[|n]]]]; [vm_compute; split; discriminate..|lia].
  - apply (readied_ready (f_ofZ 9)). vm_compute. reflexivity.
Qed.

(** Taking over: with the output within the limits and the reading on the setpoint, the output stays where it was when the controller
    took over, for as long as reading and setpoint stay there. *)
Theorem C125_hold :
  forall dbg now0 d T Kp Ki Kd p lo hi u x vc ss,
  1 <= T <= 2 ^ 24 -> gain Kp -> gain Ki -> gain Kd -> moderate lo -> moderate hi -> moderate u -> moderate x -> f_lt lo hi = true -> f_le lo u = true -> f_le u hi = true ->
  ready dbg now0 d (setup T Kp Ki Kd p lo hi u x) vc ->
  Forall moderate_sample ss -> Forall (fun q => num (snd (fst q)) = num x /\ num (snd q) = num x) ss ->
  Forall (fun r => num (snd r) = num u) (outputs ss vc).
Proof. exact @hold_right. Qed.
Print Assumptions C125_hold.
Definition held : list (Z * (Z * Z)) := [(1000, (5, 5)); (1500, (5, 5)); (2000, (5, 5))].
Lemma demo_moderate ss : forallb (fun q : Z * (Z * Z) => (Z.abs (fst (snd q)) <=? 2 ^ 24) && (Z.abs (snd (snd q)) <=? 2 ^ 24)) ss = true -> Forall moderate_sample (map floats ss).
Proof.
  intros H. apply Forall_map. rewrite forallb_forall in H. apply Forall_forall. intros q Hq. specialize (H q Hq). apply andb_prop in H. destruct H as [A B].
  apply Z.leb_le in A. apply Z.leb_le in B. split; apply mod_Z; assumption.
Qed.
Example C125_hold_case : gain (f_ofZ 3) /\ gain (f_ofZ 2) /\ gain (f_ofZ 4) /\ moderate (f_ofZ (-500)) /\ moderate (f_ofZ 500) /\ moderate (f_ofZ 10) /\
  f_lt (f_ofZ (-500)) (f_ofZ 500) && f_le (f_ofZ (-500)) (f_ofZ 10) && f_le (f_ofZ 10) (f_ofZ 500) = true /\ Forall moderate_sample (map floats held) /\
  exists vc, ready true 0 Reverse (demo_setup OnMeasurement) vc /\ shown (outputs (map floats held) vc) [(true, 10); (false, 10); (true, 10)] = true.
Proof.
  do 3 (split; [apply gain_Z; lia|]). do 3 (split; [apply mod_Z; lia|]). split; [vm_compute; reflexivity|]. split; [apply demo_moderate; reflexivity|].
  apply (readied_ready (f_ofZ 9)). vm_compute. reflexivity.
Qed.

(** Direction: with non-negative gains, a controller in forward direction answers a higher setpoint, at any sample, and a lower last
    reading with no lower output; one in reverse direction with no higher output. All outputs on the way compare the same. *)
Theorem C125_forward :
  forall dbg dbg' now0 T Kp Ki Kd p lo hi u x vc vc' ss ss' q q',
  1 <= T <= 2 ^ 24 -> gain Kp -> gain Ki -> gain Kd -> moderate lo -> moderate hi -> moderate u -> moderate x -> f_lt lo hi = true ->
  ready dbg now0 Forward (setup T Kp Ki Kd p lo hi u x) vc -> ready dbg' now0 Forward (setup T Kp Ki Kd p lo hi u x) vc' ->
  Forall moderate_sample (ss ++ [q]) -> Forall moderate_sample (ss' ++ [q']) ->
  Forall2 (fun a b => fst (fst b) = fst (fst a) /\ (num (snd (fst b)) <= num (snd (fst a)))%R /\ num (snd b) = num (snd a)) ss ss' ->
  fst (fst q') = fst (fst q) -> (num (snd (fst q')) <= num (snd (fst q)))%R -> (num (snd q) <= num (snd q'))%R ->
  Forall2 (fun a b => fst a = fst b /\ (num (snd b) <= num (snd a))%R) (outputs (ss ++ [q]) vc) (outputs (ss' ++ [q']) vc').
Proof. exact @forward_right. Qed.
Print Assumptions C125_forward.
Theorem C125_reverse :
  forall dbg dbg' now0 T Kp Ki Kd p lo hi u x vc vc' ss ss' q q',
  1 <= T <= 2 ^ 24 -> gain Kp -> gain Ki -> gain Kd -> moderate lo -> moderate hi -> moderate u -> moderate x -> f_lt lo hi = true ->
  ready dbg now0 Reverse (setup T Kp Ki Kd p lo hi u x) vc -> ready dbg' now0 Reverse (setup T Kp Ki Kd p lo hi u x) vc' ->
  Forall moderate_sample (ss ++ [q]) -> Forall moderate_sample (ss' ++ [q']) ->
  Forall2 (fun a b => fst (fst b) = fst (fst a) /\ (num (snd (fst b)) <= num (snd (fst a)))%R /\ num (snd b) = num (snd a)) ss ss' ->
  fst (fst q') = fst (fst q) -> (num (snd (fst q')) <= num (snd (fst q)))%R -> (num (snd q) <= num (snd q'))%R ->
  Forall2 (fun a b => fst a = fst b /\ (num (snd a) <= num (snd b))%R) (outputs (ss ++ [q]) vc) (outputs (ss' ++ [q']) vc').
Proof. exact @reverse_right. Qed.
Print Assumptions C125_reverse.
Definition higher : list (Z * (Z * Z)) := [(1000, (20, 5)); (2000, (25, 9)); (3000, (20, 11))].
Definition lower_ : list (Z * (Z * Z)) := [(1000, (18, 5)); (2000, (20, 9)); (3000, (20, 14))].
Example C125_direction_case : Forall moderate_sample (map floats higher) /\ Forall moderate_sample (map floats lower_) /\
  (exists vc, ready true 0 Forward (demo_setup OnError) vc /\
    shown (outputs (map floats higher) vc) [(true, 85); (true, 104); (true, 109)] && shown (outputs (map floats lower_) vc) [(true, 75); (true, 75); (true, 68)] = true) /\
  (exists vc, ready true 0 Reverse (demo_setup OnError) vc /\
    shown (outputs (map floats higher) vc) [(true, -65); (true, -84); (true, -89)] && shown (outputs (map floats lower_) vc) [(true, -55); (true, -55); (true, -48)] = true).
Proof.
  split; [apply demo_moderate; reflexivity|]. split; [apply demo_moderate; reflexivity|].
  split; apply (readied_ready (f_ofZ 9)); vm_compute; reflexivity.
Qed.

(** A controller in reverse direction does to readings and setpoints what one in forward direction does to them negated: the same
    samples are taken, with the same outputs. *)
Theorem C125_mirror :
  forall dbg dbg' now0 T Kp Ki Kd p lo hi u x x' vc vc' ss ss',
  1 <= T <= 2 ^ 24 -> gain Kp -> gain Ki -> gain Kd -> moderate lo -> moderate hi -> moderate u -> moderate x -> moderate x' -> f_lt lo hi = true ->
  num x' = (- num x)%R ->
  ready dbg now0 Reverse (setup T Kp Ki Kd p lo hi u x) vc -> ready dbg' now0 Forward (setup T Kp Ki Kd p lo hi u x') vc' ->
  Forall moderate_sample ss -> Forall moderate_sample ss' ->
  Forall2 (fun q q' => fst (fst q') = fst (fst q) /\ num (snd (fst q')) = (- num (snd (fst q)))%R /\ num (snd q') = (- num (snd q))%R) ss ss' ->
  Forall2 same_response (outputs ss vc) (outputs ss' vc').
Proof. exact @mirror_right. Qed.
Print Assumptions C125_mirror.
Definition negative (q : Z * (Z * Z)) : Z * (Z * Z) := (fst q, (- fst (snd q), - snd (snd q))).
Example C125_mirror_case :
  (exists vc, ready true 0 Reverse (demo_setup OnMeasurement) vc /\ shown (outputs (map floats demo_samples) vc) [(true, -20); (true, -14); (false, -14); (true, 137); (true, 135)] = true) /\
  (exists vc, ready true 0 Forward (setup 1000 (f_ofZ 3) (f_ofZ 2) (f_ofZ 4) OnMeasurement (f_ofZ (-500)) (f_ofZ 500) (f_ofZ 10) (f_ofZ (-5))) vc /\
    shown (outputs (map floats (map negative demo_samples)) vc) [(true, -20); (true, -14); (false, -14); (true, 137); (true, 135)] = true).
Proof. split; apply (readied_ready (f_ofZ 9)); vm_compute; reflexivity. Qed.

(** An object of the class PID is its controller, driven by these calls: so all of this holds of it. *)
Theorem C125_pid :
  forall dbg now cfg p0, pid_new dbg now cfg = Ok p0 ->
  exists c0, ctl_new dbg now (tKp (c_tunings cfg)) (tKi (c_tunings cfg)) (tKd (c_tunings cfg)) OnMeasurement (c_dir cfg) = Ok c0 /\
  forall os, match pid_run dbg os p0 with
             | Ok p => exists v c, ctl_calls dbg (flat_map (calls_of cfg) os) (mkCells f_zero f_zero f_zero, c0) = Ok (v, c) /\ pid_response false p = Ok (output v)
             | Halt => ctl_calls dbg (flat_map (calls_of cfg) os) (mkCells f_zero f_zero f_zero, c0) = Halt
             | _ => False
             end.
Proof. exact @pid_right. Qed.
Print Assumptions C125_pid.
Definition law_config := mkPidConfig (mkTunings (f_ofZ 3) (f_ofZ 2) (f_ofZ 4)) (f_ofZ (-500)) (f_ofZ 500) 1000 OnError Forward.
Definition law_ops : list pid_op := [PInitialize; PTunings (c_tunings law_config) OnError; PSetpoint (f_ofZ 20); PReading (f_ofZ 5) 1000; PReading (f_ofZ 9) 2000].
(** 3*11 + 2*15 + 2*11 - 4*4 = 69 *)
Example C125_pid_case : match pid_new true 0 law_config with
  Ok p => match pid_run true law_ops p with Ok p => match pid_response true p with Ok x => f_eq x (f_ofZ 69) | _ => false end | _ => false end | _ => false end = true.
Proof. vm_compute. reflexivity. Qed.

(** error() is the distance of the last reading from the last setpoint, rounded: never negative. *)
Theorem C125_error :
  forall dbg now cfg p0 os p, pid_new dbg now cfg = Ok p0 -> pid_run dbg os p0 = Ok p -> moderate (last_setpoint os) -> moderate (latest os) ->
  num (pid_error p) = round radix2 (FLT_exp (3 - 128 - 24) 24) ZnearestE (Rabs (num (last_setpoint os) - num (latest os))).
Proof. exact @error_right. Qed.
Print Assumptions C125_error.
Definition error_ops : list pid_op := [PInitialize; PSetpoint (f_ofZ 7); PReading (f_ofZ 5) 1000; PSetpoint (f_ofZ 20); PReading (f_ofZ 29) 1010].
Example C125_error_case : last_setpoint error_ops = f_ofZ 20 /\ latest error_ops = f_ofZ 29 /\
  match pid_new true 0 law_config with Ok p => match pid_run true error_ops p with Ok p => f_eq (pid_error p) (f_ofZ 9) | _ => false end | _ => false end = true.
Proof. split; [reflexivity|]. split; [reflexivity|]. vm_compute. reflexivity. Qed.
