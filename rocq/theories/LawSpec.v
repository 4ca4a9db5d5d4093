(** Property C125: the control law of the PID controller, over what its caller sees. *)
From Coq Require Import ZArith Bool List Reals.
From Flocq Require Import Core IEEE754.BinarySingleNaN.
From Verif Require Import Base FloatModel PidModel PidSpec.
Import ListNotations.
Open Scope Z_scope.

(** ** The law in single precision *)
(** The gains per sample *)
Record gains := mkGains { gP : float; gI : float; gD : float }.
(** Of gains per second at a sampling time in ms; a controller in reverse direction has them negated *)
Definition signed (d : direction) (x : float) : float := match d with Forward => x | Reverse => f_sub f_zero x end.
Definition per_sample (d : direction) (t : Z) (Kp Ki Kd : float) : gains :=
  let seconds := f_div (f_ofZ t) (f_ofZ 1000) in mkGains (signed d Kp) (signed d (f_mul Ki seconds)) (signed d (f_div Kd seconds)).
(** What happens: the controller takes over with the output at [u] and the reading at [x]; it samples a reading [x] with the setpoint at
    [s]; its limits change *)
Inductive happening := Took_over (u x : float) | Sampled (s x : float) | Limited (lo hi : float).
Definition limit (l : float * float) (x : float) : float := if Bltb (snd l) x then snd l else if Bltb x (fst l) then fst l else x.
(** What is left of it all: the integral term, the last reading and the limits *)
Definition memory : Type := float * float * (float * float).
Definition integral (g : gains) (p : proportionality) (m : memory) (s x : float) : float :=
  let '(i, last, l) := m in
  let i1 := f_add i (f_mul (gI g) (f_sub s x)) in
  limit l (match p with OnMeasurement => f_sub i1 (f_mul (gP g) (f_sub x last)) | OnError => i1 end).
Definition happens (g : gains) (p : proportionality) (m : memory) (h : happening) : memory :=
  let '(i, last, l) := m in
  match h with
  | Took_over u x => (limit l u, x, l)
  | Sampled s x => (integral g p m s x, x, l)
  | Limited a b => if Bleb b a then m else (limit (a, b) i, last, (a, b))
  end.
(** The response to a sample *)
Definition response (g : gains) (p : proportionality) (m : memory) (s x : float) : float :=
  let '(i, last, l) := m in
  let proportional := match p with OnError => f_mul (gP g) (f_sub s x) | OnMeasurement => f_zero end in
  limit l (f_add proportional (f_sub (integral g p m s x) (f_mul (gD g) (f_sub x last)))).
(** The happenings of a program, by the variables and the results of update() *)
Fixpoint observe (dbg : bool) (os : list call) (vc : cells * ctl) : outcome (list happening * (cells * ctl)) :=
  match os with
  | [] => Ok ([], vc)
  | o :: os' =>
      let h := match o with
               | Initialize => [Took_over (output (fst vc)) (input (fst vc))]
               | Update now => if fst (fst (update now (fst vc) (snd vc))) then [Sampled (setpoint (fst vc)) (input (fst vc))] else []
               | Limits a b => [Limited a b]
               | _ => []
               end in
      vc' <- ctl_call dbg o vc ;; '(hs, vc'') <- observe dbg os' vc' ;; Ok (h ++ hs, vc'')
  end.
(** Calls that leave tunings, direction and sampling time alone *)
Definition plain (o : call) : Prop := match o with Tunings _ _ _ _ | Direction _ | SamplingTime _ => False | _ => True end.
Definition direction_in_force (d : direction) (os : list call) : direction :=
  fold_left (fun d o => match o with Direction d' => d' | _ => d end) os d.
(** Calls that leave tunings and sampling time alone, and what happens in a program of them, with the direction then in force *)
Definition steady (o : call) : Prop := match o with Tunings _ _ _ _ | SamplingTime _ => False | _ => True end.
Fixpoint observe_turns (dbg : bool) (d : direction) (os : list call) (vc : cells * ctl) : outcome (list (direction * happening) * (cells * ctl)) :=
  match os with
  | [] => Ok ([], vc)
  | o :: os' =>
      let h := match o with
               | Initialize => [(d, Took_over (output (fst vc)) (input (fst vc)))]
               | Update now => if fst (fst (update now (fst vc) (snd vc))) then [(d, Sampled (setpoint (fst vc)) (input (fst vc)))] else []
               | Limits a b => [(d, Limited a b)]
               | _ => []
               end in
      vc' <- ctl_call dbg o vc ;; '(hs, vc'') <- observe_turns dbg (match o with Direction d' => d' | _ => d end) os' vc' ;; Ok (h ++ hs, vc'')
  end.
(** Gains without a negative zero among them *)
Definition plus_signed (g : gains) : Prop := Bsign (gP g) = false /\ Bsign (gI g) = false /\ Bsign (gD g) = false.

(** ** Programs: set up, then sampled *)
Definition setup (T : Z) (Kp Ki Kd : float) (p : proportionality) (lo hi u x : float) : list call :=
  [SamplingTime T; Tunings Kp Ki Kd p; Limits lo hi; SetOutput u; SetInput x; Initialize].
Definition ready (dbg : bool) (now0 : Z) (d : direction) (os : list call) (vc : cells * ctl) : Prop :=
  exists a b k p0 c0 v0, ctl_new dbg now0 a b k p0 d = Ok c0 /\ ctl_calls dbg os (v0, c0) = Ok vc.
(** At the time, setpoint and reading of each sample: was it taken, and the output afterwards *)
Fixpoint outputs (ss : list (Z * float * float)) (vc : cells * ctl) : list (bool * float) :=
  match ss with
  | [] => []
  | (now, s, x) :: ss' => let '(b, v', c') := update now (mkCells x (output (fst vc)) s) (snd vc) in (b, output v') :: outputs ss' (v', c')
  end.
Definition num (x : float) : R := B2R x.
(** Numbers far from the ends of the range of float *)
Definition moderate (x : float) : Prop := is_finite x = true /\ (Rabs (num x) <= bpow radix2 40)%R.
Definition gain (x : float) : Prop := moderate x /\ (0 <= num x)%R.
Definition moderate_sample (q : Z * float * float) : Prop := moderate (snd (fst q)) /\ moderate (snd q).
(** The same response: taken or not, and the number *)
Definition same_response (a b : bool * float) : Prop := fst a = fst b /\ num (snd a) = num (snd b).

(** ** On integers: the textbook sum *)
Definition sgn (d : direction) : Z := match d with Forward => 1 | Reverse => -1 end.
Definition limitZ (lo hi x : Z) : Z := Z.max lo (Z.min hi x).
(** [u]: the output taken over, [x0] the reading then; (s, x) the samples so far; the sum over the errors *)
Definition errors (ss : list (Z * Z)) : Z := fold_right Z.add 0 (map (fun q => fst q - snd q) ss).
Definition reading (x0 : Z) (ss : list (Z * Z)) : Z := last (map snd ss) x0.
(** The integral term after the samples [ss] *)
Definition sumZ (p : proportionality) (P I u x0 : Z) (ss : list (Z * Z)) : Z :=
  u + I * errors ss - match p with OnMeasurement => P * (reading x0 ss - x0) | OnError => 0 end.
(** The output at the sample (s, x) after [ss] *)
Definition pidZ (p : proportionality) (P I D lo hi u x0 : Z) (ss : list (Z * Z)) (s x : Z) : Z :=
  limitZ lo hi (match p with OnError => P * (s - x) | OnMeasurement => 0 end + sumZ p P I u x0 (ss ++ [(s, x)]) - D * (x - reading x0 ss)).
Definition floats (q : Z * (Z * Z)) : Z * float * float := (fst q, f_ofZ (fst (snd q)), f_ofZ (snd (snd q))).

(** ** The class PID: what its operations make of the controller *)
Definition calls_of (cfg : pid_config) (o : pid_op) : list call :=
  match o with
  | PInitialize => [Limits (c_lower cfg) (c_upper cfg); SamplingTime (c_interval cfg); Initialize]
  | PSetpoint x => [SetSetpoint x]
  | PTunings t p => [Tunings (tKp t) (tKi t) (tKd t) p]
  | PReading x now => [SetInput x; Update now]
  end.
Definition outcome_map {A B} (f : A -> B) (o : outcome A) : outcome B :=
  match o with Ok a => Ok (f a) | Halt => Halt | UB => UB | Throw => Throw | Fuel => Fuel end.
(** The last setpoint given and the last reading, zero before *)
Definition last_setpoint (os : list pid_op) : float := fold_left (fun s o => match o with PSetpoint x => x | _ => s end) os f_zero.
Definition latest (os : list pid_op) : float := fold_left (fun s o => match o with PReading x _ => x | _ => s end) os f_zero.
