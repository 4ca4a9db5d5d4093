(** Model of controller/implementations/pid/pid_controller.{hpp,cpp} and controller/pid.{hpp,cpp} (autotune: see TunerModel).
    The variables a controller points to are a record of three floats. *)
From Coq Require Import ZArith Bool List.
From Verif Require Import Base KTimeModel FloatModel.
Import ListNotations.
Open Scope Z_scope.

(** pid_controller.hpp:22-23 *)
Inductive direction := Forward | Reverse.
Inductive proportionality := OnMeasurement | OnError.
Definition same_direction (a b : direction) : bool := match a, b with Forward, Forward | Reverse, Reverse => true | _, _ => false end.

(** The user's variables, pid_controller.hpp:58-60 *)
Record cells := mkCells { input : float; output : float; setpoint : float }.
(** pid_controller.hpp:51-70 *)
Record ctl := mkCtl {
  kp : float; ki : float; kd : float;
  dir : direction;
  last_time : Z; cumulative : float; last_reading : float;
  sampling : Z; lower : float; upper : float;
  prop : proportionality }.
(** The member initialisers *)
Definition ctl0 : ctl := mkCtl f_zero f_zero f_zero Forward 0 f_zero f_zero 100 f_zero (f_ofZ 255) OnMeasurement.

(** The repeated "if (x > upper) x = upper; else if (x < lower) x = lower" *)
Definition clamp (lo hi x : float) : float := if f_gt x hi then hi else if f_lt x lo then lo else x.

(** pid_controller.cpp:102-109; the int 0 is converted to float *)
Definition negated (x : float) : float := f_sub f_zero x.
Definition set_direction (d : direction) (c : ctl) : ctl :=
  if same_direction d (dir c) then c
  else mkCtl (negated (kp c)) (negated (ki c)) (negated (kd c)) d (last_time c) (cumulative c) (last_reading c)
             (sampling c) (lower c) (upper c) (prop c).

(** pid_controller.cpp:84-100 *)
Definition set_tunings (dbg : bool) (Kp Ki Kd : float) (p : proportionality) (c : ctl) : outcome ctl :=
  sassert dbg (f_ge Kp f_zero && f_ge Ki f_zero && f_ge Kd f_zero) ;;;
  sassert dbg (kgt MS MS (sampling c) 0) ;;;
  let seconds := f_div (f_ofZ (sampling c)) (f_ofZ 1000) in
  let kp' := Kp in
  let ki' := f_mul Ki seconds in
  let kd' := f_div Kd seconds in
  let neg x := match dir c with Reverse => negated x | Forward => x end in
  Ok (mkCtl (neg kp') (neg ki') (neg kd') (dir c) (last_time c) (cumulative c) (last_reading c)
            (sampling c) (lower c) (upper c) p).

(** pid_controller.cpp:8-18 (the asserts that the pointers are set are not modelled), [now] is HAL::millis() *)
Definition ctl_new (dbg : bool) (now : Z) (Kp Ki Kd : float) (p : proportionality) (d : direction) : outcome ctl :=
  c <- set_tunings dbg Kp Ki Kd p (set_direction d ctl0) ;;
  Ok (mkCtl (kp c) (ki c) (kd c) (dir c) (ksub MS MS now (sampling c)) (cumulative c) (last_reading c)
            (sampling c) (lower c) (upper c) (prop c)).

(** pid_controller.cpp:23-31 *)
Definition ctl_initialize (v : cells) (c : ctl) : ctl :=
  mkCtl (kp c) (ki c) (kd c) (dir c) (last_time c) (clamp (lower c) (upper c) (output v)) (input v)
        (sampling c) (lower c) (upper c) (prop c).

(** pid_controller.cpp:33-68 *)
Definition update (now : Z) (v : cells) (c : ctl) : bool * cells * ctl :=
  if kge MS MS (ksub MS MS now (last_time c)) (sampling c) then
    let inp := input v in
    let error := f_sub (setpoint v) inp in
    let dinput := f_sub inp (last_reading c) in
    let cum := f_add (cumulative c) (f_mul (ki c) error) in
    let cum := match prop c with OnMeasurement => f_sub cum (f_mul (kp c) dinput) | OnError => cum end in
    let cum := clamp (lower c) (upper c) cum in
    let out := match prop c with OnError => f_mul (kp c) error | OnMeasurement => f_zero end in
    let out := f_add out (f_sub cum (f_mul (kd c) dinput)) in
    let out := clamp (lower c) (upper c) out in
    (true, mkCells inp out (setpoint v),
     mkCtl (kp c) (ki c) (kd c) (dir c) now cum inp (sampling c) (lower c) (upper c) (prop c))
  else (false, v, c).

(** pid_controller.cpp:70-82 *)
Definition set_output_limits (mn mx : float) (v : cells) (c : ctl) : cells * ctl :=
  if f_ge mn mx then (v, c)
  else (mkCells (input v) (clamp mn mx (output v)) (setpoint v),
        mkCtl (kp c) (ki c) (kd c) (dir c) (last_time c) (clamp mn mx (cumulative c)) (last_reading c) (sampling c) mn mx (prop c)).

(** pid_controller.cpp:111-119; the raw counts are integers and so is their quotient *)
Definition set_sampling_time (t : Z) (c : ctl) : ctl :=
  if kgt MS MS t 0 then
    let ratio := f_ofZ (Z.quot t (sampling c)) in
    mkCtl (kp c) (f_mul (ki c) ratio) (f_div (kd c) ratio) (dir c) (last_time c) (cumulative c) (last_reading c)
          t (lower c) (upper c) (prop c)
  else c.

(** ** A program using a controller: the calls and the writes to its variables *)
Inductive call :=
| SetInput (x : float) | SetSetpoint (x : float) | SetOutput (x : float)
| Initialize | Update (now : Z) | Limits (mn mx : float) | Tunings (Kp Ki Kd : float) (p : proportionality)
| Direction (d : direction) | SamplingTime (t : Z).
Definition ctl_call (dbg : bool) (o : call) (vc : cells * ctl) : outcome (cells * ctl) :=
  let (v, c) := vc in
  match o with
  | SetInput x => Ok (mkCells x (output v) (setpoint v), c)
  | SetSetpoint x => Ok (mkCells (input v) (output v) x, c)
  | SetOutput x => Ok (mkCells (input v) x (setpoint v), c)
  | Initialize => Ok (v, ctl_initialize v c)
  | Update now => let '(_, v', c') := update now v c in Ok (v', c')
  | Limits mn mx => Ok (set_output_limits mn mx v c)
  | Tunings Kp Ki Kd p => c' <- set_tunings dbg Kp Ki Kd p c ;; Ok (v, c')
  | Direction d => Ok (v, set_direction d c)
  | SamplingTime t => Ok (v, set_sampling_time t c)
  end.
Fixpoint ctl_calls (dbg : bool) (os : list call) (vc : cells * ctl) : outcome (cells * ctl) :=
  match os with [] => Ok vc | o :: os => vc' <- ctl_call dbg o vc ;; ctl_calls dbg os vc' end.

(** ** pid.hpp:16-35 *)
Record tunings := mkTunings { tKp : float; tKi : float; tKd : float }.
Record pid_config := mkPidConfig {
  c_tunings : tunings; c_lower : float; c_upper : float; c_interval : Z;
  c_prop : proportionality; c_dir : direction }.
(** pid.hpp:91-98 *)
Record pid := mkPid { p_cfg : pid_config; p_backend : ctl; p_vars : cells }.

(** pid.cpp:5-10 *)
Definition pid_new (dbg : bool) (now : Z) (cfg : pid_config) : outcome pid :=
  b <- ctl_new dbg now (tKp (c_tunings cfg)) (tKi (c_tunings cfg)) (tKd (c_tunings cfg)) OnMeasurement (c_dir cfg) ;;
  sassert dbg (0 <? c_interval cfg) ;;;
  Ok (mkPid cfg b (mkCells f_zero f_zero f_zero)).
(** pid.cpp:12-16 *)
Definition pid_initialize (p : pid) : pid :=
  let (v, b) := set_output_limits (c_lower (p_cfg p)) (c_upper (p_cfg p)) (p_vars p) (p_backend p) in
  let b := set_sampling_time (c_interval (p_cfg p)) b in
  mkPid (p_cfg p) (ctl_initialize v b) v.
(** pid.hpp:55 *)
Definition pid_set_setpoint (x : float) (p : pid) : pid :=
  mkPid (p_cfg p) (p_backend p) (mkCells (input (p_vars p)) (output (p_vars p)) x).
(** pid.hpp:58-60 *)
Definition pid_set_tunings (dbg : bool) (t : tunings) (pr : proportionality) (p : pid) : outcome pid :=
  b <- set_tunings dbg (tKp t) (tKi t) (tKd t) pr (p_backend p) ;; Ok (mkPid (p_cfg p) b (p_vars p)).
(** pid.hpp:63-65 *)
Definition pid_tunings (p : pid) : tunings := mkTunings (kp (p_backend p)) (ki (p_backend p)) (kd (p_backend p)).
(** pid.cpp:20-23 *)
Definition pid_new_reading (x : float) (now : Z) (p : pid) : pid :=
  let v := mkCells x (output (p_vars p)) (setpoint (p_vars p)) in
  let '(_, v', b) := update now v (p_backend p) in mkPid (p_cfg p) b v'.
(** pid.hpp:80-83 *)
Definition pid_response (dbg : bool) (p : pid) : outcome float :=
  sassert dbg (negb (f_isnan (output (p_vars p)))) ;;; Ok (output (p_vars p)).
(** pid.hpp:86 *)
Definition pid_error (p : pid) : float := f_abs (f_sub (setpoint (p_vars p)) (input (p_vars p))).

Inductive pid_op := PInitialize | PSetpoint (x : float) | PTunings (t : tunings) (p : proportionality) | PReading (x : float) (now : Z).
Definition pid_do (dbg : bool) (o : pid_op) (p : pid) : outcome pid :=
  match o with
  | PInitialize => Ok (pid_initialize p)
  | PSetpoint x => Ok (pid_set_setpoint x p)
  | PTunings t pr => pid_set_tunings dbg t pr p
  | PReading x now => Ok (pid_new_reading x now p)
  end.
Fixpoint pid_run (dbg : bool) (os : list pid_op) (p : pid) : outcome pid :=
  match os with [] => Ok p | o :: os => p' <- pid_do dbg o p ;; pid_run dbg os p' end.

(** ** Copies: PID objects in memory. The copy constructor is the implicit one, so the copied backend keeps the pointers it
    has (pid_controller.hpp:58-60), to the variables of the object it was constructed in. [target] is that object. *)
Record object := mkObject { o_pid : pid; o_target : nat }.
Definition heap := list object.
(** pid.cpp:20-23 on object [i]: its own input is written, the backend works on the variables of its target. *)
Definition heap_reading (i : nat) (x : float) (now : Z) (h : heap) : option heap :=
  match nth_error h i with
  | None => None
  | Some o =>
    let p := o_pid o in
    let h1 := upd h i (mkObject (mkPid (p_cfg p) (p_backend p) (mkCells x (output (p_vars p)) (setpoint (p_vars p)))) (o_target o)) in
    match nth_error h1 (o_target o) with
    | None => None
    | Some t =>
      let '(_, v, b) := update now (p_vars (o_pid t)) (p_backend p) in
      let h2 := upd h1 (o_target o) (mkObject (mkPid (p_cfg (o_pid t)) (p_backend (o_pid t)) v) (o_target t)) in
      match nth_error h2 i with
      | None => None
      | Some o2 => Some (upd h2 i (mkObject (mkPid (p_cfg p) b (p_vars (o_pid o2))) (o_target o)))
      end
    end
  end.
Definition heap_copy (i : nat) (h : heap) : option heap :=
  match nth_error h i with None => None | Some o => Some (h ++ [o]) end.
