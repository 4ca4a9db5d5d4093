(** Model of the phases of PID::autotune around the tuner: reaching the start point (controller/pid.cpp:30-53) and keeping the sampling
    interval (controller/pid.cpp:91-130). *)
From Coq Require Import ZArith Bool List.
From Flocq Require Import IEEE754.BinarySingleNaN.
From Verif Require Import Base FloatModel KTimeModel TimersModel TunerModel.
Import ListNotations.
Open Scope Z_scope.

(** What a round of a loop sees: the process, the clock of the platform and the clock given as [uptime] *)
Record round := mkRound { reading : float; hal : Z; up : Z }.

Section Start.
(** _cfg.output_lower_limit, _cfg.output_upper_limit, setpoint and timeout *)
Variables (lower upper setpoint : float) (timeout : Z).
(** pid.cpp:34: the second half of both conditions *)
Definition go_on (r : round) (a : alarm) : bool * alarm :=
  let (e, a') := alarm_expired (hal r) a in (negb e || keq MS MS timeout 0, a').
(** pid.cpp:34-40: the values given to process_setter, and the alarm and the rounds that remain, None when the rounds end before the
    loop. The timer is only looked at below the setpoint. process_getter is called once more for the message of a debug build; this is not
    modelled, nor are the user's loop and sleep. *)
Fixpoint heat (rs : list round) (a : alarm) : list float * option (alarm * list round) :=
  match rs with
  | [] => ([], None)
  | r :: rs' =>
      if f_lt (reading r) setpoint then
        let (c, a') := go_on r a in
        if c then let (os, e) := heat rs' a' in (upper :: os, e) else ([], Some (a', rs'))
      else ([], Some (a, rs'))
  end.
(** pid.cpp:44-48: the rounds that remain *)
Fixpoint cool (rs : list round) (a : alarm) : option (list round) :=
  match rs with
  | [] => None
  | r :: rs' => if f_gt (reading r) setpoint then let (c, a') := go_on r a in if c then cool rs' a' else Some rs' else Some rs'
  end.
(** pid.cpp:31-49; the timer starts at [t0] on the clock of the platform *)
Definition block_until (saturated : bool) (t0 : Z) (rs : list round) : list float * option (list round) :=
  let (os, e) := heat rs (mkAlarm (kadd MS MS t0 timeout) false) in
  match e with
  | None => (os, None)
  | Some (a, rs') => (os ++ [lower], if saturated then Some rs' else cool rs' a)
  end.
End Start.
(** pid.cpp:51-53; [satured]: TuneConfig::satured_at_start (pid.hpp:42), which is not read *)
Definition autotune_start (lower upper startpoint : float) (satured : bool) (t0 : Z) (rs : list round) : list float * option (list round) :=
  if f_gt startpoint f_zero then block_until lower upper startpoint (from_other MIN MS 30) true t0 rs else ([], Some rs).

(** pid.cpp:122-129: sleeping for a millisecond advances [uptime] by one; the user's loop takes no time *)
Fixpoint wait (fuel : nat) (start interval now : Z) : outcome Z :=
  if klt MS MS (ksub MS MS now start) interval then match fuel with O => Fuel | S f => wait f start interval (now + 1) end else Ok now.
(** pid.cpp:91-131 with that clock: the times of the measurements and the values commanded; Fuel when the measurements or the rounds of
    waiting end before *)
Fixpoint paced (c : tuner_config) (fuel : nat) (vs : list float) (now : Z) (t : tuner) : outcome (list (Z * float) * tuner) :=
  if is_finished c t then Ok ([(now, f_ofZ 0)], t)
  else match vs with
       | [] => Fuel
       | v :: vs' =>
           let (o, t1) := do_autotune c v now t in
           now' <- wait fuel now (t_interval c) now ;;
           '(os, t2) <- paced c fuel vs' now' t1 ;;
           Ok ((now, o) :: os, t2)
       end.
