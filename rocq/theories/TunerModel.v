(** Model of controller/implementations/pid/pid_tuner.{hpp,cpp} and of PID::autotune (controller/pid.cpp:25-133). *)
From Coq Require Import ZArith Bool List.
From Verif Require Import Base KTimeModel FloatModel PidModel.
Import ListNotations.
Open Scope Z_scope.

(** pid_tuner.hpp:30 *)
Inductive aggressiveness := BasicPID | LessOvershoot | NoOvershoot.
(** pid_tuner.hpp:80-85 *)
Record tuner_config := mkTC { t_target : float; t_hyst : float; t_interval : Z; t_min : float; t_max : float; t_mode : aggressiveness; t_cycles : Z }.
(** The setters pid_tuner.hpp:41-57; the hysteresis is stored as its absolute value. *)
Definition configure (target hyst : float) (interval : Z) (mn mx : float) (mode : aggressiveness) (cycles : Z) : tuner_config :=
  mkTC target (f_abs hyst) interval mn mx mode cycles.

(** pid_tuner.hpp:87-93 *)
Record tuner := mkT { cycle : Z; on : bool; outv : float; t1 : Z; t2 : Z; thigh : Z; tlow : Z; mx : float; mn : float;
                      psum : float; isum : float; dsum : float; gp : float; gi : float; gd : float }.

Section Tuner.
Variable c : tuner_config.

(** pid_tuner.cpp:5-14; gp, gi, gd (kp, ki, kd) keep their values, 0 in a new tuner *)
Definition start (ms : Z) : tuner :=
  mkT 0 true (t_max c) ms ms 0 0 (f_ofZ (-1000000000000)) (f_ofZ 1000000000000) f_zero f_zero f_zero f_zero f_zero f_zero.

(** pid_tuner.hpp:73 *)
Definition is_finished (t : tuner) : bool := t_cycles c <=? cycle t.

(** float(M_PI) = 13176795 / 2^22 *)
Definition f_pi : float := f_div (f_ofZ 13176795) (f_ofZ 4194304).
(** pid_tuner.cpp:83-95; the double literals are rounded to float (0.33 and 0.6: directly instead of through double) *)
Definition constants : float * float * float :=
  match t_mode c with
  | BasicPID => (f_lit 6 10, f_lit 5 10, f_lit 125 1000)
  | LessOvershoot => (f_lit 33 100, f_lit 5 10, f_lit 33 100)
  | NoOvershoot => (f_lit 2 10, f_lit 5 10, f_lit 33 100)
  end.
(** pid_tuner.cpp:57-100: the gains from the extremes and the durations of a cycle *)
Definition gains (mx mn : float) (tlow thigh : Z) : float * float * float :=
  let ku := f_div (f_mul (f_ofZ 4) (f_div (f_sub (t_max c) (t_min c)) (f_ofZ 2))) (f_div (f_mul f_pi (f_sub mx mn)) (f_ofZ 2)) in
  let tu := f_ofZ (tlow + thigh) in
  let '(kpc, tic, tdc) := constants in
  let kp := f_mul kpc ku in
  let ki := f_mul (f_div kp (f_mul tic tu)) (f_ofZ (t_interval c)) in
  let kd := f_div (f_mul (f_mul tdc kp) tu) (f_ofZ (t_interval c)) in
  (kp, ki, kd).

(** pid_tuner.cpp:34-36 *)
Definition extremes (input : float) (t : tuner) : tuner :=
  mkT (cycle t) (on t) (outv t) (t1 t) (t2 t) (thigh t) (tlow t)
      (if f_gt (mx t) input then mx t else input) (if f_lt (mn t) input then mn t else input)
      (psum t) (isum t) (dsum t) (gp t) (gi t) (gd t).
(** pid_tuner.cpp:38-46 *)
Definition turn_off (input : float) (ms : Z) (t : tuner) : tuner :=
  if on t && f_gt input (f_add (t_target c) (t_hyst c)) then
    mkT (cycle t) false (t_min c) ms (t2 t) (ksub MS MS ms (t2 t)) (tlow t) (t_target c) (mn t)
        (psum t) (isum t) (dsum t) (gp t) (gi t) (gd t)
  else t.
(** pid_tuner.cpp:47-114 *)
Definition ends_cycle (input : float) (t : tuner) : bool := negb (on t) && f_lt input (f_sub (t_target c) (t_hyst c)).
Definition turn_on (input : float) (ms : Z) (t : tuner) : tuner :=
  if ends_cycle input t then
    let low := ksub MS MS ms (t1 t) in
    let '(kp, ki, kd) := gains (mx t) (mn t) low (thigh t) in
    let sum s g := if 1 <? cycle t then f_add s g else s in
    mkT (cycle t + 1) true (t_max c) (t1 t) ms (thigh t) low (mx t) (t_target c)
        (sum (psum t) kp) (sum (isum t) ki) (sum (dsum t) kd) kp ki kd
  else t.
(** pid_tuner.cpp:117-123 *)
Definition finish (t : tuner) : tuner :=
  if is_finished t then
    let n := f_ofZ (cycle t - 1) in
    mkT (cycle t) false (t_min c) (t1 t) (t2 t) (thigh t) (tlow t) (mx t) (mn t) (psum t) (isum t) (dsum t)
        (f_div (psum t) n) (f_div (isum t) n) (f_div (dsum t) n)
  else t.
(** pid_tuner.cpp:16-126: the value commanded and the tuner *)
Definition do_autotune (input : float) (ms : Z) (t : tuner) : float * tuner :=
  let t' := finish (turn_on input ms (turn_off input ms (extremes input t))) in (outv t', t').

(** Measurements with their times; the values commanded *)
Fixpoint tune (ms : list (float * Z)) (t : tuner) : list float * tuner :=
  match ms with
  | [] => ([], t)
  | (x, now) :: ms' => let (o, t1) := do_autotune x now t in let (os, t2) := tune ms' t1 in (o :: os, t2)
  end.

(** After each measurement, get_cycle and get_Kp, get_Ki, get_Kd (pid_tuner.hpp:68-76) *)
Definition shown (t : tuner) : Z * (float * float * float) := (cycle t, (gp t, gi t, gd t)).
Fixpoint watch (ms : list (float * Z)) (t : tuner) : list (Z * (float * float * float)) :=
  match ms with [] => [] | (x, now) :: ms' => let t1 := snd (do_autotune x now t) in shown t1 :: watch ms' t1 end.

(** pid.cpp:86-131: the tuning loop of PID::autotune, with the values given to process_setter. [ms]: what process_getter and
    uptime return in each round; None when the measurements end before the tuner is finished. Not modelled here: reaching the
    start point before and the waiting between rounds (see WarmModel.v), logging, the two assertions on the value commanded. *)
Fixpoint autotune_loop (ms : list (float * Z)) (t : tuner) : option (list float * tuner) :=
  if is_finished t then Some ([f_ofZ 0], t)
  else match ms with
       | [] => None
       | (x, now) :: ms' =>
           let (o, t1) := do_autotune x now t in
           match autotune_loop ms' t1 with Some (os, t2) => Some (o :: os, t2) | None => None end
       end.
End Tuner.

(** The same configuration with another number of cycles (pid_tuner.hpp:57) *)
Definition with_cycles (c : tuner_config) (n : Z) : tuner_config :=
  mkTC (t_target c) (t_hyst c) (t_interval c) (t_min c) (t_max c) (t_mode c) n.
