(** What a relay autotuner does, over its measurements. *)
From Coq Require Import ZArith Bool List.
From Flocq Require Import IEEE754.BinarySingleNaN.
From Verif Require Import FloatModel TunerModel.
Import ListNotations.
Open Scope Z_scope.

(** A relay with hysteresis between [lo] and [hi] that counts its cycles and stays off after [n] of them: on or off, and the
    cycles completed *)
Definition relay (lo hi : float) (n : Z) (st : bool * Z) (x : float) : bool * Z :=
  let (on, k) := st in
  let on := on && negb (Bltb hi x) in
  let (on, k) := if negb on && Bltb x lo then (true, k + 1) else (on, k) in
  (if Z_le_dec n k then false else on, k).
(** The sum of a list of floats, in order *)
Definition fsum (l : list float) : float := fold_left f_add l (f_ofZ 0).
(** The relay on after each of the measurements *)
Fixpoint relays (lo hi : float) (n : Z) (st : bool * Z) (xs : list float) : list (bool * Z) :=
  match xs with [] => [] | x :: xs' => let st' := relay lo hi n st x in st' :: relays lo hi n st' xs' end.

(** What can be seen of a tuner: after each call, its cycle count and its gains. [gains_seen k l]: the gains shown after each
    call that completed a cycle, [k] cycles being complete before *)
Definition look := (Z * (float * float * float))%type.
Fixpoint gains_seen (k : Z) (l : list look) : list (float * float * float) :=
  match l with [] => [] | (k', g) :: l' => (if Z_lt_dec k k' then [g] else []) ++ gains_seen k' l' end.
Definition gain_p (g : float * float * float) := fst (fst g).
Definition gain_i (g : float * float * float) := snd (fst g).
Definition gain_d (g : float * float * float) := snd g.
Definition divided (l : list float) (n : Z) : float := f_div (fsum l) (f_ofZ n).
(** The mean of a list of floats *)
Definition fmean (l : list float) : float := divided l (Z.of_nat (length l)).
(** The largest and the smallest of a list and a first value *)
Definition peak (l : list float) (x : float) : float := fold_left (fun m y => if Bltb y m then m else y) l x.
Definition trough (l : list float) (x : float) : float := fold_left (fun m y => if Bltb m y then m else y) l x.
(** The relay method: the ultimate gain is 4 d / (pi a) for output amplitude [d] and input amplitude [a] (half the ranges);
    [p], [i], [d] are the Ziegler-Nichols factors of Kp / Ku, Ti / Tu and Td / Tu; the integral and derivative gains are per
    call of the control loop, one in [interval] ms. *)
Definition ultimate_gain (orange irange : float) : float :=
  f_div (f_mul (f_ofZ 4) (f_div orange (f_ofZ 2))) (f_div (f_mul (f_div (f_ofZ 13176795) (f_ofZ 4194304)) irange) (f_ofZ 2)).
Definition ziegler_nichols (p i d : float) (ku : float) (tu interval : Z) : float * float * float :=
  let kp := f_mul p ku in
  (kp, f_mul (f_div kp (f_mul i (f_ofZ tu))) (f_ofZ interval), f_div (f_mul (f_mul d kp) (f_ofZ tu)) (f_ofZ interval)).
(** The factors of each mode, in the Ziegler-Nichols table ("classic PID", "some overshoot", "no overshoot") *)
Definition factors (m : aggressiveness) : float * float * float :=
  match m with
  | BasicPID => (f_lit 6 10, f_lit 5 10, f_lit 125 1000)
  | LessOvershoot => (f_lit 33 100, f_lit 5 10, f_lit 33 100)
  | NoOvershoot => (f_lit 2 10, f_lit 5 10, f_lit 33 100)
  end.
(** The gains for a configuration, from the range of the measurements and the period *)
Definition zn (c : tuner_config) (irange : float) (tu : Z) : float * float * float :=
  let '(p, i, d) := factors (t_mode c) in
  ziegler_nichols p i d (ultimate_gain (f_sub (t_max c) (t_min c)) irange) tu (t_interval c).
