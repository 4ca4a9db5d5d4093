(** Model of analogue outputs: platform/gpio.hpp:43-66, platform/gpio.cpp and the outputs of arduino.hpp and mock.hpp. *)
From Coq Require Import ZArith Bool List.
From Flocq Require Import Core IEEE754.BinarySingleNaN.
From Verif Require Import Base FloatModel UnitModel.
Import ListNotations.
Open Scope Z_scope.

Definition f_one : float := f_ofZ 1.
(** std::round on floats; the sign of a zero is not kept *)
Definition f_roundf (x : float) : float := match f_round x with Some n => f_ofZ n | None => x end.
(** std::clamp *)
Definition f_clamp (x lo hi : float) : float := if f_lt x lo then lo else if f_lt hi x then hi else x.

(** gpio.cpp:9-27. The result lists the values driven, in order, and whether the function has returned within [fuel] rounds of the loop.
    The waits between rounds are left out: there is one behind each value driven by the loop (line 25). *)
Fixpoint fade_loop (fuel : nat) (value step increment diff : float) : list float * bool :=
  if f_gt diff f_zero then
    match fuel with
    | O => ([], false)
    | S n =>
        let v := f_clamp (f_add value step) f_zero f_one in
        let (vs, fin) := fade_loop n v step increment (f_sub diff increment) in (v :: vs, fin)
    end
  else ([], true).
Definition fade_diff (value setpoint increment : float) : float :=
  let dec := f_div f_one increment in f_div (f_roundf (f_mul (f_abs (f_sub value setpoint)) dec)) dec.
Definition fade (fuel : nat) (value setpoint increment : float) : list float * bool :=
  let diff := fade_diff value setpoint increment in
  if f_lt diff increment then ([setpoint], true)
  else fade_loop fuel value (f_mul (f_ofZ (if f_gt value setpoint then -1 else 1)) increment) increment diff.

(** ** An analogue output. [shown] is what value() returns (gpio.hpp:55, 65), [out] lists the values driven, the latest first. *)
Record aout := mkAout { shown : float; out : list float }.
Definition new_aout : aout := mkAout f_zero [].
Definition in_unit (v : float) : bool := f_ge v f_zero && f_le v f_one.
(** The set_value of an implementation (arduino.hpp:103-108, mock.hpp:90-93), which a call on the output itself picks: it hides the one
    of AnalogueOutput *)
Definition imp_set (dbg : bool) (a : aout) (v : float) : outcome aout := sassert dbg (in_unit v) ;;; Ok (mkAout (shown a) (v :: out a)).
(** gpio.hpp:49-52, called through a reference to AnalogueOutput and by fade_to *)
Definition base_set (dbg : bool) (a : aout) (v : float) : outcome aout := imp_set dbg (mkAout v (out a)) v.
(** gpio.hpp:58-62 with gpio.cpp:11; Fuel if the fade does not end within [fuel] rounds *)
Fixpoint drive (dbg : bool) (a : aout) (vs : list float) : outcome aout :=
  match vs with [] => Ok a | v :: r => a' <- base_set dbg a v ;; drive dbg a' r end.
Definition fade_to (dbg : bool) (fuel : nat) (a : aout) (setpoint increment : float) : outcome aout :=
  sassert dbg (in_unit setpoint) ;;;
  let (vs, fin) := fade fuel (shown a) setpoint increment in
  a' <- drive dbg a vs ;; if fin then Ok (mkAout setpoint (out a')) else Fuel.

(** ** The duty cycle written by an Arduino output (arduino.hpp:103-108): the conversion to int truncates; None when the product is not
    finite. powf(2, resolution) is taken to be exact; the range of int is not modelled. *)
Definition f_trunc (x : float) : option Z :=
  match x with
  | B754_zero _ => Some 0
  | B754_finite s m e _ =>
      let a := if 0 <=? e then Z.pos m * 2 ^ e else Z.pos m / 2 ^ (- e) in
      Some (if s then - a else a)
  | _ => None
  end.
Definition duty (low : bool) (res : Z) (v : float) : option Z :=
  let v := if low then f_sub f_one v else v in f_trunc (f_mul v (f_mk 1 res)).
(** arduino.hpp:149-159: analogRead / 1024.0, computed in double and rounded to float; a reading of at most 24 bits is exact in both *)
Definition analogue_read (raw : Z) : float := f_div (f_ofZ raw) (f_ofZ 1024).

(** ** Histories of calls on one output *)
Inductive aop :=
| ASet (v : float)                          (* set_value on the output itself *)
| ABase (v : float)                         (* set_value through a reference to AnalogueOutput *)
| AFade (setpoint increment : float).
Definition astep (dbg : bool) (fuel : nat) (a : aout) (o : aop) : outcome aout :=
  match o with ASet v => imp_set dbg a v | ABase v => base_set dbg a v | AFade s i => fade_to dbg fuel a s i end.
Fixpoint arun (dbg : bool) (fuel : nat) (a : aout) (os : list aop) : outcome aout :=
  match os with [] => Ok a | o :: r => a' <- astep dbg fuel a o ;; arun dbg fuel a' r end.
