(** What is claimed of the PID controller, over its calls. *)
From Coq Require Import ZArith Bool List.
From Flocq Require Import IEEE754.BinarySingleNaN.
From Verif Require Import FloatModel PidModel.
Import ListNotations.
Open Scope Z_scope.

(** The limits in force after some calls: the last pair in increasing order, 0 and 255 before *)
Definition in_force (os : list call) : float * float :=
  fold_left (fun l o => match o with Limits a b => if Bltb a b then (a, b) else l | _ => l end) os (f_ofZ 0, f_ofZ 255).
(** No limit is NaN *)
Definition numeric_limits (os : list call) : Prop := forall a b, In (Limits a b) os -> is_nan a = false /\ is_nan b = false.
Definition within (l : float * float) (x : float) : Prop := Bleb (fst l) x = true /\ Bleb x (snd l) = true.
(** The sampling time in force: the last positive one *)
Definition sampling_in_force (os : list call) : Z :=
  fold_left (fun s o => match o with SamplingTime t => if 0 <? t then t else s | _ => s end) os 100.
