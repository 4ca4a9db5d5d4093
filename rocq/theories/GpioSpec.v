(** What users of analogue outputs rely on. *)
From Coq Require Import ZArith Reals List.
From Verif Require Import FloatModel FloatFacts GpioModel.
Import ListNotations.
Open Scope R_scope.

(** A value between 0 and 1 *)
Definition unit_value (x : float) : Prop := finite x = true /\ 0 <= val x <= 1.
(** [x] is [k] steps of 2^-e *)
Definition is_step (e : Z) (x : float) (k : Z) : Prop := finite x = true /\ val x = IZR k * / IZR (2 ^ e).
(** Every value differs from the one before by at most [d] *)
Fixpoint smooth (d : R) (from : R) (vs : list float) : Prop :=
  match vs with [] => True | v :: r => Rabs (val v - from) <= d /\ smooth d (val v) r end.
(** The multiples from a towards b, without a *)
Definition path (a b : Z) : list Z :=
  List.map (fun j => (a + (if (b <? a)%Z then - Z.of_nat (S j) else Z.of_nat (S j)))%Z) (seq 0 (Z.to_nat (Z.abs (b - a)))).

(** A call through a reference to AnalogueOutput whose values are multiples of 2^-e and whose increment is 2^-e, asking for [k] steps *)
Inductive grid_op (e : Z) : aop -> Z -> Prop :=
| grid_set v k : is_step e v k -> (0 <= k <= 2 ^ e)%Z -> grid_op e (ABase v) k
| grid_fade s i k : is_step e s k -> (0 <= k <= 2 ^ e)%Z -> is_step e i 1 -> grid_op e (AFade s i) k.
