(** Property C140: the gains found by autotuning as tunings. *)
From Coq Require Import ZArith Reals List.
From Flocq Require Import Core IEEE754.BinarySingleNaN.
From Verif Require Import Base FloatModel TunerModel.
Import ListNotations.
Open Scope Z_scope.

(** Times of measurements, each later than the one before *)
Fixpoint later (t : Z) (l : list Z) : Prop := match l with [] => True | t' :: l' => t < t' /\ later t' l' end.
Definition up_to (e : Z) (x : float) : Prop := is_finite x = true /\ (Rabs (B2R x) <= bpow radix2 e)%R.
(** Waits between measurements that are more than the 2^24th part of the uptime (any wait in the first 2^24 ms, 1 s for 194 days) *)
Fixpoint apart (t : Z) (l : list Z) : Prop := match l with [] => True | t' :: l' => t < (t' - t) * 2 ^ 24 /\ apart t' l' end.
Definition well_apart (l : list Z) : Prop := match l with [] => True | t :: l' => apart t l' end.
(** Measurements of a run: numbers, each later than the one before, the first not before [t0] *)
Definition measured (t0 : Z) (ms : list (float * Z)) : Prop :=
  Forall (fun m => is_finite (fst m) = true) ms /\ match ms with [] => True | m :: ms' => t0 <= snd m /\ later (snd m) (map snd ms') end.
(** A configuration for a process: limits in order, at least one measured cycle after the first *)
Record sensible (c : tuner_config) : Prop := {
  sensible_limits : up_to 120 (t_min c) /\ up_to 120 (t_max c) /\ f_lt (t_min c) (t_max c) = true;
  sensible_target : up_to 120 (t_target c) /\ up_to 120 (t_hyst c) /\ f_le (f_ofZ 0) (t_hyst c) = true;
  sensible_interval : 1 <= t_interval c <= 2 ^ 24;
  sensible_cycles : 2 <= t_cycles c <= 2 ^ 24 }.
