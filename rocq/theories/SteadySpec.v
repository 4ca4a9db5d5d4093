(** Property C142: a controller whose response is always a number. *)
From Coq Require Import ZArith List Bool.
From Flocq Require Import IEEE754.BinarySingleNaN.
From Verif Require Import Base FloatModel PidModel GainSpec.
Import ListNotations.
Open Scope Z_scope.

(** Sizes: limits, readings and setpoints up to 2^40, tunings up to 2^20, a sampling time of 100 ms to 4 hours *)
Definition modest_tunings (t : tunings) : Prop := up_to 20 (tKp t) /\ up_to 20 (tKi t) /\ up_to 20 (tKd t).
Record modest (cfg : pid_config) : Prop := {
  modest_limits : up_to 40 (c_lower cfg) /\ up_to 40 (c_upper cfg) /\ Bltb (c_lower cfg) (c_upper cfg) = true;
  modest_gains : modest_tunings (c_tunings cfg);
  modest_interval : 100 <= c_interval cfg <= 2 ^ 24 }.
Definition modest_op (o : pid_op) : Prop :=
  match o with PInitialize => True | PSetpoint x => up_to 40 x | PTunings t _ => modest_tunings t | PReading x _ => up_to 40 x end.
(** The reading [x] at the time [now] is taken, not passed over as too early *)
Definition taken (x : float) (now : Z) (p : pid) : Prop := fst (fst (update now (mkCells x (output (p_vars p)) (setpoint (p_vars p))) (p_backend p))) = true.
