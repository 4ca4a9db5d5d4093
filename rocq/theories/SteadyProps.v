(** Property C142: the response of a controller is always a number. *)
From Coq Require Import ZArith Lia Reals Lra Bool List.
From Flocq Require Import Core IEEE754.BinarySingleNaN.
From Verif Require Import Base KTimeModel FloatModel FloatFacts PidModel PidSpec PidProofs GpioModel GpioSpec GpioProofs GainSpec SteadySpec SteadyProofs.
Import ListNotations.
Open Scope Z_scope.

(** While all readings and setpoints are numbers of moderate size the response is a number within the limits: no infinity and no NaN
    arises within. Missing for C142: other readings, see below. *)
Theorem C142_number_partial : forall dbg now0 cfg os p0 p, modest cfg -> pid_new dbg now0 cfg = Ok p0 -> In PInitialize os -> Forall modest_op os -> pid_run dbg os p0 = Ok p ->
  exists x, pid_response dbg p = Ok x /\ is_finite x = true /\ within (c_lower cfg, c_upper cfg) x.
Proof. intros dbg now0 cfg os p0 p M. exact (steady cfg M dbg now0 os p0 p). Qed.
Print Assumptions C142_number_partial.
(** So a controller with limits from 0 to 1 can drive an analogue output: the value is accepted, the duty cycle fits. *)
Theorem C142_drives_partial : forall dbg now0 cfg os p0 p, modest cfg -> unit_value (c_lower cfg) -> unit_value (c_upper cfg) ->
  pid_new dbg now0 cfg = Ok p0 -> In PInitialize os -> Forall modest_op os -> pid_run dbg os p0 = Ok p ->
  exists x, pid_response dbg p = Ok x /\ (forall dbg' a, exists a', base_set dbg' a x = Ok a') /\
    forall low res, 0 <= res <= 100 -> exists d, duty low res x = Some d /\ 0 <= d <= 2 ^ res.
Proof.
  intros dbg now0 cfg os p0 p M Ul Uu H0 Hi F H. destruct (steady cfg M dbg now0 os p0 p H0 Hi F H) as (x & R & Fx & [W1 W2]). cbn [fst snd] in *.
  assert (U : unit_value x).
  { destruct Ul as [Fl Vl], Uu as [Fu Vu]. change (f_le (c_lower cfg) x = true) in W1. change (f_le x (c_upper cfg) = true) in W2. rewrite le_val in W1, W2 by assumption.
    revert W1 W2. case Rle_bool_spec; [|discriminate]. intros A _. case Rle_bool_spec; [|discriminate]. intros B _. split; [exact Fx|lra]. }
  exists x. split; [exact R|]. split; [|intros low res Hr; apply duty_range; assumption]. intros dbg' a. unfold base_set, imp_set. rewrite (proj2 (in_unit_iff x) U). destruct dbg'; eexists; reflexivity.
Qed.
Print Assumptions C142_drives_partial.

Definition steady_cfg : pid_config := mkPidConfig (mkTunings (f_ofZ 2) (f_ofZ 1) (f_ofZ 0)) (f_ofZ 0) (f_ofZ 1) 1000 OnError Forward.
Definition steady_os : list pid_op := [PInitialize; PSetpoint (f_ofZ 50); PReading (f_ofZ 49) 1000; PReading (f_ofZ 1000) 2000].
Lemma modest_Z z : Z.abs z <= 1000 -> forall e, 10 <= e -> up_to e (f_ofZ z).
Proof. intros H e He. apply (up_le 10); [exact He|]. apply up_Z; lia. Qed.
Lemma steady_modest : modest steady_cfg.
Proof.
  constructor.
  - split; [apply modest_Z; lia|]. split; [apply modest_Z; lia|vm_compute; reflexivity].
  - split; [|split]; apply modest_Z; lia.
  - cbn. lia.
Qed.
Example C142_case : modest steady_cfg /\ unit_value (c_lower steady_cfg) /\ unit_value (c_upper steady_cfg) /\ Forall modest_op steady_os /\
  exists p, (p0 <- pid_new true 0 steady_cfg ;; pid_run true steady_os p0) = Ok p /\ match pid_response true p with Ok x => f_eq x (f_ofZ 0) | _ => false end = true.
Proof.
  split; [exact steady_modest|]. split; [apply in_unit_iff; vm_compute; reflexivity|]. split; [apply in_unit_iff; vm_compute; reflexivity|].
  split; [repeat (apply Forall_cons; [first [exact Logic.I|apply modest_Z; lia]|]); constructor|]. apply ok_test. vm_compute. reflexivity.
Qed.

(** A reading that is not a number, once taken, is never overcome: whatever is read or called afterwards, the response is no number,
    and in a build with assertions asking for it stops the program. *)
Theorem C142_lost : forall dbg x now p os p', is_nan x = true -> taken x now p -> pid_run dbg os (pid_new_reading x now p) = Ok p' ->
  pid_response true p' = Halt /\ exists y, pid_response false p' = Ok y /\ is_nan y = true.
Proof. intros dbg x now p os p' N T E. apply lost_response, (lost_run dbg os _ _ (lost_update x now p T (or_intror (nan_mul _ _ (or_intror (nan_sub _ _ (or_intror N)))))) E). Qed.
Print Assumptions C142_lost.
Example C142_lost_case : exists p, (p0 <- pid_new true 0 steady_cfg ;; pid_run true steady_os p0) = Ok p /\ taken f_nan 3000 p.
Proof.
  destruct (ok_test (p0 <- pid_new true 0 steady_cfg ;; pid_run true steady_os p0) (fun p => fst (fst (update 3000 (mkCells f_nan (output (p_vars p)) (setpoint (p_vars p))) (p_backend p))))) as (p & E & T); [vm_compute; reflexivity|].
  exists p. split; [exact E|exact T].
Qed.
(** Nor is one infinite reading by a controller without an integral gain. *)
Theorem C142_lost_infinite : forall dbg x now p os p', x = B754_infinity true \/ x = B754_infinity false -> is_finite (setpoint (p_vars p)) = true ->
  is_finite (ki (p_backend p)) = true -> B2R (ki (p_backend p)) = 0%R -> taken x now p -> pid_run dbg os (pid_new_reading x now p) = Ok p' ->
  pid_response true p' = Halt /\ exists y, pid_response false p' = Ok y /\ is_nan y = true.
Proof. intros dbg x now p os p' I Fs Fk Ek T E. apply lost_response, (lost_run dbg os _ _ (lost_update x now p T (or_intror (zero_inf _ _ _ Fs Ek Fk I))) E). Qed.
Print Assumptions C142_lost_infinite.
Definition p_cfg_only : pid_config := mkPidConfig (mkTunings (f_ofZ 2) (f_ofZ 0) (f_ofZ 0)) (f_ofZ 0) (f_ofZ 1) 1000 OnError Forward.
Example C142_lost_infinite_case : exists p, (p0 <- pid_new true 0 p_cfg_only ;; pid_run true steady_os p0) = Ok p /\ taken (B754_infinity false) 3000 p /\
  is_finite (setpoint (p_vars p)) = true /\ is_finite (ki (p_backend p)) = true /\ f_eq (ki (p_backend p)) f_zero = true.
Proof.
  destruct (ok_test (p0 <- pid_new true 0 p_cfg_only ;; pid_run true steady_os p0) (fun p => fst (fst (update 3000 (mkCells (B754_infinity false) (output (p_vars p)) (setpoint (p_vars p))) (p_backend p))) && (is_finite (setpoint (p_vars p)) && (is_finite (ki (p_backend p)) && f_eq (ki (p_backend p)) f_zero)))) as (p & E & T); [vm_compute; reflexivity|].
  apply andb_prop in T. destruct T as [T T2]. apply andb_prop in T2. destruct T2 as [T2 T3]. apply andb_prop in T3. destruct T3 as [T3 T4]. exists p. auto.
Qed.
(** C142 is false: after one such reading every response is no number, however many good readings follow *)
Theorem C142_recovers_refuted : exists cfg p0 p, modest cfg /\ pid_new true 0 cfg = Ok p0 /\ pid_run true [PInitialize; PReading f_nan 1000] p0 = Ok p /\
  forall os p', Forall modest_op os -> pid_run true os p = Ok p' -> pid_response true p' = Halt.
Proof.
  exists steady_cfg. destruct (ok_test (pid_new true 0 steady_cfg) (fun _ => true)) as (p0 & E0 & _); [vm_compute; reflexivity|]. exists p0, (pid_new_reading f_nan 1000 (pid_initialize p0)).
  split; [exact steady_modest|]. split; [exact E0|]. split; [reflexivity|]. intros os p' _ E. apply (C142_lost true f_nan 1000 (pid_initialize p0) os p' eq_refl); [|exact E].
  unfold taken. assert (T : match pid_new true 0 steady_cfg with Ok p0 => fst (fst (update 1000 (mkCells f_nan (output (p_vars (pid_initialize p0))) (setpoint (p_vars (pid_initialize p0)))) (p_backend (pid_initialize p0)))) | _ => false end = true) by (vm_compute; reflexivity).
  rewrite E0 in T. exact T.
Qed.
