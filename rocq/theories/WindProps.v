(** Property C137: a lasting deviation, and what the output does at its limits. *)
From Coq Require Import ZArith Lia Bool List Reals Lra.
From Flocq Require Import Core IEEE754.BinarySingleNaN.
From Verif Require Import Base KTimeModel FloatModel FloatFacts PidModel PidSpec PidProofs LawSpec LawProofs LawProps WindSpec WindProofs.
Import ListNotations.
Open Scope Z_scope.

(** On whole numbers, one sample a second: every output is that of the law whose sum is kept within the limits, also where it is cut. *)
Theorem C137_limited :
  forall dbg now0 d Kp Ki Kd p lo hi u x0 M vc ss, whole dbg now0 d Kp Ki Kd p lo hi u x0 M vc ss ->
  map (fun r => num (snd r)) (outputs (map floats ss) vc) = map IZR (lawsZ p (sgn d * Kp) (sgn d * Ki) (sgn d * Kd) lo hi (limitZ lo hi u, x0) (map snd ss)).
Proof. exact @whole_outputs. Qed.
Print Assumptions C137_limited.

(** A deviation that lasts (the reading stays at [x0], the setpoint at [s]) moves the output by Ki times the deviation at each sample,
    up to the limit: with Ki > 0 it gets there, in no more than (hi - lo) / (Ki * deviation) samples. *)
Theorem C137_reaches_partial :
  forall dbg now0 d Kp Ki Kd p lo hi u x0 M vc s ts, whole dbg now0 d Kp Ki Kd p lo hi u x0 M vc (map (fun t => (t, (s, x0))) ts) ->
  let e := sgn d * (s - x0) in
  (0 <= e -> forall k, (k < length ts)%nat -> exists o, nth_error (outputs (map floats (map (fun t => (t, (s, x0))) ts)) vc) k = Some (true, o) /\
     num o = IZR (Z.min hi ((match p with OnError => Kp * e | OnMeasurement => 0 end) + Z.min hi (limitZ lo hi u + (Z.of_nat k + 1) * (Ki * e))))) /\
  (0 < e -> 0 < Ki -> forall k, (k < length ts)%nat -> hi - lo <= (Z.of_nat k + 1) * (Ki * e) ->
     exists o, nth_error (outputs (map floats (map (fun t => (t, (s, x0))) ts)) vc) k = Some (true, o) /\ num o = IZR hi).
Proof.
  intros dbg now0 d Kp Ki Kd p lo hi u x0 M vc s ts W e. pose proof (whole_gains _ _ _ _ _ _ _ _ _ _ _ _ _ _ W) as (P0 & I0 & D0). pose proof (whole_limits _ _ _ _ _ _ _ _ _ _ _ _ _ _ W) as (Hl & _).
  assert (A : 0 <= e -> forall k, (k < length ts)%nat -> exists o, nth_error (outputs (map floats (map (fun t => (t, (s, x0))) ts)) vc) k = Some (true, o) /\
     num o = IZR (Z.min hi ((match p with OnError => Kp * e | OnMeasurement => 0 end) + Z.min hi (limitZ lo hi u + (Z.of_nat k + 1) * (Ki * e))))).
  { intros He k Hk. destruct (whole_nth _ _ _ _ _ _ _ _ _ _ _ _ _ _ k W) as (o & y & E1 & E2 & E3); [rewrite map_length; exact Hk|]. exists o. split; [exact E1|]. rewrite E3. f_equal.
    rewrite map_map in E2. cbn [snd] in E2. replace (map (fun _ : Z => (s, x0)) ts) with (repeat (s, x0) (length ts)) in E2 by (clear; induction ts; cbn [length repeat map]; congruence).
    assert (EP : sgn d * Kp * (s - x0) = Kp * e) by (unfold e; ring). assert (EI : sgn d * Ki * (s - x0) = Ki * e) by (unfold e; ring).
    apply laws_lasting in E2; [|lia|rewrite EP; apply Z.mul_nonneg_nonneg; assumption|rewrite EI; apply Z.mul_nonneg_nonneg; assumption|unfold limitZ; lia]. rewrite EP, EI in E2. exact E2. }
  split; [exact A|]. intros He HK k Hk Hh. destruct (A ltac:(lia) k Hk) as (o & E1 & E2). exists o. split; [exact E1|]. rewrite E2. f_equal.
  assert (0 <= Kp * e) by (apply Z.mul_nonneg_nonneg; lia). assert (lo <= limitZ lo hi u) by (unfold limitZ; lia). destruct p; lia.
Qed.
Print Assumptions C137_reaches_partial.
(** 0, then deviation 3 at Ki = 2: 6, 12, ..., until the limit 20 *)
Definition wind_setup (d : direction) : list call := setup 1000 (f_ofZ 1) (f_ofZ 2) (f_ofZ 4) OnMeasurement (f_ofZ 0) (f_ofZ 20) (f_ofZ 0) (f_ofZ 5).
Definition lasting : list (Z * (Z * Z)) := map (fun t => (t, (8, 5))) [1000; 2000; 3000; 4000; 5000].
(** then the reading passes the setpoint: the output comes back at once *)
Definition passing : list (Z * (Z * Z)) := lasting ++ [(6000, (8, 9)); (7000, (8, 10))].
Lemma wind_whole vc : ready true 0 Forward (wind_setup Forward) vc -> forallb fst (outputs (map floats passing) vc) = true -> whole true 0 Forward 1 2 4 OnMeasurement 0 20 0 5 100 vc passing.
Proof.
  intros R1 Tk. constructor; try lia; [split; [lia|]; repeat constructor; cbn; lia|exact R1|]. apply Forall_forall. intros r Hr. rewrite forallb_forall in Tk. exact (Tk r Hr).
Qed.
Example C137_case : exists vc, whole true 0 Forward 1 2 4 OnMeasurement 0 20 0 5 100 vc passing /\
  shown (outputs (map floats passing) vc) [(true, 6); (true, 12); (true, 18); (true, 20); (true, 20); (true, 0); (true, 5)] = true.
Proof.
  destruct (readied_ready (f_ofZ 9) 0 Forward (wind_setup Forward) (fun vc => forallb fst (outputs (map floats passing) vc) &&
    shown (outputs (map floats passing) vc) [(true, 6); (true, 12); (true, 18); (true, 20); (true, 20); (true, 0); (true, 5)])) as (vc & R1 & H); [vm_compute; reflexivity|].
  apply andb_prop in H. destruct H as [H1 H2]. exists vc. split; [apply wind_whole; assumption|exact H2].
Qed.

(** No windup: whatever happened before, and for however long, the first reading past the setpoint takes the output off its limit, by at
    least Ki times the deviation (if the reading did not turn back). *)
Theorem C137_returns :
  forall dbg now0 d Kp Ki Kd p lo hi u x0 M vc ss now s x, whole dbg now0 d Kp Ki Kd p lo hi u x0 M vc (ss ++ [(now, (s, x))]) ->
  sgn d * (s - x) <= 0 -> 0 <= sgn d * (x - reading x0 (map snd ss)) ->
  exists o, nth_error (outputs (map floats (ss ++ [(now, (s, x))])) vc) (length ss) = Some (true, o) /\ (num o <= IZR (Z.max lo (hi - Ki * Z.abs (s - x))))%R.
Proof.
  intros dbg now0 d Kp Ki Kd p lo hi u x0 M vc ss now s x W He Hx. pose proof (whole_gains _ _ _ _ _ _ _ _ _ _ _ _ _ _ W) as (P0 & I0 & D0). pose proof (whole_limits _ _ _ _ _ _ _ _ _ _ _ _ _ _ W) as (Hl & _).
  destruct (whole_nth _ _ _ _ _ _ _ _ _ _ _ _ _ _ (length ss) W) as (o & y & E1 & E2 & E3); [rewrite app_length; cbn [length]; lia|]. exists o. split; [exact E1|]. rewrite E3. apply IZR_le.
  rewrite map_app in E2. cbn [map snd] in E2. replace (length ss) with (length (map snd ss)) in E2 by apply map_length.
  unfold reading in Hx. assert (EI : sgn d * Ki * (s - x) = - (Ki * Z.abs (s - x))). { destruct d; cbn [sgn] in *; [rewrite (Z.abs_neq (s - x)) by lia|rewrite (Z.abs_eq (s - x)) by lia]; ring. }
  apply laws_back in E2; [rewrite EI in E2; lia|lia|cbn [fst]; unfold limitZ; lia| | |]; cbn [snd].
  - replace (sgn d * Kp * (s - x)) with (- (Kp * - (sgn d * (s - x)))) by ring. assert (0 <= Kp * - (sgn d * (s - x))) by (apply Z.mul_nonneg_nonneg; lia). lia.
  - replace (sgn d * Kp * (x - last (map snd (map snd ss)) x0)) with (Kp * (sgn d * (x - last (map snd (map snd ss)) x0))) by ring. apply Z.mul_nonneg_nonneg; assumption.
  - replace (sgn d * Kd * (x - last (map snd (map snd ss)) x0)) with (Kd * (sgn d * (x - last (map snd (map snd ss)) x0))) by ring. apply Z.mul_nonneg_nonneg; assumption.
Qed.
Print Assumptions C137_returns.
Example C137_returns_case : exists vc, whole true 0 Forward 1 2 4 OnMeasurement 0 20 0 5 100 vc (lasting ++ [(6000, (8, 9))]) /\ sgn Forward * (8 - 9) <= 0 /\ 0 <= sgn Forward * (9 - reading 5 (map snd lasting)).
Proof.
  destruct (readied_ready (f_ofZ 9) 0 Forward (wind_setup Forward) (fun vc => forallb fst (outputs (map floats (lasting ++ [(6000, (8, 9))])) vc))) as (vc & R1 & H); [vm_compute; reflexivity|].
  exists vc. split; [|vm_compute; split; discriminate]. constructor; try lia; [split; [lia|]; repeat constructor; cbn; lia|exact R1|]. apply Forall_forall. intros r Hr. rewrite forallb_forall in H. exact (H r Hr).
Qed.

(** The same downwards: a deviation of the other sign takes the output to its lower limit, *)
Theorem C137_sinks_partial :
  forall dbg now0 d Kp Ki Kd p lo hi u x0 M vc s ts, whole dbg now0 d Kp Ki Kd p lo hi u x0 M vc (map (fun t => (t, (s, x0))) ts) ->
  let e := sgn d * (s - x0) in
  (e <= 0 -> forall k, (k < length ts)%nat -> exists o, nth_error (outputs (map floats (map (fun t => (t, (s, x0))) ts)) vc) k = Some (true, o) /\
     num o = IZR (Z.max lo ((match p with OnError => Kp * e | OnMeasurement => 0 end) + Z.max lo (limitZ lo hi u + (Z.of_nat k + 1) * (Ki * e))))) /\
  (e < 0 -> 0 < Ki -> forall k, (k < length ts)%nat -> hi - lo <= (Z.of_nat k + 1) * (Ki * - e) ->
     exists o, nth_error (outputs (map floats (map (fun t => (t, (s, x0))) ts)) vc) k = Some (true, o) /\ num o = IZR lo).
Proof.
  intros dbg now0 d Kp Ki Kd p lo hi u x0 M vc s ts W e. pose proof (whole_gains _ _ _ _ _ _ _ _ _ _ _ _ _ _ W) as (P0 & I0 & D0). pose proof (whole_limits _ _ _ _ _ _ _ _ _ _ _ _ _ _ W) as (Hl & _).
  assert (A : e <= 0 -> forall k, (k < length ts)%nat -> exists o, nth_error (outputs (map floats (map (fun t => (t, (s, x0))) ts)) vc) k = Some (true, o) /\
     num o = IZR (Z.max lo ((match p with OnError => Kp * e | OnMeasurement => 0 end) + Z.max lo (limitZ lo hi u + (Z.of_nat k + 1) * (Ki * e))))).
  { intros He k Hk. destruct (whole_nth _ _ _ _ _ _ _ _ _ _ _ _ _ _ k W) as (o & y & E1 & E2 & E3); [rewrite map_length; exact Hk|]. exists o. split; [exact E1|]. rewrite E3. f_equal.
    rewrite map_map in E2. cbn [snd] in E2. replace (map (fun _ : Z => (s, x0)) ts) with (repeat (s, x0) (length ts)) in E2 by (clear; induction ts; cbn [length repeat map]; congruence).
    assert (EP : sgn d * Kp * (s - x0) = Kp * e) by (unfold e; ring). assert (EI : sgn d * Ki * (s - x0) = Ki * e) by (unfold e; ring).
    apply laws_lasting_low in E2; [|lia|rewrite EP; apply Z.mul_nonneg_nonpos; assumption|rewrite EI; apply Z.mul_nonneg_nonpos; assumption|unfold limitZ; lia]. rewrite EP, EI in E2. exact E2. }
  split; [exact A|]. intros He HK k Hk Hh. destruct (A ltac:(lia) k Hk) as (o & E1 & E2). exists o. split; [exact E1|]. rewrite E2. f_equal.
  assert (Kp * e <= 0) by (apply Z.mul_nonneg_nonpos; lia). assert (limitZ lo hi u <= hi) by (unfold limitZ; lia). rewrite Z.mul_opp_r, Z.mul_opp_r in Hh. destruct p; lia.
Qed.
Print Assumptions C137_sinks_partial.
(** and the first reading on the other side of the setpoint takes it off. *)
Theorem C137_rises :
  forall dbg now0 d Kp Ki Kd p lo hi u x0 M vc ss now s x, whole dbg now0 d Kp Ki Kd p lo hi u x0 M vc (ss ++ [(now, (s, x))]) ->
  0 <= sgn d * (s - x) -> sgn d * (x - reading x0 (map snd ss)) <= 0 ->
  exists o, nth_error (outputs (map floats (ss ++ [(now, (s, x))])) vc) (length ss) = Some (true, o) /\ (IZR (Z.min hi (lo + Ki * Z.abs (s - x))) <= num o)%R.
Proof.
  intros dbg now0 d Kp Ki Kd p lo hi u x0 M vc ss now s x W He Hx. pose proof (whole_gains _ _ _ _ _ _ _ _ _ _ _ _ _ _ W) as (P0 & I0 & D0). pose proof (whole_limits _ _ _ _ _ _ _ _ _ _ _ _ _ _ W) as (Hl & _).
  destruct (whole_nth _ _ _ _ _ _ _ _ _ _ _ _ _ _ (length ss) W) as (o & y & E1 & E2 & E3); [rewrite app_length; cbn [length]; lia|]. exists o. split; [exact E1|]. rewrite E3. apply IZR_le.
  rewrite map_app in E2. cbn [map snd] in E2. replace (length ss) with (length (map snd ss)) in E2 by apply map_length.
  unfold reading in Hx. assert (EI : sgn d * Ki * (s - x) = Ki * Z.abs (s - x)). { destruct d; cbn [sgn] in *; [rewrite (Z.abs_eq (s - x)) by lia|rewrite (Z.abs_neq (s - x)) by lia]; ring. }
  apply laws_back_low in E2; [rewrite EI in E2; lia|lia|cbn [fst]; unfold limitZ; lia| | |]; cbn [snd].
  - replace (sgn d * Kp * (s - x)) with (Kp * (sgn d * (s - x))) by ring. apply Z.mul_nonneg_nonneg; assumption.
  - replace (sgn d * Kp * (x - last (map snd (map snd ss)) x0)) with (Kp * (sgn d * (x - last (map snd (map snd ss)) x0))) by ring. apply Z.mul_nonneg_nonpos; assumption.
  - replace (sgn d * Kd * (x - last (map snd (map snd ss)) x0)) with (Kd * (sgn d * (x - last (map snd (map snd ss)) x0))) by ring. apply Z.mul_nonneg_nonpos; assumption.
Qed.
Print Assumptions C137_rises.
Definition sinking : list (Z * (Z * Z)) := map (fun t => (t, (2, 5))) [1000; 2000; 3000].
Example C137_rises_case : exists vc, whole true 0 Forward 1 2 4 OnMeasurement 0 20 12 5 100 vc (sinking ++ [(4000, (2, 1))]) /\ 0 <= sgn Forward * (2 - 1) /\ sgn Forward * (1 - reading 5 (map snd sinking)) <= 0 /\
  shown (outputs (map floats (sinking ++ [(4000, (2, 1))])) vc) [(true, 6); (true, 0); (true, 0); (true, 20)] = true.
Proof.
  destruct (readied_ready (f_ofZ 9) 0 Forward (setup 1000 (f_ofZ 1) (f_ofZ 2) (f_ofZ 4) OnMeasurement (f_ofZ 0) (f_ofZ 20) (f_ofZ 12) (f_ofZ 5)) (fun vc => forallb fst (outputs (map floats (sinking ++ [(4000, (2, 1))])) vc) &&
    shown (outputs (map floats (sinking ++ [(4000, (2, 1))])) vc) [(true, 6); (true, 0); (true, 0); (true, 20)])) as (vc & R1 & H); [vm_compute; reflexivity|].
  apply andb_prop in H. destruct H as [H H2]. exists vc. split; [|split; [vm_compute; discriminate|split; [vm_compute; discriminate|exact H2]]].
  constructor; try lia; [split; [lia|]; repeat constructor; cbn; lia|exact R1|]. apply Forall_forall. intros r Hr. rewrite forallb_forall in H. exact (H r Hr).
Qed.

(** Any gains, readings and limits in single precision: while the reading stays and the setpoint is not below it, the output of a forward
    controller never goes down. *)
Theorem C137_pushes :
  forall dbg now0 T Kp Ki Kd p lo hi u x s vc ts,
  1 <= T <= 2 ^ 24 -> gain Kp -> gain Ki -> gain Kd -> moderate lo -> moderate hi -> moderate u -> moderate x -> moderate s -> f_lt lo hi = true -> f_le lo u = true -> f_le u hi = true -> f_le x s = true ->
  ready dbg now0 Forward (setup T Kp Ki Kd p lo hi u x) vc ->
  rising (num u) (map (fun r => num (snd r)) (outputs (map (fun t => (t, s, x)) ts) vc)).
Proof. exact @push_right. Qed.
Print Assumptions C137_pushes.
Example C137_pushes_case : gain (f_ofZ 1) /\ gain (f_ofZ 2) /\ gain (f_ofZ 4) /\ moderate (f_ofZ 0) /\ moderate (f_ofZ 20) /\ moderate (f_ofZ 5) /\ moderate (f_ofZ 8) /\
  f_lt (f_ofZ 0) (f_ofZ 20) && f_le (f_ofZ 0) (f_ofZ 0) && f_le (f_ofZ 5) (f_ofZ 8) = true /\
  exists vc, ready true 0 Forward (wind_setup Forward) vc /\ shown (outputs (map (fun t => (t, f_ofZ 8, f_ofZ 5)) [1000; 1500; 2000; 3000]) vc) [(true, 6); (false, 6); (true, 12); (true, 18)] = true.
Proof. do 3 (split; [apply gain_Z; lia|]). do 4 (split; [apply mod_Z; lia|]). split; [vm_compute; reflexivity|]. apply (readied_ready (f_ofZ 9)). vm_compute. reflexivity. Qed.

(** Likewise no windup: after any samples [ss] the outputs at the samples [rr] are no higher than those of a controller that took over
    just then, with its output at the limit. *)
Theorem C137_unwound :
  forall dbg dbg' now0 now1 T Kp Ki Kd p lo hi u x vc vc' ss rr,
  1 <= T <= 2 ^ 24 -> gain Kp -> gain Ki -> gain Kd -> moderate lo -> moderate hi -> moderate u -> moderate x -> f_lt lo hi = true ->
  ready dbg now0 Forward (setup T Kp Ki Kd p lo hi u x) vc -> ready dbg' now1 Forward (setup T Kp Ki Kd p lo hi hi (last (map snd ss) x)) vc' ->
  Forall moderate_sample (ss ++ rr) -> Forall (fun r => fst r = true) (outputs (ss ++ rr) vc) -> Forall (fun r => fst r = true) (outputs rr vc') ->
  Forall2 (fun a b => num (snd a) <= num (snd b))%R (skipn (length ss) (outputs (ss ++ rr) vc)) (outputs rr vc').
Proof. exact @unwound_right. Qed.
Print Assumptions C137_unwound.
Definition after_wind : list (Z * (Z * Z)) := [(6000, (8, 9)); (7000, (8, 10))].
Example C137_unwound_case :
  (exists vc, ready true 0 Forward (wind_setup Forward) vc /\ shown (outputs (map floats (lasting ++ after_wind)) vc) [(true, 6); (true, 12); (true, 18); (true, 20); (true, 20); (true, 0); (true, 5)] = true) /\
  (exists vc', ready true 5000 Forward (setup 1000 (f_ofZ 1) (f_ofZ 2) (f_ofZ 4) OnMeasurement (f_ofZ 0) (f_ofZ 20) (f_ofZ 20) (last (map snd (map floats lasting)) (f_ofZ 5))) vc' /\
     shown (outputs (map floats after_wind) vc') [(true, 0); (true, 5)] = true) /\ Forall moderate_sample (map floats (lasting ++ after_wind)).
Proof. split; [apply (readied_ready (f_ofZ 9)); vm_compute; reflexivity|]. split; [apply (readied_ready (f_ofZ 9)); vm_compute; reflexivity|]. apply demo_moderate. reflexivity. Qed.

(** In single precision a deviation may last for ever with the output neither at its limit nor moving: the share of one sample is lost in
    the rounding of the sum. *)
Theorem C137_reaches_refuted : exists Ki u x s lo hi vc,
  gain Ki /\ (0 < num Ki)%R /\ (num x < num s)%R /\ (num lo < num u)%R /\ (num u < num hi)%R /\ ready true 0 Forward (setup 1000 f_zero Ki f_zero OnError lo hi u x) vc /\
  forall ts, Forall (fun r => num (snd r) = num u) (outputs (map (fun t => (t, s, x)) ts) vc).
Proof.
  set (Ki := f_div (f_ofZ 1) (f_ofZ (2 ^ 24))).
  destruct (readied_ready (f_ofZ 9) 0 Forward (setup 1000 f_zero Ki f_zero OnError (f_ofZ 0) (f_ofZ 10) (f_ofZ 2) (f_ofZ 0)) (fun _ => true)) as (vc & R1 & _); [vm_compute; reflexivity|].
  exists Ki, (f_ofZ 2), (f_ofZ 0), (f_ofZ 1), (f_ofZ 0), (f_ofZ 10), vc.
  destruct (ofZ_exact 0) as [V0 F0]; [lia|]. destruct (ofZ_exact 1) as [V1 F1]; [lia|]. destruct (ofZ_exact 2) as [V2 F2]; [lia|]. destruct (ofZ_exact 10) as [V10 F10]; [lia|]. destruct (ofZ_exact (2 ^ 24)) as [Vb Fb]; [lia|].
  assert (Eb : (val (f_ofZ 1) / val (f_ofZ (2 ^ 24)) = bpow radix2 (-24))%R). { rewrite V1, Vb. change (bpow radix2 (-24)) with (/ IZR (2 ^ 24))%R. unfold Rdiv. apply Rmult_1_l. }
  assert (VK : num Ki = bpow radix2 (-24)).
  { destruct (div_val (f_ofZ 1) (f_ofZ (2 ^ 24)) F1 Fb) as [V _]; [rewrite Vb; apply IZR_neq; discriminate|rewrite Eb; apply rnd_small with (-24); [lia|rewrite Rabs_pos_eq by apply bpow_ge_0; apply Rle_refl]|].
    rewrite Eb, rnd_id in V by (apply fmt_bpow; lia). exact V. }
  assert (FK : is_finite Ki = true) by (vm_compute; reflexivity).
  split. { split; [split; [exact FK|]|]; rewrite VK; [rewrite Rabs_pos_eq by apply bpow_ge_0; apply bpow_le; lia|apply bpow_ge_0]. }
  split; [rewrite VK; apply bpow_gt_0|]. unfold num in *. fold (val (f_ofZ 0)) (val (f_ofZ 1)) (val (f_ofZ 2)) (val (f_ofZ 10)). rewrite V0, V1, V2, V10.
  split; [lra|]. split; [lra|]. split; [lra|]. split; [exact R1|].
  destruct (setup_state _ _ _ _ _ _ _ _ _ _ _ _ _ R1) as [s0 ->]; [lia|vm_compute; reflexivity|].
  assert (clamp (f_ofZ 0) (f_ofZ 10) (f_ofZ 2) = f_ofZ 2) as -> by (apply B2SF_inj; vm_compute; reflexivity).
  intros ts. rewrite <- V2. apply (stall_run (per_sample Forward 1000 f_zero Ki f_zero)); apply B2SF_inj; vm_compute; reflexivity.
Qed.
Print Assumptions C137_reaches_refuted.
