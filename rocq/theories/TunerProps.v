(** Properties C41, C42 and C67: relay autotuning. *)
From Coq Require Import ZArith Lia Bool List.
From Flocq Require Import IEEE754.BinarySingleNaN.
From Verif Require Import Base KTimeModel FloatModel PidModel PidProofs TunerModel TunerSpec TunerProofs.
Import ListNotations.
Open Scope Z_scope.

(** A run: target 50 with hysteresis 1, outputs 0 and 100, 1 s between the calls, three cycles *)
Definition ex_c : tuner_config := configure (f_ofZ 50) (f_ofZ (-1)) 1000 (f_ofZ 0) (f_ofZ 100) BasicPID 3.
Definition ex_ms : list (float * Z) :=
  [(f_ofZ 40, 1000); (f_ofZ 60, 2000); (f_ofZ 40, 3000); (f_ofZ 60, 4000); (f_ofZ 45, 5000); (f_ofZ 58, 6000)].
Definition ex_m : float * Z := (f_ofZ 42, 7000).

(** C41: the commands are those of a relay that switches off above target + hysteresis and on below target - hysteresis, each
    switching on ending a cycle, and that stays off after the last *)
Theorem C41_relay : forall c t0 ms,
  fst (tune c ms (start c t0)) = map (fun s : bool * Z => if fst s then t_max c else t_min c)
    (relays (f_sub (t_target c) (t_hyst c)) (f_add (t_target c) (t_hyst c)) (t_cycles c) (true, 0) (map fst ms)) /\
  cycle (snd (tune c ms (start c t0))) =
    snd (last (relays (f_sub (t_target c) (t_hyst c)) (f_add (t_target c) (t_hyst c)) (t_cycles c) (true, 0) (map fst ms)) (true, 0)).
Proof. exact relay_thm. Qed.
Print Assumptions C41_relay.
Example C41_relay_case : map fst (relays (f_ofZ 49) (f_ofZ 51) 3 (true, 0) (map fst ex_ms)) = [true; false; true; false; true; false] /\
  length (fst (tune ex_c ex_ms (start ex_c 0))) = 6%nat.
Proof. split; vm_compute; reflexivity. Qed.
(** In terms of what was configured; the sign of the hysteresis does not matter *)
Lemma configured_thm : forall target h interval lo hi mode n t0 ms h', (h' = h \/ h' = Bopp h) -> Bsign h = false ->
  let c := configure target h' interval lo hi mode n in
  fst (tune c ms (start c t0)) = map (fun s : bool * Z => if fst s then hi else lo)
    (relays (f_sub target h) (f_add target h) n (true, 0) (map fst ms)).
Proof.
  intros target h interval lo hi mode n t0 ms h' E P c. assert (A : f_abs h' = h).
  { unfold f_abs. destruct E as [-> | ->]; destruct h as [[] | [] | | []]; try discriminate P; reflexivity. }
  pose proof (proj1 (relay_thm c t0 ms)) as R. unfold c, configure in *. rewrite A in *. exact R.
Qed.
Theorem C41_configured : forall target h interval lo hi mode n t0 ms h', (h' = h \/ h' = Bopp h) -> Bsign h = false ->
  let c := configure target h' interval lo hi mode n in
  fst (tune c ms (start c t0)) = map (fun s : bool * Z => if fst s then hi else lo)
    (relays (f_sub target h) (f_add target h) n (true, 0) (map fst ms)).
Proof. exact configured_thm. Qed.
Print Assumptions C41_configured.
Example C41_configured_case : Bopp (f_ofZ 1) = f_ofZ (-1) /\ Bsign (f_ofZ 1) = false.
Proof. split; [apply B2SF_inj |]; vm_compute; reflexivity. Qed.
Theorem C41_min_or_max : forall c t0 ms, Forall (fun o => o = t_min c \/ o = t_max c) (fst (tune c ms (start c t0))).
Proof. exact two_values_thm. Qed.
Print Assumptions C41_min_or_max.
Example C41_min_or_max_case : map (fun o => f_eq o (f_ofZ 100)) (fst (tune ex_c ex_ms (start ex_c 0))) = [true; false; true; false; true; false] /\
  map (fun o => f_eq o (f_ofZ 0)) (fst (tune ex_c ex_ms (start ex_c 0))) = [false; true; false; true; false; true].
Proof. split; vm_compute; reflexivity. Qed.
Theorem C41_cycles_never_decrease : forall c t0 ms ms',
  cycle (snd (tune c ms (start c t0))) <= cycle (snd (tune c (ms ++ ms') (start c t0))) <= cycle (snd (tune c ms (start c t0))) + Z.of_nat (length ms').
Proof. exact cycles_mono_thm. Qed.
Print Assumptions C41_cycles_never_decrease.
Example C41_cycles_case : map (fun n => cycle (snd (tune ex_c (firstn n ex_ms) (start ex_c 0)))) [0; 1; 2; 3; 4; 5; 6]%nat = [0; 0; 0; 1; 1; 2; 2].
Proof. vm_compute. reflexivity. Qed.
Theorem C41_finished_stays : forall c t0 ms ms', is_finished c (snd (tune c ms (start c t0))) = true ->
  Forall (eq (t_min c)) (fst (tune c ms' (snd (tune c ms (start c t0))))) /\ is_finished c (snd (tune c (ms ++ ms') (start c t0))) = true.
Proof. exact finished_thm. Qed.
Print Assumptions C41_finished_stays.
Example C41_finished_stays_case : is_finished ex_c (snd (tune ex_c (ex_ms ++ [ex_m]) (start ex_c 0))) = true /\
  map (fun o => f_eq o (f_ofZ 0)) (fst (tune ex_c ex_ms (snd (tune ex_c (ex_ms ++ [ex_m]) (start ex_c 0))))) = [true; true; true; true; true; true].
Proof. split; vm_compute; reflexivity. Qed.
Theorem C41_finishing_call : forall c t0 ms m, is_finished c (snd (tune c (ms ++ [m]) (start c t0))) = true ->
  last (fst (tune c (ms ++ [m]) (start c t0))) (t_max c) = t_min c.
Proof. exact finishing_thm. Qed.
Print Assumptions C41_finishing_call.
Example C41_case : is_finished ex_c (snd (tune ex_c (ex_ms ++ [ex_m]) (start ex_c 0))) = true /\
  map (fun o => f_eq o (f_ofZ 100)) (fst (tune ex_c (ex_ms ++ [ex_m]) (start ex_c 0))) = [true; false; true; false; true; false; false].
Proof. split; vm_compute; reflexivity. Qed.

(** C42 is false: the gains measured after the first two cycles are summed, but the sum is divided by the cycles minus one *)
Theorem C42_mean_refuted : exists c t0 ms m n,
  is_finished c (snd (tune c ms (start c t0))) = false /\ is_finished c (snd (tune c (ms ++ [m]) (start c t0))) = true /\
  Z.of_nat (length ms) + 1 < n /\
  let seen := gains_seen 0 (watch (with_cycles c n) (ms ++ [m]) (start (with_cycles c n) t0)) in
  let t := snd (tune c (ms ++ [m]) (start c t0)) in
  gp t <> fmean (map gain_p (skipn 2 seen)) /\ gp t <> fmean (map gain_p (skipn 1 seen)) /\ gp t <> fmean (map gain_p seen).
Proof.
  exists ex_c, 0, ex_ms, ex_m, 10. repeat split; try (vm_compute; reflexivity); apply neq_test; vm_compute; reflexivity.
Qed.
(** What is reported, for any number of cycles: [n - 2] gains summed, divided by [n - 1]. The gains measured are those shown by the
    tuner when it is asked for more cycles. Missing for C42: the divisor. *)
Theorem C42_reported_partial : forall c n t0 ms m,
  is_finished c (snd (tune c ms (start c t0))) = false -> is_finished c (snd (tune c (ms ++ [m]) (start c t0))) = true ->
  Z.of_nat (length ms) + 1 < n ->
  let seen := gains_seen 0 (watch (with_cycles c n) (ms ++ [m]) (start (with_cycles c n) t0)) in
  let t := snd (tune c (ms ++ [m]) (start c t0)) in
  Z.of_nat (length seen) = t_cycles c /\ cycle t = t_cycles c /\
  gp t = divided (map gain_p (skipn 2 seen)) (t_cycles c - 1) /\
  gi t = divided (map gain_i (skipn 2 seen)) (t_cycles c - 1) /\
  gd t = divided (map gain_d (skipn 2 seen)) (t_cycles c - 1).
Proof. exact final_gains_thm. Qed.
Print Assumptions C42_reported_partial.
(** So one cycle gives no number and two give zero, whatever was measured *)
Theorem C42_one_cycle : forall c t0 ms m, t_cycles c = 1 ->
  is_finished c (snd (tune c ms (start c t0))) = false -> is_finished c (snd (tune c (ms ++ [m]) (start c t0))) = true ->
  gp (snd (tune c (ms ++ [m]) (start c t0))) = f_nan.
Proof. exact one_cycle_thm. Qed.
Print Assumptions C42_one_cycle.
Theorem C42_two_cycles : forall c t0 ms m, t_cycles c = 2 ->
  is_finished c (snd (tune c ms (start c t0))) = false -> is_finished c (snd (tune c (ms ++ [m]) (start c t0))) = true ->
  let t := snd (tune c (ms ++ [m]) (start c t0)) in gp t = f_zero /\ gi t = f_zero /\ gd t = f_zero.
Proof. exact two_cycles_thm. Qed.
Print Assumptions C42_two_cycles.
Example C42_case :
  is_finished ex_c (snd (tune ex_c ex_ms (start ex_c 0))) = false /\
  is_finished ex_c (snd (tune ex_c (ex_ms ++ [ex_m]) (start ex_c 0))) = true /\
  length (gains_seen 0 (watch (with_cycles ex_c 10) (ex_ms ++ [ex_m]) (start ex_c 0))) = 3%nat /\
  f_gt (gp (snd (tune ex_c (ex_ms ++ [ex_m]) (start ex_c 0)))) (f_lit 2 1) = true.
Proof. repeat split; vm_compute; reflexivity. Qed.
Example C42_one_case :
  is_finished (with_cycles ex_c 1) (snd (tune (with_cycles ex_c 1) (firstn 2 ex_ms) (start ex_c 0))) = false /\
  is_finished (with_cycles ex_c 1) (snd (tune (with_cycles ex_c 1) (firstn 2 ex_ms ++ [(f_ofZ 40, 3000)]) (start ex_c 0))) = true.
Proof. split; vm_compute; reflexivity. Qed.
Example C42_two_case :
  is_finished (with_cycles ex_c 2) (snd (tune (with_cycles ex_c 2) (firstn 4 ex_ms) (start ex_c 0))) = false /\
  is_finished (with_cycles ex_c 2) (snd (tune (with_cycles ex_c 2) (firstn 4 ex_ms ++ [(f_ofZ 45, 5000)]) (start ex_c 0))) = true.
Proof. split; vm_compute; reflexivity. Qed.

(** C67 is false: at the end the process is given 0, also when 0 is below the lower limit *)
Theorem C67_final_command_refuted : exists c t0 ms os t, autotune_loop c ms (start c t0) = Some (os, t) /\
  f_lt (t_min c) (t_max c) = true /\ exists o, In o os /\ f_lt o (t_min c) = true.
Proof.
  set (c := configure (f_ofZ 50) (f_ofZ 1) 1000 (f_ofZ 20) (f_ofZ 100) BasicPID 1).
  destruct (some_test (autotune_loop c (firstn 3 ex_ms) (start c 0)) (fun r => existsb (fun o => f_lt o (t_min c)) (fst r))) as ([os t] & H1 & H2); [vm_compute; reflexivity|].
  exists c, 0, (firstn 3 ex_ms), os, t. split; [exact H1|]. split; [vm_compute; reflexivity|]. apply existsb_exists in H2. exact H2.
Qed.
(** All values before the last are limits, in the order the tuner commands them; the loop stops at the first moment the tuner is
    finished. Missing for C67: the last value. *)
Theorem C67_commands_partial : forall c t0 ms os t, autotune_loop c ms (start c t0) = Some (os, t) ->
  exists ms1 ms2, ms = ms1 ++ ms2 /\ os = fst (tune c ms1 (start c t0)) ++ [f_ofZ 0] /\ t = snd (tune c ms1 (start c t0)) /\
    (forall m1 m2 m, ms1 = m1 ++ m :: m2 -> is_finished c (snd (tune c m1 (start c t0))) = false) /\ is_finished c t = true /\
    Forall (fun o => o = t_min c \/ o = t_max c) (removelast os).
Proof. exact loop_thm. Qed.
Print Assumptions C67_commands_partial.
Example C67_case : exists r, autotune_loop ex_c (ex_ms ++ [ex_m]) (start ex_c 0) = Some r /\
  (length (fst r) =? 8)%nat = true.
Proof. apply some_test. vm_compute. reflexivity. Qed.

(** C68 is false: the highest measurement is lost when it is the one that switches the output off *)
Theorem C68_peak_refuted : exists c t0 pre x0 tb xs xoff toff ys xon ton,
  let lo := f_sub (t_target c) (t_hyst c) in let hi := f_add (t_target c) (t_hyst c) in
  let t := snd (tune c pre (start c t0)) in let t' := snd (do_autotune c x0 tb t) in
  cycle t' = cycle t + 1 /\ cycle t' + 1 < t_cycles c /\
  Forall (fun m : float * Z => f_gt (fst m) hi = false) xs /\ f_gt xoff hi = true /\
  Forall (fun m : float * Z => f_lt (fst m) lo = false) ys /\ f_lt xon lo = true /\
  let t'' := snd (tune c (pre ++ (x0, tb) :: xs ++ (xoff, toff) :: ys ++ [(xon, ton)]) (start c t0)) in
  let seen := map fst xs ++ xoff :: map fst ys ++ [xon] in
  gp t'' <> gain_p (zn c (f_sub (peak seen (t_target c)) (trough seen (t_target c))) (ton - tb)).
Proof.
  exists (with_cycles ex_c 9), 0, (firstn 2 ex_ms), (f_ofZ 40), 3000, [], (f_ofZ 60), 4000, [(f_ofZ 55, 4500)], (f_ofZ 45), 5000.
  cbn zeta. split; [vm_compute; reflexivity|]. split; [vm_compute; reflexivity|]. split; [constructor|]. split; [vm_compute; reflexivity|].
  split; [constructor; [vm_compute; reflexivity|constructor]|]. split; [vm_compute; reflexivity|]. apply neq_test. vm_compute. reflexivity.
Qed.
(** The gains of every cycle after the first, before the last: Ziegler-Nichols on the time from one switching on to the next, the
    lowest measurement since the switching on and the highest after the switching off. Missing for C68: the measurements before the
    switching off are not part of the highest. *)
Theorem C68_cycle_partial : forall c t0 pre x0 tb xs xoff toff ys xon ton,
  let lo := f_sub (t_target c) (t_hyst c) in let hi := f_add (t_target c) (t_hyst c) in
  let t := snd (tune c pre (start c t0)) in let t' := snd (do_autotune c x0 tb t) in
  cycle t' = cycle t + 1 -> cycle t' + 1 < t_cycles c ->
  Forall (fun m : float * Z => f_gt (fst m) hi = false) xs -> f_gt xoff hi = true -> f_lt xoff lo = false ->
  Forall (fun m : float * Z => f_lt (fst m) lo = false) ys -> f_lt xon lo = true ->
  Z.abs tb <= 2 ^ 24 -> Z.abs toff <= 2 ^ 24 ->
  let t'' := snd (tune c (pre ++ (x0, tb) :: xs ++ (xoff, toff) :: ys ++ [(xon, ton)]) (start c t0)) in
  cycle t'' = cycle t' + 1 /\
  (gp t'', gi t'', gd t'') =
    zn c (f_sub (peak (map fst ys ++ [xon]) (t_target c)) (trough (map fst xs ++ xoff :: map fst ys ++ [xon]) (t_target c))) (ton - tb).
Proof. exact cycle_gains_thm. Qed.
Print Assumptions C68_cycle_partial.
Example C68_case : let c := with_cycles ex_c 9 in
  let t := snd (tune c (firstn 2 ex_ms) (start c 0)) in let t' := snd (do_autotune c (f_ofZ 40) 3000 t) in
  cycle t' = cycle t + 1 /\ cycle t' + 1 < t_cycles c /\ f_gt (f_ofZ 60) (f_add (t_target c) (t_hyst c)) = true /\
  f_lt (f_ofZ 60) (f_sub (t_target c) (t_hyst c)) = false /\ f_lt (f_ofZ 45) (f_sub (t_target c) (t_hyst c)) = true /\
  (* irange 62 - 38 = 24: the gain is 0.6 * 4 * 100 / (pi * 24), about 3.18; integral and derivative gains for a period of 3 s *)
  let '(p, i, d) := zn c (f_ofZ 24) 3000 in
  f_lt (f_lit 318 100) p = true /\ f_lt p (f_lit 319 100) = true /\ f_lt (f_lit 212 100) i = true /\ f_lt i (f_lit 213 100) = true /\
  f_lt (f_lit 119 100) d = true /\ f_lt d (f_lit 120 100) = true.
Proof.
  cbn zeta. split; [vm_compute; reflexivity|]. split; [vm_compute; reflexivity|]. split; [vm_compute; reflexivity|]. split; [vm_compute; reflexivity|]. split; [vm_compute; reflexivity|].
  unfold zn. cbn [with_cycles ex_c configure t_mode factors ziegler_nichols]. unfold ziegler_nichols. repeat split; vm_compute; reflexivity.
Qed.
