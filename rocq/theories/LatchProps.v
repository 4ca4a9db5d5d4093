(** Properties C37, C38: controller/sr_latch.{hpp,cpp}. *)
From Coq Require Import ZArith Lia Bool List.
From Verif Require Import Base KTimeModel TimersModel LatchModel LatchSpec LatchProofs.
Import ListNotations.
Open Scope Z_scope.

(** Throughout: readings at times that do not go back; float and its comparison are arbitrary. With [timely] and [sane], times of
    readings and configured times are up to 2^24 milliseconds (4.6 hours); with [rising] and [nonneg] they are any. *)

(** For the examples: minimal times 100 ms on and 50 ms off *)
Definition heater : config Z := mkConfig Z 30 20 100 0 50 0.
Lemma heater_sane : sane Z heater. Proof. unfold sane, heater; cbn [min_on max_on min_off max_off]. lia. Qed.
Definition hot_cold : list (Z * Z) := [(1000, 35); (1050, 10); (1099, 10); (1100, 10); (1120, 40); (1150, 40)].

(** C37. Whenever the output changes with the reading at [t1] and, at any later time [t2], changes from on (off) again, at least
    the minimal on (off) time has passed between the two. Missing: longer uptimes, see C37_long_uptime_refuted. *)
Theorem C37_minimal_times_partial :
  forall F ltb cfg, sane F cfg -> forall t0 pre t1 v1 mid t2 v2, 0 <= t0 -> timely F t0 (pre ++ (t1, v1) :: mid ++ [(t2, v2)]) ->
  let out rs := response (readings F ltb cfg (latch_new F cfg t0) rs) in
  out (pre ++ [(t1, v1)]) <> out pre ->
  out (pre ++ (t1, v1) :: mid ++ [(t2, v2)]) <> out (pre ++ (t1, v1) :: mid) ->
  (if out (pre ++ (t1, v1) :: mid) then min_on F cfg else min_off F cfg) <= t2 - t1.
Proof. exact @switch_gap. Qed.
Print Assumptions C37_minimal_times_partial.
Example C37_minimal_times_case : timely Z 1000 hot_cold /\
  let out rs := response (readings Z Z.ltb heater (latch_new Z heater 1000) rs) in
  out [(1000, 35)] = true /\ out [] = false /\ out [(1000, 35); (1050, 10); (1099, 10)] = true /\ out [(1000, 35); (1050, 10); (1099, 10); (1100, 10)] = false /\
  min_on Z heater = 100.
Proof. split; [repeat (constructor; [lia|]); constructor|]. vm_compute. repeat split. Qed.

(** At any uptime: what is missing of the minimal time is at most the 2^24th part of it and of the clock. *)
Theorem C37_deviation_partial :
  forall F ltb cfg, nonneg F cfg -> forall t0 pre t1 v1 mid t2 v2, 0 <= t0 -> rising F t0 (pre ++ (t1, v1) :: mid ++ [(t2, v2)]) ->
  let out rs := response (readings F ltb cfg (latch_new F cfg t0) rs) in
  let least := if out (pre ++ (t1, v1) :: mid) then min_on F cfg else min_off F cfg in
  out (pre ++ [(t1, v1)]) <> out pre ->
  out (pre ++ (t1, v1) :: mid ++ [(t2, v2)]) <> out (pre ++ (t1, v1) :: mid) ->
  2 ^ 24 * (least - (t2 - t1)) <= least + t2.
Proof. exact @switch_gap_any. Qed.
Print Assumptions C37_deviation_partial.
(** A year after the start, a minimal on time of 100 ms lasts one *)
Example C37_deviation_case : rising Z 0 ([] ++ (31536002047, 35) :: [(31536002047, 25)] ++ [(31536002048, 10)]) /\
  let out rs := response (readings Z Z.ltb heater (latch_new Z heater 0) rs) in
  out [(31536002047, 35)] = true /\ out [] = false /\ out [(31536002047, 35); (31536002047, 25)] = true /\
  out [(31536002047, 35); (31536002047, 25); (31536002048, 10)] = false.
Proof. split; [cbn [app]; repeat (constructor; [lia|]); constructor|]. vm_compute. repeat split. Qed.

(** Without maximal times a reading between the thresholds changes nothing, whatever the clock. *)
Theorem C37_hold :
  forall F ltb cfg t0 pre t v,
  ltb (high F cfg) v = false /\ ltb v (low F cfg) = false -> max_on F cfg = 0 -> max_off F cfg = 0 ->
  readings F ltb cfg (latch_new F cfg t0) (pre ++ [(t, v)]) = readings F ltb cfg (latch_new F cfg t0) pre.
Proof. exact @hold_any. Qed.
Print Assumptions C37_hold.
Example C37_hold_case : sane Z heater /\ max_on Z heater = 0 /\ max_off Z heater = 0 /\ Z.ltb (high Z heater) 25 = false /\ Z.ltb 25 (low Z heater) = false /\
  response (readings Z Z.ltb heater (latch_new Z heater 1000) [(1000, 35); (5000, 25)]) = true.
Proof. split; [apply heater_sane|]. vm_compute. repeat split. Qed.

(** Without any times it is a plain set-reset latch. *)
Theorem C37_plain_partial :
  forall F ltb cfg, sane F cfg -> forall t0 pre t v, 0 <= t0 -> timely F t0 (pre ++ [(t, v)]) ->
  max_on F cfg = 0 -> max_off F cfg = 0 -> min_on F cfg = 0 -> min_off F cfg = 0 ->
  response (readings F ltb cfg (latch_new F cfg t0) (pre ++ [(t, v)])) =
    if ltb (high F cfg) v then true else if ltb v (low F cfg) then false else response (readings F ltb cfg (latch_new F cfg t0) pre).
Proof. exact @plain. Qed.
Print Assumptions C37_plain_partial.
Definition plain_latch : config Z := mkConfig Z 30 20 0 0 0 0.
Example C37_plain_case : sane Z plain_latch /\
  map (fun n => response (readings Z Z.ltb plain_latch (latch_new Z plain_latch 0) (firstn n [(1, 35); (2, 25); (3, 10); (4, 25)]))) [1; 2; 3; 4]%nat = [true; true; false; false].
Proof. split; [unfold sane, plain_latch; cbn [min_on max_on min_off max_off]; lia|vm_compute; reflexivity]. Qed.

(** The same at any uptime, when the 2^24th part of the clock has passed since the readings before *)
Theorem C37_plain_later_partial :
  forall F ltb cfg t0 pre t v, max_on F cfg = 0 -> max_off F cfg = 0 -> min_on F cfg = 0 -> min_off F cfg = 0 ->
  (forall t' v' p q, pre = p ++ (t', v') :: q -> 0 <= t' <= 2 ^ 24 * (t - t')) -> 0 <= t0 <= 2 ^ 24 * (t - t0) ->
  response (readings F ltb cfg (latch_new F cfg t0) (pre ++ [(t, v)])) =
    if ltb (high F cfg) v then true else if ltb v (low F cfg) then false else response (readings F ltb cfg (latch_new F cfg t0) pre).
Proof. exact @plain_any. Qed.
Print Assumptions C37_plain_later_partial.
Example C37_plain_later_case :
  map (fun n => response (readings Z Z.ltb plain_latch (latch_new Z plain_latch 0) (firstn n [(31536000000, 35); (31536002000, 25); (31536004000, 10)]))) [1; 2; 3]%nat = [true; true; false].
Proof. vm_compute. reflexivity. Qed.

(** A year after the start, a latch without any times ignores a reading below the lower threshold for up to a second after it
    switched on. *)
Theorem C37_plain_refuted : exists t,
  let out rs := response (readings Z Z.ltb plain_latch (latch_new Z plain_latch 0) rs) in
  out [(t, 35)] = true /\ out [(t, 35); (t + 1000, 10)] = true.
Proof. exists 31536000001. vm_compute. split; reflexivity. Qed.
Print Assumptions C37_plain_refuted.

(** All together: the output is that of a latch counting in plain integers. *)
Theorem C37_exact_partial :
  forall F ltb cfg, sane F cfg -> forall t0 rs, 0 <= t0 -> timely F t0 rs ->
  response (readings F ltb cfg (latch_new F cfg t0) rs) = fst (fold_left (follow F ltb cfg) rs (false, t0 - min_off F cfg)).
Proof. exact @exact. Qed.
Print Assumptions C37_exact_partial.

Example C37_case : timely Z 1000 hot_cold /\
  map (fun n => response (readings Z Z.ltb heater (latch_new Z heater 1000) (firstn n hot_cold))) [0; 1; 2; 3; 4; 5; 6]%nat =
  [false; true; true; true; false; false; true].
Proof. split; [repeat (constructor; [lia|]); constructor|vm_compute; reflexivity]. Qed.

(** With uptimes past 2^24 milliseconds a minimal on time of 100 ms lasts 99 ms. *)
Theorem C37_long_uptime_refuted : exists t,
  let out rs := response (readings Z Z.ltb heater (latch_new Z heater 0) rs) in
  out [(t, 35)] = true /\ out [(t, 35); (t + 99, 10)] = false.
Proof. exists 16777217. vm_compute. split; reflexivity. Qed.
Print Assumptions C37_long_uptime_refuted.

(** C38, when no reading since the output changed at [t1] was beyond a threshold: the first reading for which the maximal time
    (and the minimal time) is over switches. Missing: readings beyond a threshold, see C38_rearmed_refuted. *)
Theorem C38_maximal_times_partial :
  forall F ltb cfg, sane F cfg -> forall t0 pre t1 v1 mid t2 v2, 0 <= t0 -> timely F t0 (pre ++ (t1, v1) :: mid ++ [(t2, v2)]) ->
  let out rs := response (readings F ltb cfg (latch_new F cfg t0) rs) in
  let now := out (pre ++ [(t1, v1)]) in
  now <> out pre ->
  Forall (fun r => ltb (high F cfg) (snd r) = false /\ ltb (snd r) (low F cfg) = false) mid ->
  (forall m1 m2, mid = m1 ++ m2 -> out (pre ++ (t1, v1) :: m1) = now) ->
  (if now then max_on F cfg else max_off F cfg) <> 0 -> (if now then max_on F cfg else max_off F cfg) < t2 - t1 ->
  (if now then min_on F cfg else min_off F cfg) <= t2 - t1 ->
  out (pre ++ (t1, v1) :: mid ++ [(t2, v2)]) = negb now.
Proof. exact @max_enforced. Qed.
Print Assumptions C38_maximal_times_partial.

(** At any uptime: once the time has passed by more than the 2^24th part of it and of the clock *)
Theorem C38_deviation_partial :
  forall F ltb cfg, nonneg F cfg -> forall t0 pre t1 v1 mid t2 v2, 0 <= t0 -> rising F t0 (pre ++ (t1, v1) :: mid ++ [(t2, v2)]) ->
  let out rs := response (readings F ltb cfg (latch_new F cfg t0) rs) in
  let now := out (pre ++ [(t1, v1)]) in
  let most := if now then max_on F cfg else max_off F cfg in
  let least := if now then min_on F cfg else min_off F cfg in
  now <> out pre ->
  Forall (fun r => ltb (high F cfg) (snd r) = false /\ ltb (snd r) (low F cfg) = false) mid ->
  (forall m1 m2, mid = m1 ++ m2 -> out (pre ++ (t1, v1) :: m1) = now) ->
  most <> 0 -> most + t1 < 2 ^ 24 * (t2 - t1 - most) -> least + t1 <= 2 ^ 24 * (t2 - t1 - least) ->
  out (pre ++ (t1, v1) :: mid ++ [(t2, v2)]) = negb now.
Proof. exact @max_any. Qed.
Print Assumptions C38_deviation_partial.

Definition lamp : config Z := mkConfig Z 30 20 0 1000 0 500.
Definition evening : list (Z * Z) := [(0, 35); (600, 25); (1000, 25); (1001, 35); (1400, 25); (1501, 25); (1502, 25)].
Example C38_case : sane Z lamp /\ timely Z 0 evening /\
  map (fun n => response (readings Z Z.ltb lamp (latch_new Z lamp 0) (firstn n evening))) [0; 1; 2; 3; 4; 5; 6; 7]%nat =
  [false; true; true; true; false; false; false; true].
Proof.
  split; [unfold sane, lamp; cbn [min_on max_on min_off max_off]; lia|].
  split; [repeat (constructor; [lia|]); constructor|vm_compute; reflexivity].
Qed.

Example C38_deviation_case : nonneg Z lamp /\ 1000 + 31536000000 < 2 ^ 24 * (31536003000 - 31536000000 - 1000) /\
  map (fun n => response (readings Z Z.ltb lamp (latch_new Z lamp 31535990000) (firstn n [(31536000000, 35); (31536001000, 25); (31536003000, 25)]))) [1; 2; 3]%nat =
  [true; true; false].
Proof. split; [unfold nonneg, lamp; cbn [min_on max_on min_off max_off]; lia|]. split; [lia|]. vm_compute. reflexivity. Qed.

(** Readings above the threshold every half second keep a latch with a maximal on time of one second on, for as long as one
    likes. *)
Lemma stays_on n : forall t0 l, lvalue l = true -> tlast (lturned l) = t0 -> 0 <= t0 -> t0 + 500 * Z.of_nat n <= 2 ^ 24 ->
  lvalue (readings Z Z.ltb lamp l (map (fun i => (t0 + 500 * (Z.of_nat i + 1), 35)) (seq 0 n))) = true.
Proof.
  induction n as [|n IH]; intros t0 l Hl Ht H0 Hb; [exact Hl|]. cbn [seq map readings].
  assert (Hsane : sane Z lamp) by (unfold sane, lamp; cbn [min_on max_on min_off max_off]; lia).
  set (l' := new_reading Z Z.ltb lamp (t0 + 500 * (Z.of_nat 0 + 1)) 35 l).
  assert (E : l' = mkLatch true (mkTimer (t0 + 500))).
  { unfold l'. replace (t0 + 500 * (Z.of_nat 0 + 1)) with (t0 + 500) by lia. rewrite (step_eq Z Z.ltb lamp Hsane) by (try lia; unfold inv; lia).
    cbv zeta. rewrite Hl, Ht. replace (t0 + 500 - t0) with 500 by lia. reflexivity. }
  rewrite <- seq_shift, map_map. rewrite (map_ext _ (fun i => ((t0 + 500) + 500 * (Z.of_nat i + 1), 35))) by (intros i; f_equal; lia).
  apply (IH (t0 + 500) l'); rewrite ?E; cbn [lvalue lturned tlast]; auto; lia.
Qed.
Theorem C38_rearmed_refuted : exists c, sane Z c /\ max_on Z c = 1000 /\ forall n, 500 * Z.of_nat n <= 2 ^ 24 ->
  exists rs, timely Z 0 rs /\ hd_error rs = Some (0, 35) /\ In (500 * Z.of_nat n, 35) rs /\
  forall k, response (readings Z Z.ltb c (latch_new Z c 0) (firstn (S k) rs)) = true.
Proof.
  exists lamp. split; [unfold sane, lamp; cbn [min_on max_on min_off max_off]; lia|]. split; [reflexivity|]. intros n Hn. exists ((0, 35) :: map (fun i => (0 + 500 * (Z.of_nat i + 1), 35)) (seq 0 n)). split; [|split; [reflexivity|split]].
  - constructor; [lia|]. assert (H : forall k j t, t <= 500 * (Z.of_nat j + 1) -> (k + j <= n)%nat -> timely Z t (map (fun i => (0 + 500 * (Z.of_nat i + 1), 35)) (seq j k))).
    { induction k as [|k IH]; intros j t Ht Hk; cbn [seq map]; constructor; [lia|]. apply IH; lia. } apply H; lia.
  - destruct n as [|n]; [left; reflexivity|]. right. apply in_map_iff. exists n. split; [f_equal; lia|]. apply in_seq. lia.
  - intros k. cbn [firstn readings]. unfold response.
    rewrite firstn_map. assert (exists m, (m <= n)%nat /\ firstn k (seq 0 n) = seq 0 m) as (m & Hm & ->).
    { exists (Nat.min k n). split; [lia|]. assert (G : forall n k j, firstn k (seq j n) = seq j (Nat.min k n)).
      { induction n0 as [|n0 IH]; intros [|k0] j; cbn [firstn seq Nat.min]; auto. now rewrite IH. } apply G. }
    apply stays_on; try lia; vm_compute; reflexivity.
Qed.
Print Assumptions C38_rearmed_refuted.
