(** Kernel times within the range of 64 bits. *)
From Coq Require Import ZArith Bool List Lia.
From Verif Require Import Base KTimeModel KTimeSpec KTimeProofs KTimeConv TimersModel TimersSpec SpanModel SpanSpec.
Import ListNotations.
Open Scope Z_scope.

Lemma i64_ok z : - 2 ^ 63 <= z < 2 ^ 63 -> i64 z = Ok z.
Proof. intros H. unfold i64. destruct (Z.leb_spec (- 2 ^ 63) z), (Z.ltb_spec z (2 ^ 63)); try lia. reflexivity. Qed.
Lemma i64_ub z : z < - 2 ^ 63 \/ 2 ^ 63 <= z -> i64 z = UB.
Proof. intros H. unfold i64. destruct (Z.leb_spec (- 2 ^ 63) z), (Z.ltb_spec z (2 ^ 63)); try lia; reflexivity. Qed.
Lemma micros_pos u : 1 <= micros_per u.
Proof. destruct u; vm_compute; discriminate. Qed.
(** [2 ^ 61] microseconds are 73 066 years. *)
Lemma amount_count u x : Z.abs (x * micros_per u) <= 2 ^ 61 -> Z.abs x <= 2 ^ 61.
Proof. pose proof (micros_pos u). rewrite Z.abs_mul, (Z.abs_eq (micros_per u)) by lia. nia. Qed.
Lemma from_range other this y : Z.abs (y * micros_per other) <= 2 ^ 61 -> Z.abs (from_other other this y) <= 2 ^ 62.
Proof.
  intros H. pose proof (from_other_error other this y) as E. unfold kconv in E. pose proof (micros_pos this) as P.
  set (r := from_other other this y) in *. set (t := y * micros_per other) in *. set (m := micros_per this) in *.
  assert (Z.abs (r * m) <= 2 ^ 61 + 2 ^ 60 + m) as B by lia.
  rewrite Z.abs_mul, (Z.abs_eq m) in B by lia. destruct (Z.le_gt_cases (Z.abs r) (2 ^ 62)) as [L | L]; [exact L|exfalso].
  assert (2 ^ 62 * m < Z.abs r * m) by nia. assert (2 ^ 61 + 2 ^ 60 + m <= 2 ^ 62 * m) by nia. lia.
Qed.
Lemma span_ops this other x y : Z.abs (x * micros_per this) <= 2 ^ 61 -> Z.abs (y * micros_per other) <= 2 ^ 61 ->
  sconv this other y = Ok (kconv this other y) /\ sadd this other x y = Ok (kadd this other x y) /\ ssub this other x y = Ok (ksub this other x y) /\
  sdivide this other x y = kdivide this other x y /\
  seq this other x y = Ok (keq this other x y) /\ sne this other x y = Ok (kne this other x y) /\ slt this other x y = Ok (klt this other x y) /\
  sgt this other x y = Ok (kgt this other x y) /\ sle this other x y = Ok (kle this other x y) /\ sge this other x y = Ok (kge this other x y) /\
  sneg x = Ok (kneg x) /\ forall s, sdiv_scalar x s = kdiv_scalar x s.
Proof.
  intros Hx Hy. pose proof (amount_count _ _ Hx) as Bx. pose proof (from_range other this y Hy) as Bv.
  assert (forall v, v <> 0 -> - 2 ^ 63 <= Z.quot x v < 2 ^ 63) as Q.
  { intros v Hv. pose proof (Z.quot_abs x v Hv) as E. assert (Z.abs x ÷ Z.abs v <= Z.abs x) by (apply Z.quot_le_upper_bound; nia). lia. }
  unfold sconv, sadd, ssub, sdivide, seq, sne, slt, sgt, sle, sge, scmp, sneg, sdiv_scalar, sfrom, kconv, kadd, ksub, kdivide, keq, kne, keq, klt, kgt, kle, kge, kneg, kdiv_scalar.
  rewrite !(i64_ok (from_other other this y)) by lia. cbn [bind]. splits; try reflexivity.
  - apply i64_ok. lia.
  - apply i64_ok. lia.
  - cbv zeta. destruct (Z.eqb_spec (from_other other this y) 0); [reflexivity|]. now apply i64_ok, Q.
  - apply i64_ok. lia.
  - intros s. destruct (Z.eqb_spec s 0); [reflexivity|]. now apply i64_ok, Q.
Qed.
Lemma i64_out z : ~ - 2 ^ 63 <= z < 2 ^ 63 -> i64 z = UB.
Proof. intros H. unfold i64. destruct (Z.leb_spec (- 2 ^ 63) z); [|reflexivity]. destruct (Z.ltb_spec z (2 ^ 63)); [lia|reflexivity]. Qed.
Lemma span_products this other x y s : Z.abs (x * micros_per this) <= 2 ^ 61 -> Z.abs (y * micros_per other) <= 2 ^ 61 ->
  (- 2 ^ 63 <= kmul this other x y < 2 ^ 63 -> smul this other x y = Ok (kmul this other x y)) /\
  (~ - 2 ^ 63 <= kmul this other x y < 2 ^ 63 -> smul this other x y = UB) /\
  (- 2 ^ 63 <= x * s < 2 ^ 63 -> sscale x s = Ok (x * s)) /\ (~ - 2 ^ 63 <= x * s < 2 ^ 63 -> sscale x s = UB).
Proof.
  intros Hx Hy. pose proof (from_range other this y Hy) as Bv. unfold smul, sscale, sfrom, kmul.
  rewrite (i64_ok (from_other other this y)) by lia. cbn [bind]. splits; intros H; first [now apply i64_ok | now apply i64_out].
Qed.
(** The last counts of the range round up to a float outside of it. *)
Lemma near24_top : near24 (2 ^ 63 - 2 ^ 38 - 1) = 2 ^ 63 - 2 ^ 39 /\ near24 (2 ^ 63 - 2 ^ 38) = 2 ^ 63 /\ near24 (- 2 ^ 63) = - 2 ^ 63.
Proof. vm_compute. auto. Qed.
Lemma span_limit u y : - 2 ^ 63 <= y < 2 ^ 63 ->
  (y < 2 ^ 63 - 2 ^ 38 -> exists y', sconv u u y = Ok y' /\ nearest_f32 y y') /\ (2 ^ 63 - 2 ^ 38 <= y -> sconv u u y = UB).
Proof.
  intros H. destruct near24_top as (T1 & T2 & T3). unfold sconv, sfrom. rewrite from_other_same. split; intros L.
  - exists (near24 y). split; [|apply near24_nearest]. apply i64_ok. pose proof (near24_mono y (2 ^ 63 - 2 ^ 38 - 1) ltac:(lia)). pose proof (near24_mono (- 2 ^ 63) y ltac:(lia)). lia.
  - apply i64_ub. pose proof (near24_mono (2 ^ 63 - 2 ^ 38) y L). lia.
Qed.

(** ** Timers *)


Lemma ms_ops x y : Z.abs x <= 2 ^ 51 -> Z.abs y <= 2 ^ 51 ->
  sadd MS MS x y = Ok (kadd MS MS x y) /\ ssub MS MS x y = Ok (ksub MS MS x y) /\ sle MS MS x y = Ok (kle MS MS x y) /\ sgt MS MS x y = Ok (kgt MS MS x y).
Proof.
  intros Hx Hy. assert (forall z, Z.abs z <= 2 ^ 51 -> Z.abs (z * micros_per MS) <= 2 ^ 61) as B.
  { intros z Hz. change (micros_per MS) with 1000. lia. }
  pose proof (span_ops MS MS x y (B x Hx) (B y Hy)) as H. decompose [and] H. auto.
Qed.
Lemma near_long t : Z.abs t <= 2 ^ 51 -> Z.abs (near24 t - t) <= 2 ^ 27.
Proof. intros H. pose proof (near24_error t). lia. Qed.
Lemma kadd_ms x y : kadd MS MS x y = x + near24 y.
Proof. unfold kadd. now rewrite from_other_same. Qed.
Lemma ksub_ms x y : ksub MS MS x y = x - near24 y.
Proof. unfold ksub. now rewrite from_other_same. Qed.
Lemma kgt_ms x y : kgt MS MS x y = (near24 y <? x).
Proof. unfold kgt. now rewrite from_other_same. Qed.
Lemma salarm_polls_ok ts : forall a, Z.abs (afuture a) <= 2 ^ 51 -> Forall long ts ->
  exists a', salarm_polls a ts = Ok (alarm_polls a ts, a') /\ afuture a' = afuture a.
Proof.
  induction ts as [|t ts IH]; intros a Ha Hts; [eexists; split; reflexivity|].
  inversion Hts as [|? ? Ht Hts']; subst. unfold long in Ht.
  assert (salarm_expired t a = Ok (alarm_expired t a)) as E.
  { unfold salarm_expired, alarm_expired. destruct (aexpired a); [reflexivity|].
    destruct (ms_ops (afuture a) t ltac:(lia) ltac:(lia)) as (_ & _ & -> & _). reflexivity. }
  cbn [salarm_polls alarm_polls]. rewrite E. cbn [bind].
  assert (afuture (snd (alarm_expired t a)) = afuture a) as F.
  { unfold alarm_expired. destruct (aexpired a); [reflexivity|]. now destruct (kle MS MS (afuture a) t). }
  destruct (alarm_expired t a) as [b a1]. cbn [snd] in F. destruct (IH a1 ltac:(lia) Hts') as (a' & -> & F'). cbn [bind].
  eexists. split; [reflexivity|]. congruence.
Qed.
Lemma salarm_ok dbg now d absolute ts t : long now -> long d -> Forall long ts -> long t ->
  match alarm_new dbg now d absolute with
  | Ok a => salarm_new dbg now d absolute = Ok a /\ exists a', salarm_polls a ts = Ok (alarm_polls a ts, a') /\ salarm_time_from_now t a' = Ok (alarm_time_from_now t a)
  | r => salarm_new dbg now d absolute = r
  end.
Proof.
  unfold long. intros Hn Hd Hts Ht. pose proof (ms_ops now d ltac:(lia) ltac:(lia)) as (A & _).
  pose proof (ms_ops d now ltac:(lia) ltac:(lia)) as (_ & _ & _ & G).
  set (f := if absolute then d else kadd MS MS now d).
  assert (Z.abs f <= 2 ^ 51) as F. { pose proof (near_long d ltac:(lia)). subst f. destruct absolute; [lia|]. rewrite kadd_ms. lia. }
  assert (salarm_new dbg now d absolute = alarm_new dbg now d absolute) as E.
  { unfold salarm_new, alarm_new. destruct absolute; cbn [negb orb bind]; [|rewrite A; reflexivity].
    destruct dbg; [rewrite G; reflexivity|]. cbn [bind]. unfold sassert. now destruct (kgt MS MS d now). }
  rewrite E. assert (forall a, alarm_new dbg now d absolute = Ok a -> afuture a = f) as N.
  { intros a. unfold alarm_new. fold f. destruct (sassert dbg _); cbn [bind]; intros X; inversion X. reflexivity. }
  destruct (alarm_new dbg now d absolute) as [a| | | |]; try reflexivity.
  split; [reflexivity|]. specialize (N a eq_refl). clearbody f. rewrite <- N in F. destruct (salarm_polls_ok ts a F Hts) as (a' & P & Q). exists a'. split; [exact P|].
  unfold salarm_time_from_now, alarm_time_from_now. rewrite Q. destruct (ms_ops (afuture a) t F ltac:(lia)) as (_ & -> & _). reflexivity.
Qed.
Lemma sitimer_polls_ok ts : forall i t, 0 <= ival i <= 2 ^ 49 -> - 2 ^ 28 <= iprev i <= 2 ^ 49 + 2 ^ 28 -> Forall long ts -> long t ->
  exists i', sitimer_polls i ts = Ok (itimer_polls i ts, i') /\ sitimer_future i' = Ok (itimer_future i') /\ sitimer_until_next t i' = Ok (itimer_until_next t i').
Proof.
  induction ts as [|t ts IH]; intros i t' Hi Hp Hts Ht'; unfold long in Ht'.
  - exists i. split; [reflexivity|]. pose proof (near_long (ival i) ltac:(lia)) as N.
    unfold sitimer_until_next, itimer_until_next, sitimer_future, itimer_future.
    destruct (ms_ops (iprev i) (ival i) ltac:(lia) ltac:(lia)) as (-> & _). split; [reflexivity|]. cbn [bind].
    rewrite kadd_ms. destruct (ms_ops (iprev i + near24 (ival i)) t' ltac:(lia) ltac:(lia)) as (_ & -> & _). reflexivity.
  - inversion Hts as [|? ? Ht Hts']; subst. unfold long in Ht. cbn [sitimer_polls itimer_polls].
    pose proof (near_long (ival i) ltac:(lia)) as Ni. pose proof (near_long (iprev i) ltac:(lia)) as Np.
    assert (sitimer_expired t i = Ok (itimer_expired t i) /\
      (ival (snd (itimer_expired t i)) = ival i /\ - 2 ^ 28 <= iprev (snd (itimer_expired t i)) <= 2 ^ 49 + 2 ^ 28)) as (E & I1 & P1).
    { unfold sitimer_expired, itimer_expired.
      destruct (ms_ops t (iprev i) ltac:(lia) ltac:(lia)) as (_ & -> & _). cbn [bind]. rewrite ksub_ms.
      destruct (ms_ops (t - near24 (iprev i)) (ival i) ltac:(lia) ltac:(lia)) as (_ & _ & _ & ->). cbn [bind]. rewrite kgt_ms.
      destruct (ms_ops (iprev i) (ival i) ltac:(lia) ltac:(lia)) as (-> & _). rewrite kadd_ms.
      pose proof (near24_nonneg (ival i) ltac:(lia)).
      destruct (Z.ltb_spec (near24 (ival i)) (t - near24 (iprev i))); [|split; [reflexivity|split; [reflexivity|exact Hp]]].
      destruct (icatch i); cbn [bind snd ival iprev]; (split; [reflexivity|split; [reflexivity|]]); lia. }
    rewrite E. cbn [bind]. destruct (itimer_expired t i) as [b i1]. cbn [snd] in I1, P1.
    destruct (IH i1 t' ltac:(lia) P1 Hts' Ht') as (i' & -> & R). exists i'. split; [reflexivity|exact R].
Qed.
Lemma stimer_ok ts : forall s, long s -> Forall long ts -> stimer_polls (timer_new s) ts = Ok (timer_polls (timer_new s) ts).
Proof.
  induction ts as [|t ts IH]; intros s Hs Hts; [reflexivity|]. inversion Hts as [|? ? Ht Hts']; subst. cbn [stimer_polls timer_polls].
  unfold stime_since_last, time_since_last. unfold long in Hs, Ht. cbn [timer_new tlast].
  destruct (ms_ops t s ltac:(lia) ltac:(lia)) as (_ & -> & _). cbn [bind].
  change (timer_reset t (timer_new s)) with (timer_new t). rewrite (IH t Ht Hts'). reflexivity.
Qed.
