(** Arithmetic of real quantities in two different units (unit.hpp:50-79). *)
From Coq Require Import ZArith Reals Lia Lra.
From Flocq Require Import Core.
From Verif Require Import Base FloatModel FloatFacts FilterProofs UnitModel UnitSpec UnitProofs.
Open Scope R_scope.

Lemma moderate_conv o t y : moderate o t y ->
  exists q, near 4 q /\ val (ufrom o t y) = val y * (factor o / factor t) * q /\ part (ufrom o t y) /\ (val y <> 0 -> val (ufrom o t y) <> 0).
Proof.
  intros [F H]. change (/ IZR (2 ^ 59)) with (bpow radix2 (-59)) in H. change (IZR (2 ^ 59)) with (bpow radix2 59) in H.
  assert (B1 : bpow radix2 (-125) <= bpow radix2 (-59)) by (apply bpow_le; lia).
  assert (B2 : bpow radix2 59 <= bpow radix2 126) by (apply bpow_le; lia).
  destruct (conv_near o t y F) as (q & Q & E & FC); [destruct H as [H | H]; [left; exact H | right; lra] |].
  exists q. split; [exact Q |]. split; [exact E |].
  pose proof (near_bound 4 q ltac:(lia) Q) as B. apply Rabs_le_inv in B. pose proof u_range as U. rewrite u_val in B, U.
  replace (INR 4) with 4 in B by (cbn; lra). change (2 ^ 24)%Z with 16777216%Z in B.
  assert (Q1 : / 2 <= q <= 2) by lra. clear B.
  split.
  - split; [exact FC |]. rewrite E. destruct H as [H | H]; [left; rewrite H; ring |]. right.
    change (/ IZR (2 ^ 60)) with (bpow radix2 (-60)). change (IZR (2 ^ 60)) with (bpow radix2 60).
    rewrite Rabs_mult, (Rabs_pos_eq q) by lra.
    assert (D1 : bpow radix2 (-60) = / 2 * bpow radix2 (-59)) by (change (-59)%Z with (-60 + 1)%Z; rewrite <- (bpow_double (-60)); lra).
    assert (D2 : bpow radix2 60 = 2 * bpow radix2 59) by (change 60%Z with (59 + 1)%Z; rewrite <- (bpow_double 59); lra).
    pose proof (Rabs_pos (val y * (factor o / factor t))). pose proof (bpow_gt_0 radix2 (-59)). rewrite D1, D2. split; nra.
  - intros N. rewrite E. pose proof (factor_pos o). pose proof (factor_pos t).
    apply Rmult_integral_contrapositive. split; [| lra]. apply Rmult_integral_contrapositive. split; [exact N |].
    apply Rgt_not_eq. apply Rdiv_lt_0_compat; assumption.
Qed.

Lemma part_120 x : part x -> Rabs (val x) <= bpow radix2 120.
Proof.
  intros [_ [H | [_ H]]].
  - rewrite H, Rabs_R0. apply bpow_ge_0.
  - change (IZR (2 ^ 60)) with (bpow radix2 60) in H. apply Rle_trans with (1 := H). apply bpow_le. lia.
Qed.

Lemma uadd_units this other x y : part x -> moderate other this y ->
  let y' := val y * (factor other / factor this) in
  finite (uadd this other x y) = true /\ finite (usub this other x y) = true /\
  Rabs (val (uadd this other x y) - (val x + y')) <= 6 / IZR (2 ^ 24) * (Rabs (val x) + Rabs y') /\
  Rabs (val (usub this other x y) - (val x - y')) <= 6 / IZR (2 ^ 24) * (Rabs (val x) + Rabs y').
Proof.
  intros X Y y'. destruct (moderate_conv other this y Y) as (q & Q & E & P & _). fold y' in E.
  destruct (add_near x (ufrom other this y)) as (p & Pn & A & FA); [apply X | apply P | apply part_120; exact X | apply part_120; exact P |].
  destruct (sub_near x (ufrom other this y)) as (r & Rn & S & FS); [apply X | apply P | apply part_120; exact X | apply part_120; exact P |].
  unfold uadd, usub. split; [exact FA |]. split; [exact FS |]. rewrite A, S, E.
  assert (C : 6 / IZR (2 ^ 24) = (INR 5 + 1) * u) by (rewrite u_val; cbn [INR]; lra). rewrite C. split.
  - replace ((val x + y' * q) * p) with (val x * p + y' * (q * p)) by ring. apply sum_error; [lia | apply (near_up 1); [lia | exact Pn] |].
    apply (near_mul 4 1); assumption.
  - replace ((val x - y' * q) * r - (val x - y')) with (val x * r + - y' * (q * r) - (val x + - y')) by ring. rewrite <- (Rabs_Ropp y').
    apply sum_error; [lia | apply (near_up 1); [lia | exact Rn] |]. apply (near_mul 4 1); assumption.
Qed.

Lemma umul_units this other x y : part x -> moderate other this y ->
  let y' := val y * (factor other / factor this) in
  finite (umul this other x y) = true /\ within 6 (val (umul this other x y)) (val x * y').
Proof.
  intros X Y y'. destruct (moderate_conv other this y Y) as (q & Q & E & P & _). fold y' in E.
  destruct (part_mul x (ufrom other this y) X P) as (p & Pn & A & FA & _). unfold umul. split; [exact FA |]. rewrite A, E.
  replace (val x * (y' * q) * p) with (val x * y' * (q * p)) by ring. apply (near_within 5); [lia |]. apply (near_mul 4 1); assumption.
Qed.

Lemma udiv_units this other x y : part x -> moderate other this y -> val y <> 0 ->
  let y' := val y * (factor other / factor this) in
  exists z, udiv this other x y = Ok z /\ finite z = true /\ within 6 (val z) (val x / y').
Proof.
  intros X Y N y'. destruct (moderate_conv other this y Y) as (q & Q & E & P & NZ). fold y' in E. specialize (NZ N).
  destruct (part_div x (ufrom other this y) X P NZ) as (p & Pn & A & FA). unfold udiv; cbn zeta.
  rewrite eq_zero_false by (apply P || exact NZ). eexists. split; [reflexivity |]. split; [exact FA |]. rewrite A, E.
  assert (y' <> 0) by (intros Z; apply NZ; rewrite E, Z; ring). assert (q <> 0) by (apply (near_nz 4); exact Q).
  replace (val x / (y' * q) * p) with (val x / y' * (/ q * p)) by (field; auto). apply (near_within 5); [lia |].
  apply (near_mul 4 1); [apply near_inv; exact Q | exact Pn].
Qed.

(** A zero quantity is reported in whatever unit *)
Lemma udiv_zero this other x y : finite y = true -> val y = 0 -> udiv this other x y = Halt.
Proof.
  intros F Z. destruct (conv_near other this y F (or_introl Z)) as (q & _ & E & FC). unfold udiv; cbn zeta.
  rewrite eq_zero by exact FC. rewrite E, Z. rewrite Req_bool_true by ring. reflexivity.
Qed.
