(** Lemmas on conversions between real and kernel times. *)
From Coq Require Import ZArith Reals Lia Lra Bool.
From Flocq Require Import Core IEEE754.BinarySingleNaN.
From Verif Require Import Base FloatModel FloatFacts UnitModel UnitProofs ConvModel.
Open Scope R_scope.

Lemma finite_value s m e b : val (B754_finite s m e b) = IZR (if s then Z.neg m else Z.pos m) * bpow radix2 e.
Proof. unfold val, B2R, F2R. cbn [Fnum Fexp]. now destruct s. Qed.
Lemma pow_den e : (e < 0)%Z -> bpow radix2 e = / IZR (2 ^ (- e)).
Proof. intros E. replace e with (- - e)%Z at 1 by lia. rewrite bpow_opp. f_equal. symmetry. apply (IZR_Zpower radix2). lia. Qed.
Lemma floor_val x : finite x = true -> f_floor x = Some (Zfloor (val x)).
Proof.
  destruct x as [s | s | | s m e b]; intros F; try discriminate; [unfold val; cbn; now rewrite Zfloor_IZR |].
  unfold f_floor. rewrite finite_value. set (n := if s then _ else _). cbv zeta. f_equal. destruct (Z.leb_spec 0 e) as [E | E].
  - rewrite <- (IZR_Zpower radix2) by exact E. rewrite <- mult_IZR. symmetry. apply Zfloor_IZR.
  - rewrite pow_den by exact E. symmetry. apply Zfloor_div. assert (0 < 2 ^ (- e))%Z by (apply Z.pow_pos_nonneg; lia). lia.
Qed.
Lemma ceil_val x : finite x = true -> f_ceil x = Some (Zceil (val x)).
Proof.
  destruct x as [s | s | | s m e b]; intros F; try discriminate; [unfold val; cbn; now rewrite Zceil_IZR |].
  unfold f_ceil. rewrite finite_value. set (n := if s then _ else _). cbv zeta. f_equal. destruct (Z.leb_spec 0 e) as [E | E].
  - rewrite <- (IZR_Zpower radix2) by exact E. rewrite <- mult_IZR. symmetry. apply Zceil_IZR.
  - rewrite pow_den by exact E. unfold Zceil. f_equal. rewrite Ropp_mult_distr_l, <- opp_IZR. symmetry. apply Zfloor_div.
    assert (0 < 2 ^ (- e))%Z by (apply Z.pow_pos_nonneg; lia). lia.
Qed.
Lemma kernel_ok n : (- 2 ^ 63 <= n < 2 ^ 63)%Z -> to_kernel_time (Some n) = Ok n.
Proof. intros H. unfold to_kernel_time. replace (_ && _) with true; [reflexivity |]. symmetry. apply andb_true_intro. split; [apply Z.leb_le | apply Z.ltb_lt]; lia. Qed.

Definition in_range (x : float) : Prop := finite x = true /\ - IZR (2 ^ 63) <= val x <= IZR (2 ^ 62).
Lemma ceil_range x : in_range x -> (- 2 ^ 63 <= Zceil (val x) < 2 ^ 63)%Z.
Proof.
  intros [_ [A B]]. split.
  - rewrite <- opp_IZR in A. rewrite <- (Zceil_IZR (- 2 ^ 63)). now apply Zceil_le.
  - apply Z.le_lt_trans with (2 ^ 62)%Z; [apply Zceil_glb; exact B | reflexivity].
Qed.
Lemma floor_range x : in_range x -> (- 2 ^ 63 <= Zfloor (val x) < 2 ^ 63)%Z.
Proof.
  intros [_ [A B]]. split.
  - apply Zfloor_lub. rewrite opp_IZR. exact A.
  - apply Z.le_lt_trans with (Zfloor (IZR (2 ^ 62))); [now apply Zfloor_le | rewrite Zfloor_IZR; reflexivity].
Qed.
Lemma ceil_spec x : in_range x -> exists n, to_kernel_time (f_ceil x) = Ok n /\ IZR n - 1 < val x <= IZR n.
Proof.
  intros R. exists (Zceil (val x)). rewrite (ceil_val x (proj1 R)). split; [now apply kernel_ok, ceil_range |]. split; [| apply Zceil_ub].
  unfold Zceil. rewrite opp_IZR. pose proof (Zfloor_ub (- val x)). lra.
Qed.
Lemma floor_spec x : in_range x -> exists n, to_kernel_time (f_floor x) = Ok n /\ IZR n <= val x < IZR n + 1.
Proof.
  intros R. exists (Zfloor (val x)). rewrite (floor_val x (proj1 R)). split; [now apply kernel_ok, floor_range |]. split; [apply Zfloor_lb | apply Zfloor_ub].
Qed.
Lemma round_spec x : in_range x -> exists n, to_kernel_time (f_round x) = Ok n /\ Rabs (IZR n - val x) <= / 2.
Proof.
  intros R. destruct (f_round_spec x (proj1 R)) as (n & E & B). exists n. split; [| exact B]. rewrite E. apply kernel_ok. destruct R as [_ [R1 R2]].
  apply Rabs_le_inv in B. split.
  - assert (- 2 ^ 63 - 1 < n)%Z; [| lia]. apply lt_IZR. rewrite minus_IZR, opp_IZR. lra.
  - apply Z.le_lt_trans with (2 ^ 62)%Z; [| reflexivity]. assert (n < 2 ^ 62 + 1)%Z; [| lia]. apply lt_IZR. rewrite plus_IZR. lra.
Qed.
(** The three functions agree on whole numbers *)
Lemma whole x n : finite x = true -> val x = IZR n -> f_ceil x = Some n /\ f_floor x = Some n /\ f_round x = Some n.
Proof.
  intros F V. rewrite (ceil_val x F), (floor_val x F), V, Zceil_IZR, Zfloor_IZR. split; [reflexivity |]. split; [reflexivity |]. now apply f_round_int.
Qed.
Lemma round_trip n : (Z.abs n <= 2 ^ 24)%Z ->
  to_kernel_time (f_ceil (to_real_time n)) = Ok n /\ to_kernel_time (f_floor (to_real_time n)) = Ok n /\ to_kernel_time (f_round (to_real_time n)) = Ok n.
Proof.
  intros N. destruct (ofZ_exact n N) as [V F]. destruct (whole _ _ F V) as (C & D & E). unfold to_real_time. rewrite C, D, E.
  assert (2 ^ 24 < 2 ^ 63)%Z by reflexivity. rewrite kernel_ok by lia. auto.
Qed.
Lemma real_error n : (Z.abs n <= 2 ^ 63)%Z -> finite (to_real_time n) = true /\ Rabs (val (to_real_time n) - IZR n) <= bpow radix2 (-24) * Rabs (IZR n).
Proof.
  intros N. destruct (ofZ_val n) as [V F]; [apply Z.le_trans with (1 := N); vm_compute; discriminate |]. unfold to_real_time. split; [exact F |]. rewrite V.
  destruct (Z.eq_dec n 0) as [-> | NZ]; [rewrite rnd_0, Rminus_0_r, Rabs_R0; lra |].
  destruct (rnd_error (IZR n)) as (e & E & ->).
  - rewrite <- abs_IZR. apply Rle_trans with (IZR 1); [| apply IZR_le; lia]. change (IZR 1) with (bpow radix2 0). apply bpow_le. lia.
  - replace (IZR n * (1 + e) - IZR n) with (e * IZR n) by ring. rewrite Rabs_mult. apply Rmult_le_compat_r; [apply Rabs_pos | exact E].
Qed.
