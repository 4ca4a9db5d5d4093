(** Property C117: structure/point.hpp, points over float. *)
From Coq Require Import ZArith Bool Reals Lra Lia.
From Flocq Require Import Core IEEE754.BinarySingleNaN.
From Verif Require Import Base FloatModel FloatFacts UnitProofs FpointModel FpointSpec FpointProofs.
Open Scope R_scope.

(** C117, the part that holds. For lengths from 2^-125 to 2^127, mag() is the length rounded to float, but for four roundings of double
    before. *)
Theorem C117_mag_partial : forall p, ordinary p ->
  finite (fmag p) = true /\ Rabs (val (fmag p) - len p) <= (bpow radix2 (-24) + bpow radix2 (-50)) * len p.
Proof. exact mag_right. Qed.
Print Assumptions C117_mag_partial.
(** normalize() gives the point in the same direction with length one, each component within two roundings to float. *)
Theorem C117_normalize_partial : forall p, ordinary p -> let r := fnormalize p in all_finite r /\
  Rabs (val (fx r) - val (fx p) / len p) <= unit_error * Rabs (val (fx p) / len p) + tiny /\
  Rabs (val (fy r) - val (fy p) / len p) <= unit_error * Rabs (val (fy p) / len p) + tiny /\
  Rabs (val (fz r) - val (fz p) / len p) <= unit_error * Rabs (val (fz p) / len p) + tiny /\
  Rabs (len r - 1) <= bpow radix2 (-22).
Proof. exact normalize_right. Qed.
Print Assumptions C117_normalize_partial.
(** mag() is zero for the point zero and for no other, however short. *)
Theorem C117_zero : forall p, all_finite p -> len p <= bpow radix2 127 ->
  (zero_point p -> f_eq (fmag p) f_zero = true) /\ (~ zero_point p -> finite (fmag p) = true /\ 0 < val (fmag p)).
Proof. intros p F L. split; [apply mag_zero; exact F|apply mag_nonzero; assumption]. Qed.
Print Assumptions C117_zero.
(** In the plane mag() and normalize() are those of the points with z zero. *)
Theorem C117_plane : forall x y, finite x = true -> finite y = true -> fmag2 x y = fmag (mkF x y f_zero) /\
  fnormalize2 x y = (fx (fnormalize (mkF x y f_zero)), fy (fnormalize (mkF x y f_zero))).
Proof. intros x y X Y. split; [apply plane|apply plane_normalize]; assumption. Qed.
Print Assumptions C117_plane.
(** == and != are opposites, whatever the components. *)
Theorem C117_equal : forall p q, fne p q = negb (feq p q).
Proof. intros p q. unfold fne, feq. now rewrite !negb_andb. Qed.
Print Assumptions C117_equal.
(** Sums, differences, products, quotients and multiples are those of the components, each rounded once. *)
Theorem C117_arithmetic : forall p q, all_finite p -> all_finite q ->
  (within_range Rplus p q -> componentwise 0 Rplus p q (fadd p q)) /\ (within_range Rminus p q -> componentwise 0 Rminus p q (fsub p q)) /\
  (within_range Rmult p q -> componentwise tiny Rmult p q (fmulp p q)) /\
  (val (fx q) <> 0 -> val (fy q) <> 0 -> val (fz q) <> 0 -> within_range Rdiv p q -> componentwise tiny Rdiv p q (fdivp p q)) /\
  (forall s, finite s = true -> within_range Rmult p (mkF s s s) -> componentwise tiny Rmult p (mkF s s s) (fscale s p)).
Proof. intros p q P Q. split; [now apply sums|]. split; [now apply differences|]. split; [now apply products|]. split; [now apply quotients|]. intros s. now apply scaled. Qed.
Print Assumptions C117_arithmetic.

Definition pt (x y z : Z) : fpoint := mkF (f_ofZ x) (f_ofZ y) (f_ofZ z).
Lemma pt_ordinary x y z : (Z.abs x <= 1000)%Z -> (Z.abs y <= 1000)%Z -> (Z.abs z <= 1000)%Z -> (1 <= x * x + y * y + z * z)%Z -> ordinary (pt x y z).
Proof.
  intros X Y Z P. destruct (ofZ_exact x) as [VX FX]; [lia|]. destruct (ofZ_exact y) as [VY FY]; [lia|]. destruct (ofZ_exact z) as [VZ FZ]; [lia|].
  split; [split; [|split]; assumption|]. unfold len, pt. cbn [fx fy fz]. rewrite VX, VY, VZ, <- !mult_IZR, <- !plus_IZR.
  assert (Q : 1 <= sqrt (IZR (x * x + y * y + z * z)) <= 2000).
  { split.
    - rewrite <- sqrt_1 at 1. apply sqrt_le_1_alt. now apply IZR_le.
    - rewrite <- (sqrt_square 2000) by lra. apply sqrt_le_1_alt. rewrite <- mult_IZR. apply IZR_le. nia. }
  split; [apply Rle_trans with (bpow radix2 0); [apply bpow_le; lia|exact (proj1 Q)]|].
  apply Rle_trans with (bpow radix2 11); [apply Rle_trans with (1 := proj2 Q); cbn; lra|apply bpow_le; lia].
Qed.
Example C117_case : ordinary (pt 2 (-3) 6) /\ f_eq (fmag (pt 2 (-3) 6)) (f_ofZ 7) = true /\ f_eq (fx (fnormalize (pt 2 (-3) 6))) (f_lit 2 7) = true /\
  f_eq (fmag2 (f_ofZ 3) (f_ofZ 4)) (f_ofZ 5) = true /\ all_finite (pt 0 0 0) /\ f_eq (fmag (pt 0 0 0)) f_zero = true /\ feq (pt 1 2 3) (pt 1 2 4) = false.
Proof. split; [apply pt_ordinary; lia|]. split; [vm_compute; reflexivity|]. split; [vm_compute; reflexivity|]. split; [vm_compute; reflexivity|]. split; [split; [|split]; reflexivity|]. split; vm_compute; reflexivity. Qed.
Example C117_arithmetic_case : feq (fadd (pt 2 (-3) 6) (pt 1 1 1)) (pt 3 (-2) 7) = true /\ feq (fsub (pt 2 (-3) 6) (pt 1 1 1)) (pt 1 (-4) 5) = true /\
  feq (fmulp (pt 2 (-3) 6) (pt 4 5 (-6))) (pt 8 (-15) (-36)) = true /\ feq (fdivp (pt 2 (-3) 6) (pt 2 3 (-3))) (pt 1 (-1) (-2)) = true /\
  feq (fscale (f_ofZ 3) (pt 2 (-3) 6)) (pt 6 (-9) 18) = true /\ all_finite (pt 2 (-3) 6) /\ within_range Rplus (pt 2 (-3) 6) (pt 1 1 1).
Proof.
  do 5 (split; [vm_compute; reflexivity|]). split; [repeat split|]. unfold within_range, pt. cbn [fx fy fz].
  destruct (ofZ_exact 2) as [-> _]; [lia|]. destruct (ofZ_exact (-3)) as [-> _]; [lia|]. destruct (ofZ_exact 6) as [-> _]; [lia|]. destruct (ofZ_exact 1) as [-> _]; [lia|].
  assert (IZR 7 <= bpow radix2 127) by (apply Rle_trans with (bpow radix2 3); [cbn; lra|apply bpow_le; lia]).
  repeat split; apply Rabs_le; lra.
Qed.

(** False of the code: normalizing the point zero makes all its components NaN, *)
Theorem C117_zero_nan : forall p, all_finite p -> zero_point p -> fx (fnormalize p) = B754_nan /\ fy (fnormalize p) = B754_nan /\ fz (fnormalize p) = B754_nan.
Proof. exact normalize_zero. Qed.
Print Assumptions C117_zero_nan.
Theorem C117_zero_refuted : exists p, all_finite p /\ f_eq (fmag p) f_zero = true /\ f_isnan (fx (fnormalize p)) = true.
Proof. exists (pt 0 0 0). split; [split; [|split]; reflexivity|]. split; vm_compute; reflexivity. Qed.
Print Assumptions C117_zero_refuted.
(** a very short point keeps the length of the diagonal of a square, *)
Definition f_pow2 (e : Z) : float := binary_normalize 24 128 _ _ mode_NE 1 e false.
Theorem C117_short_refuted : exists p, all_finite p /\ f_gt (fx p) f_zero = true /\ feq (fnormalize p) (pt 1 1 0) = true.
Proof. exists (mkF (f_pow2 (-149)) (f_pow2 (-149)) f_zero). split; [split; [|split]; reflexivity|]. split; vm_compute; reflexivity. Qed.
Print Assumptions C117_short_refuted.
(** and the length of a very long one is beyond the range of float: normalized it is zero (where the conversion gives an infinity). *)
Theorem C117_long_refuted : exists p, all_finite p /\ f_gt (fx p) f_zero = true /\ finite (fmag p) = false /\ feq (fnormalize p) (pt 0 0 0) = true.
Proof.
  exists (mkF (f_mul (f_lit 19 10) (f_pow2 127)) (f_mul (f_lit 19 10) (f_pow2 127)) f_zero). split; [split; [|split]; vm_compute; reflexivity|].
  split; [vm_compute; reflexivity|]. split; vm_compute; reflexivity.
Qed.
Print Assumptions C117_long_refuted.
