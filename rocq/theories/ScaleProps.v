(** C128: kernel times scaled by numbers. *)
From Coq Require Import ZArith Bool Lia Reals Lra.
From Flocq Require Import Core IEEE754.BinarySingleNaN.
From Verif Require Import Base FloatModel FloatFacts FpointModel SpanModel UnitModel ScaleModel ScaleSpec ScaleProofs.
Open Scope Z_scope.

(** Signed whole numbers: exact while the product fits, undone by the division; a quotient is truncated. *)
Theorem C128_whole : forall t n, count t ->
  (count (t * n) -> sscale t n = Ok (t * n) /\ (n <> 0 -> sdiv_scalar (t * n) n = Ok t)) /\ (~ count (t * n) -> sscale t n = UB) /\ sdiv_scalar t 0 = Halt /\
  (n <> 0 -> (t, n) <> (- 2 ^ 63, -1) -> exists q, sdiv_scalar t n = Ok q /\ Z.abs (q * n) <= Z.abs t /\ Z.abs (t - q * n) < Z.abs n).
Proof. exact whole_scale. Qed.
Print Assumptions C128_whole.
Example C128_whole_case : count 86400007 /\ sscale 86400007 365 = Ok 31536002555 /\ sdiv_scalar 31536002555 365 = Ok 86400007 /\ sdiv_scalar (-1001) 10 = Ok (-100) /\
  sscale (2 ^ 62) 2 = UB.
Proof. unfold count. splits; try reflexivity; lia. Qed.

(** Numbers of type unsigned long: right for times that are not negative. Missing: negative times, see C128_unsigned_refuted. *)
Theorem C128_unsigned_partial : forall t s, count t -> 0 <= s < 2 ^ 64 ->
  (count (t * s) -> uscale t s = t * s) /\ udivide t 0 = Halt /\ (s <> 0 -> 0 <= t -> udivide t s = Ok (t / s)) /\
  (1 < s -> t < 0 -> exists q, udivide t s = Ok q /\ 0 <= q).
Proof. exact unsigned_scale. Qed.
Print Assumptions C128_unsigned_partial.
Example C128_unsigned_case : count (-1000) /\ uscale (-1000) 7 = -7000 /\ udivide 1000 7 = Ok 142.
Proof. unfold count. splits; try reflexivity; lia. Qed.
(** A second ago divided by the number 2 in a size_t is 292 million years ahead. *)
Theorem C128_unsigned_refuted : exists t s q, count t /\ 0 < s < 2 ^ 64 /\ udivide t s = Ok q /\ t < 0 /\ q = 2 ^ 63 - 500.
Proof. exists (-1000), 2, (2 ^ 63 - 500). unfold count. splits; try reflexivity; lia. Qed.
Print Assumptions C128_unsigned_refuted.

(** Numbers of type float (24, 128), double (53, 1024) or another floating-point type: within one count and the error of the type. *)
Theorem C128_near_partial : forall prec emax (Hp : Prec_gt_0 prec) (Hx : Prec_lt_emax prec emax), 2 <= prec <= 62 -> 64 < emax ->
  forall t (f : binary_float prec emax), count t -> is_finite f = true ->
  ((Rabs (IZR t * B2R f) <= bpow radix2 62)%R -> exists r, rscale t f = Ok r /\ about prec r (IZR t * B2R f)) /\
  ((B2R f <> 0)%R -> (Rabs (IZR t / B2R f) <= bpow radix2 62)%R -> exists r, rdivide t f = Ok r /\ about prec r (IZR t / B2R f)).
Proof. intros prec emax Hp Hx B E t f T F. split; intros; [now apply scale_near|now apply divide_near]. Qed.
Print Assumptions C128_near_partial.
Example C128_near_case : count 3600001 /\ is_finite (f_lit 1 10) = true /\ rscale 3600001 (f_lit 1 10) = Ok 360000 /\ rdivide 3600001 (f_lit 1 10) = Ok 36000008.
Proof. unfold count. splits; try reflexivity; lia. Qed.

(** Products beyond the range of time_t are undefined. *)
Theorem C128_beyond : forall prec emax (Hp : Prec_gt_0 prec) (Hx : Prec_lt_emax prec emax), 2 <= prec <= 62 -> 64 < emax ->
  forall t (f : binary_float prec emax), count t -> (bpow radix2 64 <= Rabs (IZR t * B2R f))%R -> rscale t f = UB.
Proof. intros prec emax Hp Hx B E t f. now apply scale_beyond. Qed.
Print Assumptions C128_beyond.
Example C128_beyond_case : count (- 2 ^ 62) /\ (bpow radix2 64 <= Rabs (IZR (- 2 ^ 62) * B2R (f_ofZ 5)))%R /\ rscale (- 2 ^ 62) (f_ofZ 5) = UB /\ rscale (- 2 ^ 62) (f_ofZ 2) = Ok (- 2 ^ 63).
Proof.
  split; [unfold count; lia|]. split; [|split; reflexivity]. destruct (ofZ_exact 5 ltac:(lia)) as [E _]. unfold val in E. rewrite E, <- mult_IZR, <- abs_IZR.
  change (bpow radix2 64) with (IZR (2 ^ 64)). apply IZR_le. lia.
Qed.

(** Exact for whole numbers while the times have no more bits than the type: 2^24 counts with a float, 2^53 with a double. *)
Theorem C128_exact_partial : forall prec emax (Hp : Prec_gt_0 prec) (Hx : Prec_lt_emax prec emax), 2 <= prec <= 62 -> 64 < emax ->
  forall t (f : binary_float prec emax) n, whole f n ->
  (Z.abs t <= 2 ^ prec -> Z.abs (t * n) <= 2 ^ prec -> rscale t f = Ok (t * n)) /\ (Z.abs t < 2 ^ prec -> n <> 0 -> rdivide t f = Ok (Z.quot t n)).
Proof. intros prec emax Hp Hx B E t f n W. split; intros; [now apply scale_whole|now apply divide_whole]. Qed.
Print Assumptions C128_exact_partial.
Example C128_exact_case : whole (f_ofZ 7) 7 /\ rscale (-2396745) (f_ofZ 7) = Ok (-16777215) /\ rdivide 16777215 (f_ofZ 7) = Ok 2396745 /\ rdivide 16777214 (f_ofZ 7) = Ok 2396744 /\
  rdivide (2 ^ 53 - 2) (of_count 3 : double) = Ok 3002399751580330.
Proof. split; [split; [reflexivity|apply ofZ_exact; lia]|]. splits; reflexivity. Qed.
(** With a float it is not, beyond: 16.8 seconds in microseconds times 1 are one microsecond less. *)
Theorem C128_exact_refuted : exists t (f : float), count t /\ whole f 1 /\ rscale t f = Ok (t - 1) /\ rdivide t f = Ok (t - 1).
Proof. exists 16777217, (f_ofZ 1). unfold count. split; [lia|]. split; [split; [reflexivity|apply ofZ_exact; lia]|]. split; reflexivity. Qed.
Print Assumptions C128_exact_refuted.

(** Scaling keeps the order of times, and a factor between -1 and 1 makes no time longer. *)
Theorem C128_order : forall prec emax (Hp : Prec_gt_0 prec) (Hx : Prec_lt_emax prec emax), 2 <= prec <= 62 -> 64 < emax ->
  forall t t' (f : binary_float prec emax) r r', count t -> count t' -> rscale t f = Ok r -> rscale t' f = Ok r' ->
  (t <= t' -> (0 <= B2R f)%R -> r <= r') /\ (Z.abs t <= 2 ^ prec -> (Rabs (B2R f) <= 1)%R -> Z.abs r <= Z.abs t).
Proof. intros prec emax Hp Hx B E t t' f r r' T T' R R'. split; intros; [exact (scale_order prec emax B E t t' f r r' T T' H H0 R R')|eapply scale_shrinks; eauto]. Qed.
Print Assumptions C128_order.
Example C128_order_case : rscale 999 (f_lit 3 10) = Ok 299 /\ rscale 1000 (f_lit 3 10) = Ok 300 /\ (0 <= B2R (f_lit 3 10) <= 1)%R.
Proof. splits; try reflexivity; unfold B2R, F2R; cbn; lra. Qed.

(** Dividing by a zero of either sign is reported, and nothing else is; a NaN is not noticed. *)
Theorem C128_special : forall prec emax (Hp : Prec_gt_0 prec) (Hx : Prec_lt_emax prec emax) t (f : binary_float prec emax),
  (rdivide t f = Halt <-> exists s, f = B754_zero s) /\ (is_nan f = true -> rscale t f = UB /\ rdivide t f = UB).
Proof. intros prec emax Hp Hx t f. apply divide_special. Qed.
Print Assumptions C128_special.
Example C128_special_case : rdivide 5 (B754_zero true : float) = Halt /\ rdivide 5 (f_lit 1 1000) = Ok 5000 /\ rscale 5 f_nan = UB.
Proof. splits; reflexivity. Qed.
