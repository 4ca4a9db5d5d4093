(** Proofs about the scaling of kernel times. *)
From Coq Require Import ZArith Bool Lia Reals Lra Psatz.
From Flocq Require Import Core IEEE754.BinarySingleNaN Relative.
From Verif Require Import Base SpanModel UnitModel ScaleModel ScaleSpec.
Open Scope Z_scope.

(** ** Whole numbers *)
Lemma i64_spec z : (count z -> i64 z = Ok z) /\ (~ count z -> i64 z = UB).
Proof. unfold i64, count. destruct (Z.leb_spec (- 2 ^ 63) z), (Z.ltb_spec z (2 ^ 63)); cbn [andb]; split; intros H'; try reflexivity; exfalso; lia. Qed.
Lemma whole_scale t n : count t ->
  (count (t * n) -> sscale t n = Ok (t * n) /\ (n <> 0 -> sdiv_scalar (t * n) n = Ok t)) /\ (~ count (t * n) -> sscale t n = UB) /\ sdiv_scalar t 0 = Halt /\
  (n <> 0 -> (t, n) <> (- 2 ^ 63, -1) -> exists q, sdiv_scalar t n = Ok q /\ Z.abs (q * n) <= Z.abs t /\ Z.abs (t - q * n) < Z.abs n).
Proof.
  intros T. unfold sscale, sdiv_scalar. split; [|split; [|split]].
  - intros C. split; [now apply i64_spec|]. intros N. destruct (Z.eqb_spec n 0); [contradiction|]. rewrite Z.quot_mul by exact N. now apply i64_spec.
  - intros C. now apply i64_spec.
  - reflexivity.
  - intros N X. destruct (Z.eqb_spec n 0); [contradiction|]. exists (Z.quot t n).
    pose proof (Z.quot_rem t n N) as E. pose proof (Z.rem_bound_abs t n N) as B. pose proof (Z.rem_sign_mul t n N) as S1.
    assert (Z.abs (Z.quot t n * n) <= Z.abs t) as L.
    { rewrite Z.abs_mul, <- Z.quot_abs by exact N. rewrite Z.mul_comm. apply Z.mul_quot_le; lia. }
    split; [|split; [exact L|replace (t - Z.quot t n * n) with (Z.rem t n) by lia; exact B]]. apply i64_spec. unfold count in *.
    destruct (Z.eq_dec (Z.abs n) 1) as [A|A].
    + assert (n = 1 \/ n = -1) as [->| ->] by lia; [rewrite Z.quot_1_r; exact T|].
      assert (t <> - 2 ^ 63) by (intros ->; apply X; reflexivity). change (-1) with (- (1)). rewrite Z.quot_opp_r, Z.quot_1_r by lia. lia.
    + assert (2 * Z.abs (Z.quot t n) <= Z.abs t) by nia. lia.
Qed.
Lemma unsigned_scale t s : count t -> 0 <= s < 2 ^ 64 ->
  (count (t * s) -> uscale t s = t * s) /\ udivide t 0 = Halt /\ (s <> 0 -> 0 <= t -> udivide t s = Ok (t / s)) /\
  (1 < s -> t < 0 -> exists q, udivide t s = Ok q /\ 0 <= q).
Proof.
  intros T S. unfold uscale, udivide, udivide64, signed64, count in *. split; [|split; [|split]].
  - intros C. cbv zeta. rewrite Z.mul_mod_idemp_l by lia. destruct (Z.ltb_spec ((t * s) mod 2 ^ 64) (2 ^ 63)) as [L|L].
    + rewrite <- (Z_mod_plus_full (t * s) (if t * s <? 0 then 1 else 0) (2 ^ 64)) in L |- *. destruct (Z.ltb_spec (t * s) 0); rewrite Z.mod_small in L |- *; lia.
    + rewrite <- (Z_mod_plus_full (t * s) (if t * s <? 0 then 1 else 0) (2 ^ 64)) in L |- *. destruct (Z.ltb_spec (t * s) 0); rewrite Z.mod_small in L |- *; lia.
  - reflexivity.
  - intros N P. destruct (Z.eqb_spec s 0); [contradiction|]. cbv zeta. rewrite (Z.mod_small t) by lia.
    assert (0 <= t / s) by (apply Z.div_pos; lia). assert (t / s <= t) by (apply Z.div_le_upper_bound; nia).
    rewrite Z.mod_small by lia. destruct (Z.ltb_spec (t / s) (2 ^ 63)); [reflexivity|lia].
  - intros N P. destruct (Z.eqb_spec s 0); [lia|]. eexists. split; [reflexivity|]. cbv zeta.
    pose proof (Z.mod_pos_bound t (2 ^ 64) ltac:(lia)) as B. set (m := t mod 2 ^ 64) in *.
    assert (0 <= m / s) by (apply Z.div_pos; lia). assert (m / s < 2 ^ 63) by (apply Z.div_lt_upper_bound; nia).
    rewrite Z.mod_small by lia. destruct (Z.ltb_spec (m / s) (2 ^ 63)); lia.
Qed.

(** ** Floating point *)
Section Real.
Variable prec emax : Z.
Context {Hp : Prec_gt_0 prec} {Hx : Prec_lt_emax prec emax}.
Hypothesis Hprec : 2 <= prec <= 62.
Hypothesis Hemax : 64 < emax.
Notation real := (binary_float prec emax).
Local Open Scope R_scope.
Let rnd := round radix2 (FLT_exp (3 - emax - prec) prec) ZnearestE.
Let fmt := generic_format radix2 (FLT_exp (3 - emax - prec) prec).
Let u := bpow radix2 (- prec).

Lemma u_bounds : 0 < u <= / 4.
Proof. split; [apply bpow_gt_0|]. change (/ 4) with (bpow radix2 (-2)). apply bpow_le. lia. Qed.
Lemma r_le x y : x <= y -> rnd x <= rnd y. Proof. apply round_le; typeclasses eauto. Qed.
Lemma r_id x : fmt x -> rnd x = x. Proof. apply round_generic. typeclasses eauto. Qed.
Lemma r_opp x : rnd (- x) = - rnd x. Proof. apply round_NE_opp. Qed.
Lemma r_0 : rnd 0 = 0. Proof. apply round_0. typeclasses eauto. Qed.
Lemma f_bpow e : (3 - emax - prec <= e)%Z -> fmt (bpow radix2 e).
Proof. intros H. apply generic_format_bpow. unfold FLT_exp. unfold Prec_gt_0 in Hp. lia. Qed.
Lemma r_pow x e : (3 - emax - prec <= e)%Z -> Rabs x <= bpow radix2 e -> Rabs (rnd x) <= bpow radix2 e.
Proof.
  intros He H. apply Rabs_le_inv in H as [H1 H2]. apply Rabs_le. split; [rewrite <- (r_id (- bpow radix2 e)) by (apply generic_format_opp, f_bpow, He)|rewrite <- (r_id (bpow radix2 e)) by apply f_bpow, He]; now apply r_le.
Qed.
Lemma f_int n : (Z.abs n <= 2 ^ prec)%Z -> fmt (IZR n).
Proof.
  intros H. destruct (Z.eq_dec (Z.abs n) (2 ^ prec)) as [E|E].
  - assert (F : fmt (IZR (2 ^ prec))). { rewrite (IZR_Zpower radix2) by lia. apply f_bpow. lia. }
    destruct (Z.abs_spec n) as [[_ A]|[_ A]]; [replace n with (2 ^ prec)%Z by lia; exact F|].
    replace n with (- 2 ^ prec)%Z by lia. rewrite opp_IZR. apply generic_format_opp, F.
  - apply generic_format_FLT. exists (Float radix2 n 0); cbn [Fnum Fexp].
    + unfold F2R. cbn. ring.
    + change (radix2 : Z) with 2%Z. lia.
    + lia.
Qed.
(** Rounding changes a number by at most its 2^-prec-th part, or gives one below 1/2. *)
Lemma r_rel x : Rabs (rnd x - x) <= u * Rabs x \/ Rabs x < / 2 /\ Rabs (rnd x) <= / 2.
Proof.
  destruct (Rle_or_lt (bpow radix2 (3 - emax - prec + prec - 1)) (Rabs x)) as [H|H].
  - left. destruct (relative_error_N_FLT_ex radix2 (3 - emax - prec) prec Hp (fun z => negb (Z.even z)) x H) as (eps & H1 & H2).
    fold rnd in H2. change (round radix2 (FLT_exp (3 - emax - prec) prec) (Znearest (fun z => negb (Z.even z))) x) with (rnd x) in H2. rewrite H2. replace (x * (1 + eps) - x) with (eps * x) by ring. rewrite Rabs_mult.
    apply Rmult_le_compat_r; [apply Rabs_pos|]. unfold u. replace (bpow radix2 (- prec)) with (/ 2 * bpow radix2 (- prec + 1)); [exact H1|].
    rewrite bpow_plus. change (bpow radix2 1) with 2. lra.
  - right. assert (bpow radix2 (3 - emax - prec + prec - 1) <= / 2) as B by (change (/ 2) with (bpow radix2 (-1)); apply bpow_le; lia).
    split; [lra|]. eapply Rle_trans; [|exact B]. apply r_pow; [unfold Prec_gt_0 in Hp; lia|lra].
Qed.
Lemma trunc_near x : Rabs (IZR (Ztrunc x) - x) < 1.
Proof.
  destruct (Rle_or_lt 0 x) as [H|H].
  - rewrite Ztrunc_floor by exact H. pose proof (Zfloor_lb x). pose proof (Zfloor_ub x). apply Rabs_lt. lra.
  - rewrite Ztrunc_ceil by lra. pose proof (Zceil_ub x). pose proof (Zceil_lb x). apply Rabs_lt. lra.
Qed.
Lemma trunc_0 x : Rabs x < 1 -> Ztrunc x = 0%Z.
Proof.
  intros H. apply Rabs_lt_inv in H. destruct (Rle_or_lt 0 x).
  - rewrite Ztrunc_floor by auto. apply Zfloor_imp. cbn. lra.
  - rewrite Ztrunc_ceil by lra. apply Zceil_imp. cbn. lra.
Qed.
(** Two roundings and a truncation *)
Lemma near_gen p q : Rabs (p - q) <= u * Rabs q -> Rabs (IZR (Ztrunc (rnd p)) - q) <= 1 + 3 * u * Rabs q.
Proof.
  intros H. pose proof u_bounds as U. pose proof (Rabs_pos q) as Q.
  assert (Rabs p <= (1 + u) * Rabs q) as P. { replace p with ((p - q) + q) by ring. eapply Rle_trans; [apply Rabs_triang|]. lra. }
  destruct (r_rel p) as [E|[E1 E2]].
  - pose proof (trunc_near (rnd p)) as T. replace (IZR (Ztrunc (rnd p)) - q) with ((IZR (Ztrunc (rnd p)) - rnd p) + ((rnd p - p) + (p - q))) by ring.
    eapply Rle_trans; [apply Rabs_triang|]. assert (Rabs ((rnd p - p) + (p - q)) <= 3 * u * Rabs q); [|lra].
    eapply Rle_trans; [apply Rabs_triang|]. assert (u * Rabs p <= u * ((1 + u) * Rabs q)) by (apply Rmult_le_compat_l; lra).
    assert (u * (u * Rabs q) <= u * Rabs q). { apply Rmult_le_compat_l; [lra|]. rewrite <- (Rmult_1_l (Rabs q)) at 2. apply Rmult_le_compat_r; lra. } nra.
  - rewrite (trunc_0 (rnd p)) by lra. replace (0 - q) with (- q) by ring. rewrite Rabs_Ropp.
    assert (Rabs q <= Rabs p + u * Rabs q). { replace q with (p + (q - p)) at 1 by ring. eapply Rle_trans; [apply Rabs_triang|]. rewrite (Rabs_minus_sym q p). lra. }
    assert (u * Rabs q <= / 4 * Rabs q) by (apply Rmult_le_compat_r; lra). assert (0 <= u * Rabs q) by (apply Rmult_le_pos; lra). nra.
Qed.
Lemma near_range p q : Rabs (p - q) <= u * Rabs q -> Rabs q <= bpow radix2 62 -> Rabs (rnd p) <= 25 / 16 * bpow radix2 62.
Proof.
  intros H B. pose proof u_bounds as U. pose proof (Rabs_pos q) as Q.
  assert (Rabs p <= 5 / 4 * Rabs q) as P. { replace p with ((p - q) + q) by ring. eapply Rle_trans; [apply Rabs_triang|]. assert (u * Rabs q <= / 4 * Rabs q) by (apply Rmult_le_compat_r; lra). lra. }
  destruct (r_rel p) as [E|[_ E]].
  - assert (u * Rabs p <= / 4 * Rabs p) by (apply Rmult_le_compat_r; [apply Rabs_pos|lra]).
    assert (Rabs (rnd p) <= 5 / 4 * Rabs p). { replace (rnd p) with ((rnd p - p) + p) by ring. eapply Rle_trans; [apply Rabs_triang|]. lra. } lra.
  - assert (1 <= bpow radix2 62) by (change 1 with (bpow radix2 0); apply bpow_le; lia). lra.
Qed.
Lemma small_int z : Rabs (IZR z) <= 25 / 16 * bpow radix2 62 -> count z.
Proof.
  change (bpow radix2 62) with (IZR (2 ^ 62)). rewrite <- abs_IZR. intros H. unfold count.
  assert (Z.abs z <= 25 * 2 ^ 58)%Z; [|lia]. apply le_IZR. rewrite mult_IZR. change (2 ^ 62)%Z with (16 * 2 ^ 58)%Z in H. rewrite mult_IZR in H. lra.
Qed.
Lemma trunc_shrinks x : Rabs (IZR (Ztrunc x)) <= Rabs x.
Proof.
  destruct (Rle_or_lt 0 x) as [H|H].
  - rewrite Ztrunc_floor by exact H. pose proof (Zfloor_lb x). assert (0 <= IZR (Zfloor x)) by (apply IZR_le, Zfloor_lub; exact H). rewrite !Rabs_pos_eq; lra.
  - rewrite Ztrunc_ceil by lra. pose proof (Zceil_ub x). assert (IZR (Zceil x) <= 0) by (apply IZR_le, Zceil_glb; cbn; lra). rewrite !Rabs_left1; lra.
Qed.

(** The operations *)
Lemma trunc_is (x : real) : Btrunc x = Ztrunc (B2R x).
Proof. apply eq_IZR. rewrite Btrunc_correct by exact Hx. apply round_FIX_IZR. Qed.
Lemma big_bound x : Rabs x <= 25 / 16 * bpow radix2 62 -> Rabs x < bpow radix2 emax.
Proof.
  intros H. eapply Rle_lt_trans; [exact H|]. apply Rlt_le_trans with (bpow radix2 63); [|apply bpow_le; lia].
  replace (bpow radix2 63) with (2 * bpow radix2 62); [pose proof (bpow_gt_0 radix2 62); lra|]. change 2 with (bpow radix2 1). rewrite <- bpow_plus. reflexivity.
Qed.
Lemma count_bound t : count t -> Rabs (IZR t) <= bpow radix2 63.
Proof. intros H. change (bpow radix2 63) with (IZR (2 ^ 63)). rewrite <- abs_IZR. apply IZR_le. unfold count in H. lia. Qed.
Lemma of_count_val t : count t -> B2R (@of_count prec emax Hp Hx t) = rnd (IZR t) /\ is_finite (@of_count prec emax Hp Hx t) = true.
Proof.
  intros T. pose proof (binary_normalize_correct prec emax _ _ mode_NE t 0 false) as C. cbv zeta in C.
  replace (F2R _) with (IZR t) in C by (unfold F2R; cbn; ring). rewrite Rlt_bool_true in C.
  - destruct C as (C1 & C2 & _). split; [exact C1|exact C2].
  - eapply Rle_lt_trans; [apply (r_pow (IZR t) 63); [unfold Prec_gt_0 in Hp; lia|now apply count_bound]|]. apply bpow_lt. lia.
Qed.
Lemma of_count_near t : count t -> Rabs (rnd (IZR t) - IZR t) <= u * Rabs (IZR t).
Proof.
  intros T. destruct (r_rel (IZR t)) as [H|[H _]]; [exact H|].
  assert (t = 0)%Z as ->. { rewrite <- abs_IZR in H. assert (Z.abs t < 1)%Z; [|lia]. apply lt_IZR. lra. }
  rewrite r_0. rewrite Rminus_diag_eq, Rabs_R0 by reflexivity. lra.
Qed.
Lemma mult_val (x y : real) : is_finite x = true -> is_finite y = true -> Rabs (rnd (B2R x * B2R y)) < bpow radix2 emax ->
  B2R (Bmult mode_NE x y) = rnd (B2R x * B2R y) /\ is_finite (Bmult mode_NE x y) = true.
Proof.
  intros A B H. pose proof (Bmult_correct prec emax _ _ mode_NE x y) as C. rewrite Rlt_bool_true in C by exact H.
  destruct C as (C1 & C2 & _). split; [exact C1|]. now rewrite C2, A, B.
Qed.
Lemma quot_val (x y : real) : is_finite x = true -> B2R y <> 0 -> Rabs (rnd (B2R x / B2R y)) < bpow radix2 emax ->
  B2R (Bdiv mode_NE x y) = rnd (B2R x / B2R y) /\ is_finite (Bdiv mode_NE x y) = true.
Proof.
  intros A B H. pose proof (Bdiv_correct prec emax _ _ mode_NE x y B) as C. rewrite Rlt_bool_true in C by exact H.
  destruct C as (C1 & C2 & _). split; [exact C1|]. now rewrite C2.
Qed.
Lemma mult_fin (x y : real) : is_finite (Bmult mode_NE x y) = true -> B2R (Bmult mode_NE x y) = rnd (B2R x * B2R y).
Proof.
  intros F. pose proof (Bmult_correct prec emax _ _ mode_NE x y) as C. destruct (Rlt_bool _ _); [apply C|].
  exfalso. rewrite <- is_finite_SF_B2SF in F. rewrite C in F. discriminate F.
Qed.
Lemma to_count_fin (x : real) r : is_finite x = true -> Ztrunc (B2R x) = r -> count r -> to_count x = Ok r.
Proof. intros F E C. unfold to_count. rewrite F, trunc_is, E. now apply i64_spec. Qed.
Lemma to_count_ok (x : real) r : to_count x = Ok r -> is_finite x = true /\ r = Ztrunc (B2R x).
Proof.
  unfold to_count. destruct (is_finite x); [|discriminate]. unfold i64. destruct (_ && _); [|discriminate]. intros E. split; [reflexivity|]. rewrite <- trunc_is. congruence.
Qed.
Lemma nonzero_test (f : real) : is_finite f = true -> B2R f <> 0 -> Beqb f (B754_zero false) = false.
Proof. intros F N. rewrite Beqb_correct by (auto; reflexivity). apply Req_bool_false. exact N. Qed.

Lemma scale_near t (f : real) : count t -> is_finite f = true -> Rabs (IZR t * B2R f) <= bpow radix2 62 ->
  exists r, rscale t f = Ok r /\ about prec r (IZR t * B2R f).
Proof.
  intros T F B. destruct (of_count_val t T) as [V FV]. pose proof (of_count_near t T) as N.
  assert (Rabs (rnd (IZR t) * B2R f - IZR t * B2R f) <= u * Rabs (IZR t * B2R f)) as P.
  { rewrite <- Rmult_minus_distr_r, !Rabs_mult, <- Rmult_assoc. apply Rmult_le_compat_r; [apply Rabs_pos|exact N]. }
  pose proof (near_range _ _ P B) as R. rewrite <- V in R. destruct (mult_val _ f FV F (big_bound _ R)) as [M FM].
  exists (Ztrunc (rnd (rnd (IZR t) * B2R f))). split.
  - apply to_count_fin; [exact FM|rewrite M, V; reflexivity|]. apply small_int. rewrite V in R. eapply Rle_trans; [apply trunc_shrinks|exact R].
  - unfold about. now apply near_gen.
Qed.
Lemma divide_near t (f : real) : count t -> is_finite f = true -> B2R f <> 0 -> Rabs (IZR t / B2R f) <= bpow radix2 62 ->
  exists r, rdivide t f = Ok r /\ about prec r (IZR t / B2R f).
Proof.
  intros T F Z B. destruct (of_count_val t T) as [V FV]. pose proof (of_count_near t T) as N.
  assert (Rabs (rnd (IZR t) / B2R f - IZR t / B2R f) <= u * Rabs (IZR t / B2R f)) as P.
  { unfold Rdiv. rewrite <- Rmult_minus_distr_r, !Rabs_mult, <- Rmult_assoc. apply Rmult_le_compat_r; [apply Rabs_pos|exact N]. }
  pose proof (near_range _ _ P B) as R. rewrite <- V in R. destruct (quot_val _ f FV Z (big_bound _ R)) as [M FM].
  exists (Ztrunc (rnd (rnd (IZR t) / B2R f))). unfold rdivide. rewrite nonzero_test by assumption. split.
  - apply to_count_fin; [exact FM|rewrite M, V; reflexivity|]. apply small_int. rewrite V in R. eapply Rle_trans; [apply trunc_shrinks|exact R].
  - unfold about. now apply near_gen.
Qed.
Lemma prec_count n : (Z.abs n <= 2 ^ prec)%Z -> Rabs (IZR n) <= bpow radix2 62.
Proof. intros H. rewrite <- abs_IZR. change (bpow radix2 62) with (IZR (2 ^ 62)). apply IZR_le. transitivity (2 ^ prec)%Z; [exact H|]. apply Z.pow_le_mono_r; lia. Qed.
Lemma prec_is_count n : (Z.abs n <= 2 ^ prec)%Z -> count n.
Proof. intros H. apply small_int. pose proof (prec_count n H). pose proof (bpow_gt_0 radix2 62). lra. Qed.
Lemma scale_whole t (f : real) n : (Z.abs t <= 2 ^ prec)%Z -> whole f n -> (Z.abs (t * n) <= 2 ^ prec)%Z -> rscale t f = Ok (t * n)%Z.
Proof.
  intros T [F W] B. destruct (of_count_val t (prec_is_count t T)) as [V FV]. rewrite (r_id _ (f_int t T)) in V.
  assert (rnd (B2R (of_count t) * B2R f) = IZR (t * n)) as E. { rewrite V, W, <- mult_IZR. apply r_id, f_int, B. }
  destruct (mult_val _ f FV F) as [M FM]. { rewrite E. apply big_bound. pose proof (prec_count _ B). pose proof (bpow_gt_0 radix2 62). lra. }
  apply to_count_fin; [exact FM|rewrite M, E; apply Ztrunc_IZR|now apply prec_is_count].
Qed.
Lemma quot_pos t n : (0 <= t < 2 ^ prec)%Z -> (0 < n)%Z -> Ztrunc (rnd (IZR t / IZR n)) = (t / n)%Z.
Proof.
  intros T N. assert (0 < IZR n) as NR by (apply IZR_lt; exact N). assert (1 <= IZR n) as N1 by (apply IZR_le; lia).
  pose proof (Z.div_mod t n ltac:(lia)) as D. pose proof (Z.mod_pos_bound t n N) as M.
  assert (0 <= t / n <= t)%Z as K by (split; [apply Z.div_pos; lia|apply Z.div_le_upper_bound; nia]).
  set (k := (t / n)%Z) in *. set (x := IZR t / IZR n).
  assert (IZR k * IZR n <= IZR t) as L1 by (rewrite <- mult_IZR; apply IZR_le; lia).
  assert (IZR t + 1 <= (IZR k + 1) * IZR n) as L2. { rewrite <- !plus_IZR, <- mult_IZR. apply IZR_le. lia. }
  assert (IZR k <= x) as X1. { unfold x. apply Rmult_le_reg_r with (IZR n); [exact NR|]. unfold Rdiv. rewrite Rmult_assoc, Rinv_l by lra. lra. }
  assert (x + / IZR n <= IZR k + 1) as X2. { unfold x. apply Rmult_le_reg_r with (IZR n); [exact NR|]. unfold Rdiv. rewrite Rmult_plus_distr_r, Rmult_assoc, Rinv_l by lra. lra. }
  assert (0 <= IZR k) as K0 by (apply IZR_le; lia). assert (0 < / IZR n) as I0 by (apply Rinv_0_lt_compat; exact NR).
  assert (IZR k <= rnd x) as R1. { rewrite <- (r_id (IZR k)) by (apply f_int; lia). apply r_le, X1. }
  rewrite Ztrunc_floor by lra. apply Zfloor_imp. split; [exact R1|]. rewrite plus_IZR.
  destruct (r_rel x) as [E|[_ E]].
  - assert (u * Rabs x < / IZR n) as S.
    { rewrite Rabs_pos_eq by lra. unfold x, Rdiv. rewrite <- Rmult_assoc. rewrite <- (Rmult_1_l (/ IZR n)) at 2. apply Rmult_lt_compat_r; [exact I0|].
      unfold u. apply Rmult_lt_reg_l with (bpow radix2 prec); [apply bpow_gt_0|]. rewrite <- Rmult_assoc, <- bpow_plus, Z.add_opp_diag_r. change (bpow radix2 0) with 1.
      rewrite <- (IZR_Zpower radix2) by lia. change (radix2 : Z) with 2%Z. rewrite Rmult_1_l, Rmult_1_r. apply IZR_lt. lia. }
    apply Rabs_le_inv in E. lra.
  - apply Rabs_le_inv in E. lra.
Qed.
Lemma quot_any t n : (Z.abs t < 2 ^ prec)%Z -> (n <> 0)%Z -> Ztrunc (rnd (IZR t / IZR n)) = Z.quot t n.
Proof.
  intros T N. assert (forall a b, (Z.abs a < 2 ^ prec)%Z -> (0 < b)%Z -> Ztrunc (rnd (IZR a / IZR b)) = Z.quot a b) as P.
  { intros a b A B. destruct (Z.le_gt_cases 0 a) as [H|H].
    - rewrite Z.quot_div_nonneg by lia. apply quot_pos; lia.
    - replace a with (- (- a))%Z by lia. rewrite opp_IZR. replace (- IZR (- a) / IZR b) with (- (IZR (- a) / IZR b)) by (unfold Rdiv; ring).
      rewrite r_opp, Ztrunc_opp, Z.quot_opp_l by lia. f_equal. rewrite Z.quot_div_nonneg by lia. apply quot_pos; lia. }
  destruct (Z.lt_gt_cases n 0) as [D _]. destruct (D N) as [H|H]; [|now apply P].
  replace n with (- (- n))%Z by lia. rewrite opp_IZR, Z.quot_opp_r by lia.
  assert (IZR (- n) <> 0) by (apply not_0_IZR; lia).
  replace (IZR t / - IZR (- n)) with (- (IZR t / IZR (- n))) by (field; assumption). rewrite r_opp, Ztrunc_opp. f_equal. apply P; lia.
Qed.
Lemma divide_whole t (f : real) n : (Z.abs t < 2 ^ prec)%Z -> whole f n -> n <> 0%Z -> rdivide t f = Ok (Z.quot t n).
Proof.
  intros T [F W] N. destruct (of_count_val t (prec_is_count t ltac:(lia))) as [V FV]. rewrite (r_id _ (f_int t ltac:(lia))) in V.
  assert (B2R f <> 0) as NR by (rewrite W; apply not_0_IZR, N).
  assert (Rabs (IZR t / IZR n) <= Rabs (IZR t)) as B.
  { unfold Rdiv. rewrite Rabs_mult. rewrite <- (Rmult_1_r (Rabs (IZR t))) at 2. apply Rmult_le_compat_l; [apply Rabs_pos|].
    rewrite Rabs_inv. rewrite <- Rinv_1. apply Rinv_le_contravar; [lra|]. rewrite <- abs_IZR. apply IZR_le. lia. }
  assert (Rabs (rnd (B2R (of_count t) / B2R f)) <= bpow radix2 62) as R.
  { rewrite V, W. apply r_pow; [unfold Prec_gt_0 in Hp; lia|]. eapply Rle_trans; [exact B|apply prec_count; lia]. }
  unfold rdivide. rewrite nonzero_test by assumption. destruct (quot_val _ f FV NR) as [M FM]. { apply big_bound. pose proof (bpow_gt_0 radix2 62). lra. }
  apply to_count_fin; [exact FM|rewrite M, V, W; apply quot_any; assumption|].
  apply prec_is_count. pose proof (Z.quot_abs t n N) as Q. assert (Z.abs t ÷ Z.abs n <= Z.abs t)%Z by (apply Z.quot_le_upper_bound; nia). lia.
Qed.
Lemma scale_order t t' (f : real) r r' : count t -> count t' -> (t <= t')%Z -> 0 <= B2R f -> rscale t f = Ok r -> rscale t' f = Ok r' -> (r <= r')%Z.
Proof.
  intros T T' L F E E'. apply to_count_ok in E as [E ->]. apply to_count_ok in E' as [E' ->]. apply Ztrunc_le.
  rewrite (mult_fin _ _ E), (mult_fin _ _ E'). apply r_le. destruct (of_count_val t T) as [-> _]. destruct (of_count_val t' T') as [-> _].
  apply Rmult_le_compat_r; [exact F|]. apply r_le, IZR_le, L.
Qed.
Lemma scale_shrinks t (f : real) r : (Z.abs t <= 2 ^ prec)%Z -> Rabs (B2R f) <= 1 -> rscale t f = Ok r -> (Z.abs r <= Z.abs t)%Z.
Proof.
  intros T F E. apply to_count_ok in E as [E ->]. rewrite (mult_fin _ _ E). destruct (of_count_val t (prec_is_count t T)) as [-> _]. rewrite (r_id _ (f_int t T)).
  apply le_IZR. rewrite !abs_IZR. eapply Rle_trans; [apply trunc_shrinks|].
  assert (Rabs (IZR t * B2R f) <= IZR (Z.abs t)) as H. { rewrite Rabs_mult, <- abs_IZR. rewrite <- (Rmult_1_r (IZR (Z.abs t))) at 2. apply Rmult_le_compat_l; [apply IZR_le; lia|exact F]. }
  assert (fmt (IZR (Z.abs t))) as G by (apply f_int; lia). rewrite <- abs_IZR. apply Rabs_le_inv in H as [H1 H2]. apply Rabs_le. split.
  - rewrite <- (r_id (- IZR (Z.abs t))) by (apply generic_format_opp, G). now apply r_le.
  - rewrite <- (r_id (IZR (Z.abs t)) G). now apply r_le.
Qed.
Lemma scale_beyond t (f : real) : count t -> bpow radix2 64 <= Rabs (IZR t * B2R f) -> rscale t f = UB.
Proof.
  intros T B. unfold rscale, to_count. destruct (is_finite _) eqn:F; [|reflexivity]. rewrite trunc_is, (mult_fin _ _ F).
  destruct (of_count_val t T) as [-> _]. pose proof (of_count_near t T) as N. pose proof u_bounds as U.
  set (p := rnd (IZR t) * B2R f). set (q := IZR t * B2R f) in *.
  assert (Rabs (p - q) <= / 4 * Rabs q) as P.
  { unfold p, q. rewrite <- Rmult_minus_distr_r, !Rabs_mult, <- Rmult_assoc. apply Rmult_le_compat_r; [apply Rabs_pos|]. eapply Rle_trans; [exact N|]. apply Rmult_le_compat_r; [apply Rabs_pos|lra]. }
  assert (Rabs q <= Rabs p + Rabs (p - q)) as Q. { replace q with (p + (q - p)) at 1 by ring. eapply Rle_trans; [apply Rabs_triang|]. rewrite (Rabs_minus_sym q p). lra. }
  assert (bpow radix2 64 = 4 * bpow radix2 62) as E64 by (change 4 with (bpow radix2 2); rewrite <- bpow_plus; reflexivity).
  assert (3 * bpow radix2 62 <= Rabs p) as P3 by lra.
  assert (fmt (3 * bpow radix2 62)) as F3.
  { apply generic_format_FLT. exists (Float radix2 3 62); cbn [Fnum Fexp]; [reflexivity| |lia]. change (radix2 : Z) with 2%Z. apply Z.lt_le_trans with (2 ^ 2)%Z; [reflexivity|]. apply Z.pow_le_mono_r; lia. }
  assert (3 * bpow radix2 62 <= Rabs (rnd p)) as R3.
  { unfold Rabs in P3. destruct (Rcase_abs p) as [L|L].
    - apply (Rle_trans _ (- rnd p)); [|rewrite <- Rabs_Ropp; apply Rle_abs]. rewrite <- r_opp, <- (r_id _ F3). now apply r_le.
    - apply (Rle_trans _ (rnd p)); [|apply Rle_abs]. rewrite <- (r_id _ F3). now apply r_le. }
  apply i64_spec. intros C. pose proof (trunc_near (rnd p)) as TN. apply count_bound in C.
  assert (Rabs (rnd p) <= Rabs (IZR (Ztrunc (rnd p))) + Rabs (IZR (Ztrunc (rnd p)) - rnd p)) as X.
  { replace (rnd p) with (IZR (Ztrunc (rnd p)) + (rnd p - IZR (Ztrunc (rnd p)))) at 1 by ring. eapply Rle_trans; [apply Rabs_triang|]. rewrite (Rabs_minus_sym (rnd p)). lra. }
  assert (bpow radix2 63 = 2 * bpow radix2 62) as E63 by (change 2 with (bpow radix2 1); rewrite <- bpow_plus; reflexivity).
  assert (1 < bpow radix2 62) by (change 1 with (bpow radix2 0); apply bpow_lt; lia). lra.
Qed.
Lemma divide_special t (f : real) :
  (rdivide t f = Halt <-> exists s, f = B754_zero s) /\ (is_nan f = true -> rscale t f = UB /\ rdivide t f = UB).
Proof.
  split.
  - split; [|intros [s ->]; reflexivity]. unfold rdivide. destruct f as [s|s| |s m e h]; [eauto| | |];
      (replace (Beqb _ _) with false by (symmetry; try reflexivity; destruct s; reflexivity));
      unfold to_count, i64; (destruct (is_finite _); [destruct (_ && _)|]); discriminate.
  - destruct f; try discriminate. intros _. unfold rscale, rdivide. split; destruct (of_count t); reflexivity.
Qed.
End Real.
