(** Lemmas on units: relative errors. *)
From Coq Require Import ZArith Bool Reals Lra Lia Psatz.
From Flocq Require Import Core IEEE754.BinarySingleNaN Plus_error Relative Sterbenz Mult_error.
From Verif Require Import Base FloatModel FloatFacts FilterProofs KTimeModel KTimeProofs UnitModel UnitSpec.
Open Scope R_scope.

(** ** Factors of accumulated relative error *)
Definition u : R := bpow radix2 (-24).
Lemma u_val : u = / IZR (2 ^ 24). Proof. reflexivity. Qed.
Definition near (k : nat) (q : R) : Prop := (1 - u) ^ k <= q <= / (1 - u) ^ k.

Lemma u_range : 0 < u < / 2.
Proof. rewrite u_val. change (2 ^ 24)%Z with 16777216%Z. lra. Qed.
Lemma pw_pos k : 0 < (1 - u) ^ k. Proof. apply pow_lt. pose proof u_range; lra. Qed.
Lemma near_pos k q : near k q -> 0 < q. Proof. intros [H _]. pose proof (pw_pos k); lra. Qed.
Lemma near_mul j k p q : near j p -> near k q -> near (j + k) (p * q).
Proof.
  intros [A B] [C D]. pose proof (pw_pos j). pose proof (pw_pos k). unfold near. rewrite pow_add. split.
  - apply Rmult_le_compat; lra.
  - rewrite Rinv_mult. apply Rmult_le_compat; lra.
Qed.
Lemma near_inv k q : near k q -> near k (/ q).
Proof.
  intros N. pose proof (near_pos k q N). destruct N as [A B]. pose proof (pw_pos k). split.
  - rewrite <- (Rinv_inv ((1 - u) ^ k)). apply Rinv_le_contravar; [lra | exact B].
  - apply Rinv_le_contravar; lra.
Qed.
Lemma near_div j k p q : near j p -> near k q -> near (j + k) (p / q).
Proof. intros. apply near_mul; [assumption | apply near_inv; assumption]. Qed.
Lemma near_eps e : Rabs e <= u -> near 1 (1 + e).
Proof.
  intros H. apply Rabs_le_inv in H. pose proof u_range. unfold near. rewrite pow_1. split; [lra |].
  apply Rmult_le_reg_r with (1 - u); [lra |]. rewrite Rinv_l by lra. nra.
Qed.
Lemma near_0 : near 0 1. Proof. unfold near. cbn. lra. Qed.
Lemma near_up j k q : (j <= k)%nat -> near j q -> near k q.
Proof.
  intros H [A B]. pose proof u_range.
  assert (P : (1 - u) ^ k <= (1 - u) ^ j).
  { replace k with (j + (k - j))%nat by lia. rewrite pow_add. pose proof (pw_pos j). pose proof (pw_pos (k - j)).
    assert ((1 - u) ^ (k - j) <= 1 ^ (k - j)) by (apply pow_incr; lra). rewrite pow1 in *. nra. }
  split; [lra |]. apply Rle_trans with (/ (1 - u) ^ j); [exact B |]. apply Rinv_le_contravar; [apply pw_pos | exact P].
Qed.
(** Bernoulli *)
Lemma bernoulli k : 1 - INR k * u <= (1 - u) ^ k.
Proof.
  induction k as [| k IH]; [cbn; lra |]. rewrite S_INR. cbn [pow]. pose proof u_range. pose proof (pw_pos k). pose proof (pos_INR k).
  assert ((1 - u) ^ k <= 1 ^ k) by (apply pow_incr; lra). rewrite pow1 in *. nra.
Qed.
Lemma near_bound k q : (k <= 4000)%nat -> near k q -> Rabs (q - 1) <= (INR k + 1) * u.
Proof.
  intros K [A B]. pose proof (bernoulli k). pose proof u_range. pose proof (pos_INR k). apply le_INR in K.
  replace (INR 4000) with 4000 in K by (rewrite INR_IZR_INZ; reflexivity).
  assert (u * 16777216 = 1) by (rewrite u_val; change (2 ^ 24)%Z with 16777216%Z; lra).
  apply Rabs_le. split; [lra |].
  assert (/ (1 - u) ^ k <= / (1 - INR k * u)) by (apply Rinv_le_contravar; nra).
  assert (/ (1 - INR k * u) <= 1 + (INR k + 1) * u); [| lra].
  apply Rmult_le_reg_r with (1 - INR k * u); [nra |]. rewrite Rinv_l by nra. nra.
Qed.

(** ** Rounding *)
Lemma rnd_near x : bpow radix2 (-126) <= Rabs x -> exists q, near 1 q /\ rnd x = x * q.
Proof. intros H. destruct (rnd_error x H) as (e & B & E). exists (1 + e). split; [apply near_eps; exact B | exact E]. Qed.
Lemma rnd_near_0 x : x = 0 \/ bpow radix2 (-126) <= Rabs x -> exists q, near 1 q /\ rnd x = x * q.
Proof.
  intros [-> | H]; [| apply rnd_near; exact H]. exists 1. split; [apply (near_up 0); [lia | apply near_0] |]. rewrite rnd_0. ring.
Qed.
Lemma rnd_near_plus x y : fmt x -> fmt y -> exists q, near 1 q /\ rnd (x + y) = (x + y) * q.
Proof.
  intros X Y. destruct (FLT_plus_error_N_ex radix2 (-149) 24 (fun z => negb (Z.even z)) x y X Y) as (e & B & E).
  exists (1 + e). split; [| exact E]. apply near_eps.
  apply Rle_trans with (1 := B). unfold u_ro, u. change (/ 2 * bpow radix2 (- 24 + 1) / (1 + / 2 * bpow radix2 (- 24 + 1)) <= bpow radix2 (-24)).
  replace (/ 2 * bpow radix2 (- 24 + 1)) with u by (unfold u; change (- 24 + 1)%Z with (-23)%Z; cbn; lra).
  pose proof u_range. change (bpow radix2 (-24)) with u. apply Rmult_le_reg_r with (1 + u); [lra |].
  unfold Rdiv. rewrite Rmult_assoc, Rinv_l by lra. nra.
Qed.

(** ** The magnitudes *)
Lemma mk_exact m e : (Z.abs m < 2 ^ 24)%Z -> (-149 <= e <= 100)%Z -> val (f_mk m e) = IZR m * bpow radix2 e /\ finite (f_mk m e) = true.
Proof.
  intros M E. unfold f_mk, val, finite.
  pose proof (binary_normalize_correct 24 128 prec24 emax128 mode_NE m e false) as H.
  assert (F : fmt (F2R (Float radix2 m e))) by (apply generic_format_FLT; exists (Float radix2 m e); cbn; [reflexivity | exact M | lia]).
  assert (B : Rabs (rnd (F2R (Float radix2 m e))) < big).
  { rewrite (rnd_id _ F). apply Rlt_trans with (bpow radix2 124); [| apply bpow_lt; lia].
    unfold F2R; cbn [Fnum Fexp]. rewrite Rabs_mult, (Rabs_pos_eq (bpow _ _)) by apply bpow_ge_0. rewrite <- abs_IZR.
    apply Rlt_le_trans with (IZR (2 ^ 24) * bpow radix2 e).
    - apply Rmult_lt_compat_r; [apply bpow_gt_0 | apply IZR_lt; exact M].
    - change (IZR (2 ^ 24)) with (bpow radix2 24). rewrite <- bpow_plus. apply bpow_le. lia. }
  cbv zeta in H. rewrite Rlt_bool_true in H by exact B. destruct H as (A & C & _). split; [| exact C].
  change (IZR m * bpow radix2 e) with (F2R (Float radix2 m e)). rewrite <- (rnd_id _ F). exact A.
Qed.

Definition mag_parts (m : mag) : Z * Z :=
  match m with
  | Atto => (9671407, -83) | Femto => (9444733, -73) | Pico => (9223372, -63) | Nano => (9007199, -53)
  | Micro => (8796093, -43) | Milli => (8589935, -33) | Centi => (10737418, -30) | Deci => (13421773, -27)
  | Deca => (10, 0) | Hecto => (100, 0) | Kilo => (1000, 0) | Mega => (1000000, 0) | Giga => (15625000, 6)
  | Tera => (15258789, 16) | Peta => (14901161, 26) | Exa => (14551915, 36)
  | Unity => (1, 0) | Minute => (60, 0) | Hour => (3600, 0) | Day => (86400, 0) | Week => (604800, 0)
  | Month => (2419200, 0) | Year => (246375, 7)
  end%Z.
Lemma mag_eq m : mag_val m = f_mk (fst (mag_parts m)) (snd (mag_parts m)).
Proof. destruct m; apply B2SF_inj; vm_compute; reflexivity. Qed.
Lemma mag_ok m : val (mag_val m) = IZR (fst (mag_parts m)) * bpow radix2 (snd (mag_parts m)) /\ finite (mag_val m) = true.
Proof. rewrite mag_eq. apply mk_exact; destruct m; cbn; lia. Qed.

Lemma factor_pos m : 0 < factor m.
Proof. destruct m; cbn [factor]; try apply Rinv_0_lt_compat; try (apply IZR_lt; reflexivity); lra. Qed.

(** Both as fractions of integers *)
Definition mag_frac (m : mag) : Z * Z :=
  let '(a, e) := mag_parts m in if (0 <=? e)%Z then (a * 2 ^ e, 1)%Z else (a, 2 ^ (- e))%Z.
Definition factor_frac (m : mag) : Z * Z :=
  match m with
  | Atto => (1, 10 ^ 18) | Femto => (1, 10 ^ 15) | Pico => (1, 10 ^ 12) | Nano => (1, 10 ^ 9)
  | Micro => (1, 10 ^ 6) | Milli => (1, 10 ^ 3) | Centi => (1, 10 ^ 2) | Deci => (1, 10)
  | Deca => (10, 1) | Hecto => (10 ^ 2, 1) | Kilo => (10 ^ 3, 1) | Mega => (10 ^ 6, 1) | Giga => (10 ^ 9, 1)
  | Tera => (10 ^ 12, 1) | Peta => (10 ^ 15, 1) | Exa => (10 ^ 18, 1)
  | Unity => (1, 1)
  | Minute => (60, 1) | Hour => (60 * 60, 1) | Day => (24 * 60 * 60, 1) | Week => (7 * 24 * 60 * 60, 1)
  | Month => (28 * 24 * 60 * 60, 1) | Year => (365 * 24 * 60 * 60, 1)
  end%Z.
Lemma mag_frac_ok m : IZR (fst (mag_parts m)) * bpow radix2 (snd (mag_parts m)) = IZR (fst (mag_frac m)) / IZR (snd (mag_frac m)).
Proof.
  unfold mag_frac. destruct (mag_parts m) as [a e]; cbn [fst snd]. destruct (Z.leb_spec 0 e) as [L | L]; cbn [fst snd].
  - rewrite mult_IZR. change 2%Z with (radix_val radix2). rewrite IZR_Zpower by exact L. field.
  - change 2%Z with (radix_val radix2). rewrite IZR_Zpower by lia. rewrite bpow_opp. unfold Rdiv. rewrite Rinv_inv. reflexivity.
Qed.
Lemma factor_frac_ok m : factor m = IZR (fst (factor_frac m)) / IZR (snd (factor_frac m)).
Proof. destruct m; cbn [factor factor_frac fst snd]; unfold Rdiv; try (rewrite Rmult_1_l; reflexivity); rewrite Rinv_1, Rmult_1_r; reflexivity. Qed.

(** Every literal is within half a unit in the last place (relative 2^-24) of its number *)
Lemma magnitude_error m : exists e, Rabs e <= u /\ val (mag_val m) = factor m * (1 + e).
Proof.
  pose proof (factor_pos m) as P. exists (val (mag_val m) / factor m - 1). split; [| field; lra].
  rewrite (proj1 (mag_ok m)), mag_frac_ok, factor_frac_ok.
  assert (C : (0 < fst (factor_frac m) /\ 0 < snd (factor_frac m) /\ 0 < snd (mag_frac m) /\
    Z.abs (fst (mag_frac m) * snd (factor_frac m) - fst (factor_frac m) * snd (mag_frac m)) * 2 ^ 24 <= fst (factor_frac m) * snd (mag_frac m))%Z)
    by (destruct m; vm_compute; repeat split; discriminate).
  destruct C as (C1 & C2 & C3 & C4). revert C1 C2 C3 C4.
  generalize (fst (factor_frac m)) (snd (factor_frac m)) (fst (mag_frac m)) (snd (mag_frac m)). intros p q a b C1 C2 C3 C4.
  apply IZR_lt in C1, C2, C3. apply IZR_le in C4. rewrite mult_IZR, abs_IZR, minus_IZR, !mult_IZR in C4.
  replace (IZR a / IZR b / (IZR p / IZR q) - 1) with ((IZR a * IZR q - IZR p * IZR b) / (IZR p * IZR b)) by (field; lra).
  assert (D : 0 < IZR p * IZR b) by (apply Rmult_lt_0_compat; assumption).
  unfold Rdiv. rewrite Rabs_mult, Rabs_inv, (Rabs_pos_eq (IZR p * IZR b)) by lra. rewrite u_val.
  apply Rmult_le_reg_r with (IZR p * IZR b); [exact D |]. rewrite Rmult_assoc, Rinv_l by lra.
  change (2 ^ 24)%Z with 16777216%Z in *. lra.
Qed.

Lemma mag_range m : bpow radix2 (-60) <= val (mag_val m) <= bpow radix2 60.
Proof.
  rewrite (proj1 (mag_ok m)), mag_frac_ok.
  assert (C : (0 < snd (mag_frac m) /\ snd (mag_frac m) <= fst (mag_frac m) * 2 ^ 60 /\ fst (mag_frac m) <= 2 ^ 60 * snd (mag_frac m))%Z)
    by (destruct m; vm_compute; repeat split; discriminate).
  destruct C as (C1 & C2 & C3). revert C1 C2 C3. generalize (fst (mag_frac m)) (snd (mag_frac m)). intros a b C1 C2 C3.
  apply IZR_lt in C1. apply IZR_le in C2, C3. rewrite mult_IZR in C2, C3.
  change (bpow radix2 (-60)) with (/ IZR (2 ^ 60)). change (bpow radix2 60) with (IZR (2 ^ 60)).
  assert (T : 0 < IZR (2 ^ 60)) by (apply IZR_lt; reflexivity). split.
  - apply Rmult_le_reg_r with (IZR b); [exact C1 |]. unfold Rdiv. rewrite Rmult_assoc, (Rinv_l (IZR b)) by lra.
    apply Rmult_le_reg_l with (IZR (2 ^ 60)); [exact T |]. rewrite <- Rmult_assoc, Rinv_r by lra. lra.
  - apply Rmult_le_reg_r with (IZR b); [exact C1 |]. unfold Rdiv. rewrite Rmult_assoc, (Rinv_l (IZR b)) by lra. lra.
Qed.

Lemma mag_near m : exists q, near 1 q /\ val (mag_val m) = factor m * q.
Proof. destruct (magnitude_error m) as (e & B & E). exists (1 + e). split; [apply near_eps; exact B | exact E]. Qed.

Lemma ratio_near o t : exists q, near 3 q /\ val (uratio o t) = factor o / factor t * q /\ finite (uratio o t) = true.
Proof.
  destruct (mag_near o) as (p & P & Eo). destruct (mag_near t) as (r & R & Et).
  pose proof (mag_range o) as [O1 O2]. pose proof (mag_range t) as [T1 T2].
  pose proof (bpow_gt_0 radix2 (-60)) as G. pose proof (bpow_gt_0 radix2 60) as G'.
  assert (L : bpow radix2 (-120) <= val (mag_val o) / val (mag_val t) <= bpow radix2 120).
  { split; unfold Rdiv.
    - replace (-120)%Z with (-60 + Z.opp 60)%Z by reflexivity. rewrite bpow_plus, bpow_opp.
      apply Rmult_le_compat; [lra | left; apply Rinv_0_lt_compat, bpow_gt_0 | exact O1 | apply Rinv_le_contravar; lra].
    - replace 120%Z with (60 + Z.opp (-60))%Z by reflexivity. rewrite bpow_plus, bpow_opp.
      apply Rmult_le_compat; [lra | left; apply Rinv_0_lt_compat; lra | exact O2 | apply Rinv_le_contravar; lra]. }
  assert (A : Rabs (val (mag_val o) / val (mag_val t)) = val (mag_val o) / val (mag_val t)).
  { apply Rabs_pos_eq. apply Rle_trans with (2 := proj1 L). apply bpow_ge_0. }
  destruct (div_val (mag_val o) (mag_val t)) as [V F]; [apply mag_ok | apply mag_ok | lra | | ].
  { apply (rnd_small _ 120); [lia |]. rewrite A. apply L. }
  destruct (rnd_near (val (mag_val o) / val (mag_val t))) as (s & S & E).
  { rewrite A. apply Rle_trans with (2 := proj1 L). apply bpow_le. lia. }
  exists (p / r * s). split; [apply (near_mul 2 1); [apply (near_div 1 1); assumption | assumption] |]. split; [| exact F].
  unfold uratio. rewrite V, E, Eo, Et. pose proof (near_pos _ _ R). pose proof (factor_pos t). field. lra.
Qed.

(** ** Conversion *)
Lemma conv_near o t x : finite x = true -> val x = 0 \/ bpow radix2 (-125) <= Rabs (val x * (factor o / factor t)) <= bpow radix2 126 ->
  exists q, near 4 q /\ val (ufrom o t x) = val x * (factor o / factor t) * q /\ finite (ufrom o t x) = true.
Proof.
  intros F H. destruct (ratio_near o t) as (q & Q & E & FR).
  pose proof (near_bound 3 q ltac:(lia) Q) as B. pose proof (near_pos _ _ Q) as P.
  assert (U : u * 16777216 = 1) by (rewrite u_val; change (2 ^ 24)%Z with 16777216%Z; lra).
  replace ((INR 3 + 1) * u) with (4 * u) in B by (cbn; ring). apply Rabs_le_inv in B.
  set (X := val x * (factor o / factor t)) in *.
  assert (M : val (uratio o t) * val x = X * q) by (rewrite E; unfold X; ring).
  assert (AX : Rabs (X * q) = Rabs X * q) by (rewrite Rabs_mult, (Rabs_pos_eq q); lra).
  assert (BB : Rabs (rnd (X * q)) < big).
  { apply (rnd_small _ 127); [lia |]. rewrite AX. destruct H as [H | H].
    - unfold X; rewrite H, Rmult_0_l, Rabs_R0, Rmult_0_l. apply bpow_ge_0.
    - replace 127%Z with (126 + 1)%Z by reflexivity. rewrite bpow_plus. apply Rmult_le_compat; [apply Rabs_pos | lra | apply H | ].
      change (bpow radix2 1) with 2. lra. }
  destruct (mul_val (uratio o t) x FR F) as [V FV]; [rewrite M; exact BB |].
  destruct (rnd_near_0 (X * q)) as (s & S & ES).
  { destruct H as [H | H]; [left; unfold X; rewrite H; ring |]. right. rewrite AX.
    replace (-126)%Z with (-125 + -1)%Z by reflexivity. rewrite bpow_plus. apply Rmult_le_compat; [apply bpow_ge_0 | apply bpow_ge_0 | apply H | ].
    change (bpow radix2 (-1)) with (/ 2). lra. }
  exists (q * s). split; [apply (near_mul 3 1); assumption |]. split; [| exact FV].
  unfold ufrom. rewrite V, M, ES. ring.
Qed.

Lemma near_within k q y : (k <= 4000)%nat -> near k q -> within (Z.of_nat k + 1) (y * q) y.
Proof.
  intros K N. unfold within. replace (y * q - y) with ((q - 1) * y) by ring. rewrite Rabs_mult.
  apply Rmult_le_compat_r; [apply Rabs_pos |]. apply Rle_trans with (1 := near_bound k q K N).
  rewrite plus_IZR, <- INR_IZR_INZ. rewrite u_val. right. reflexivity.
Qed.

(** Same unit: nothing changes *)
Lemma ratio_same m : uratio m m = f_ofZ 1.
Proof. destruct m; apply B2SF_inj; vm_compute; reflexivity. Qed.

Lemma one_mul x : f_mul (f_ofZ 1) x = x.
Proof.
  destruct x as [s | s | | s m e b]; try reflexivity.
  - destruct s; reflexivity.
  - destruct s; reflexivity.
  - set (x := B754_finite s m e b : float).
    assert (O : val (f_ofZ 1) = 1 /\ finite (f_ofZ 1) = true) by (apply ofZ_exact; now vm_compute). destruct O as [O1 O2].
    assert (FX : finite x = true) by reflexivity.
    pose proof (Bmult_correct 24 128 prec24 emax128 mode_NE (f_ofZ 1) x) as H.
    change (B2R (f_ofZ 1)) with (val (f_ofZ 1)) in H. rewrite O1, Rmult_1_l in H.
    assert (RI : rnd (val x) = val x) by (apply rnd_id, val_fmt).
    assert (BX : Rabs (rnd (val x)) < big) by (rewrite RI; apply (abs_B2R_lt_emax 24 128 x)).
    rewrite Rlt_bool_true in H by exact BX. destruct H as (H1 & H2 & H3).
    apply B2R_Bsign_inj.
    + unfold f_mul, float. rewrite H2. change (is_finite (f_ofZ 1)) with (finite (f_ofZ 1)). rewrite O2. exact FX.
    + exact FX.
    + transitivity (rnd (val x)); [exact H1 | exact RI].
    + unfold f_mul. rewrite H3; [destruct s; reflexivity |].
      destruct (is_nan (Bmult mode_NE (f_ofZ 1) x)) eqn:N; [| reflexivity].
      assert (is_finite (Bmult mode_NE (f_ofZ 1) x) = true) by (rewrite H2; change (is_finite (f_ofZ 1)) with (finite (f_ofZ 1)); rewrite O2; exact FX).
      destruct (Bmult mode_NE (f_ofZ 1) x); discriminate.
Qed.
Lemma conv_same m x : ufrom m m x = x.
Proof. unfold ufrom. rewrite ratio_same. apply one_mul. Qed.

(** ** Order *)
Lemma mul_key r x : finite r = true -> 0 < val r -> finite x = true ->
  f_isnan (f_mul r x) = false /\
  key (f_mul r x) = if Rlt_bool (Rabs (rnd (val r * val x))) big then rnd (val r * val x)
                    else if Rlt_bool (val x) 0 then - bpow radix2 129 else bpow radix2 129.
Proof.
  intros Fr Pr Fx. destruct (Rlt_bool_spec (Rabs (rnd (val r * val x))) big) as [L | L].
  - destruct (mul_val r x Fr Fx L) as [V F]. split; [apply finite_nan; exact F |]. rewrite key_fin by exact F. exact V.
  - pose proof (Bmult_correct 24 128 prec24 emax128 mode_NE r x) as H. rewrite Rlt_bool_false in H by exact L.
    assert (NZ : val x <> 0).
    { intros Z. rewrite Z, Rmult_0_r, rnd_0, Rabs_R0 in L. unfold big in L. pose proof (bpow_gt_0 radix2 128). lra. }
    assert (SR : Bsign r = false).
    { destruct r as [s | s | | s m e b]; try discriminate; [exfalso; cbn in Pr; lra |]. destruct s; [| reflexivity].
      exfalso. unfold val in Pr. cbn [B2R] in Pr. pose proof (F2R_lt_0 radix2 (Float radix2 (Z.neg m) e)) as N. cbn in N. specialize (N eq_refl). cbn in Pr. lra. }
    assert (SX : Bsign x = Rlt_bool (val x) 0).
    { destruct x as [s | s | | s m e b]; try discriminate; [exfalso; apply NZ; reflexivity |]. destruct s; cbn [Bsign]; symmetry.
      - apply Rlt_bool_true. apply (F2R_lt_0 radix2 (Float radix2 (Z.neg m) e)). reflexivity.
      - apply Rlt_bool_false. left. apply (F2R_gt_0 radix2 (Float radix2 (Z.pos m) e)). reflexivity. }
    change (f_mul r x) with (Bmult mode_NE r x). rewrite SR, SX in H. cbn [xorb] in H.
    revert H. destruct (Rlt_bool (val x) 0); cbn; intros H; destruct (Bmult mode_NE r x) as [s | s | | s m e b]; try discriminate H;
      injection H as ->; split; reflexivity.
Qed.

Lemma mul_mono r x y : finite r = true -> 0 < val r -> f_le x y = true -> f_le (f_mul r x) (f_mul r y) = true.
Proof.
  intros Fr Pr L. destruct (le_nan x y L) as [Nx Ny]. apply key_le in L; [| assumption | assumption].
  assert (RP : forall s, f_mul r (B754_infinity s) = B754_infinity s).
  { intros s. assert (SR : Bsign r = false /\ r <> B754_zero false /\ r <> B754_zero true).
    { destruct r as [b | b | | b m e h]; try discriminate; [exfalso; cbn in Pr; lra |]. destruct b; [| repeat split; discriminate].
      exfalso. pose proof (F2R_lt_0 radix2 (Float radix2 (Z.neg m) e) eq_refl) as N. unfold val in Pr. cbn in Pr, N. lra. }
    destruct r as [b | b | | b m e h]; try discriminate; destruct SR as (S1 & S2 & S3).
    - destruct b; congruence.
    - cbn in S1. subst b. destruct s; reflexivity. }
  pose proof (bpow_gt_0 radix2 129) as P29.
  assert (BG : big < bpow radix2 129) by (apply bpow_lt; lia).
  assert (KB : forall z, f_isnan z = false -> - bpow radix2 129 <= key z <= bpow radix2 129).
  { intros z _. assert (W := val_big z). apply Rabs_lt_inv in W. destruct z as [| [|] | |]; cbn [key] in *; lra. }
  assert (N : forall z, f_isnan z = false -> f_isnan (f_mul r z) = false).
  { intros z Nz. destruct (finite z) eqn:Fz; [apply mul_key; assumption |]. destruct z as [| s | |]; try discriminate. rewrite RP. reflexivity. }
  apply key_le; [apply N; exact Nx | apply N; exact Ny |].
  destruct (finite x) eqn:Fx, (finite y) eqn:Fy.
  - rewrite (proj2 (mul_key r x Fr Pr Fx)), (proj2 (mul_key r y Fr Pr Fy)). rewrite (key_fin x Fx), (key_fin y Fy) in L.
    assert (M : rnd (val r * val x) <= rnd (val r * val y)) by (apply rnd_le, Rmult_le_compat_l; lra).
    assert (Px : 0 <= val x -> 0 <= rnd (val r * val x)) by (intros; apply rnd_nonneg, Rmult_le_pos; lra).
    assert (Qy : val y < 0 -> rnd (val r * val y) <= 0).
    { intros. rewrite <- rnd_0. apply rnd_le. assert (0 <= val r * - val y) by (apply Rmult_le_pos; lra). lra. }
    assert (Qx : val x < 0 -> rnd (val r * val x) <= 0).
    { intros. rewrite <- rnd_0. apply rnd_le. assert (0 <= val r * - val x) by (apply Rmult_le_pos; lra). lra. }
    assert (Py : 0 <= val y -> 0 <= rnd (val r * val y)) by (intros; apply rnd_nonneg, Rmult_le_pos; lra).
    destruct (Rlt_bool_spec (Rabs (rnd (val r * val x))) big) as [X | X], (Rlt_bool_spec (Rabs (rnd (val r * val y))) big) as [Y | Y];
      try apply Rabs_lt_inv in X; try apply Rabs_lt_inv in Y;
      try (destruct (Rlt_bool_spec (val x) 0) as [SX | SX]); try (destruct (Rlt_bool_spec (val y) 0) as [SY | SY]); try lra.
    + exfalso. specialize (Qy SY). rewrite Rabs_left1 in Y by lra. lra.
    + exfalso. specialize (Px SX). rewrite Rabs_pos_eq in X by lra. lra.
  - destruct y as [| s | |]; try discriminate. rewrite RP. destruct s; [| apply KB, N; exact Nx].
    exfalso. rewrite (key_fin x Fx) in L. cbn [key] in L. assert (W := val_big x). apply Rabs_lt_inv in W. lra.
  - destruct x as [| s | |]; try discriminate. rewrite RP. destruct s; [apply KB, N; exact Ny |].
    exfalso. rewrite (key_fin y Fy) in L. cbn [key] in L. assert (W := val_big y). apply Rabs_lt_inv in W. lra.
  - destruct x as [| s | |], y as [| s' | |]; try discriminate. rewrite !RP. exact L.
Qed.

Lemma ratio_pos o t : finite (uratio o t) = true /\ 0 < val (uratio o t).
Proof.
  destruct (ratio_near o t) as (q & Q & E & F). split; [exact F |]. rewrite E. pose proof (near_pos _ _ Q). pose proof (factor_pos o). pose proof (factor_pos t).
  apply Rmult_lt_0_compat; [apply Rdiv_lt_0_compat; assumption | assumption].
Qed.
Lemma conv_mono o t x y : f_le x y = true -> f_le (ufrom o t x) (ufrom o t y) = true.
Proof. destruct (ratio_pos o t) as [F P]. apply mul_mono; assumption. Qed.

(** ** Compounds *)
Lemma part_mul x y : part x -> part y -> exists q, near 1 q /\ val (f_mul x y) = val x * val y * q /\ finite (f_mul x y) = true /\
  Rabs (val (f_mul x y)) <= bpow radix2 120.
Proof.
  intros [Fx X] [Fy Y]. change (/ IZR (2 ^ 60)) with (bpow radix2 (-60)) in *. change (IZR (2 ^ 60)) with (bpow radix2 60) in *.
  assert (B : Rabs (val x * val y) <= bpow radix2 120).
  { rewrite Rabs_mult. replace 120%Z with (60 + 60)%Z by reflexivity. rewrite bpow_plus.
    assert (G := bpow_gt_0 radix2 60).
    apply Rmult_le_compat; try apply Rabs_pos; [destruct X as [-> | X] | destruct Y as [-> | Y]]; try rewrite Rabs_R0; lra. }
  destruct (mul_val x y Fx Fy) as [V F]; [apply (rnd_small _ 120); [lia | exact B] |].
  destruct (rnd_near_0 (val x * val y)) as (q & Q & E).
  { destruct X as [X | X]; [left; rewrite X; ring |]. destruct Y as [Y | Y]; [left; rewrite Y; ring |]. right. rewrite Rabs_mult.
    apply Rle_trans with (bpow radix2 (-60) * bpow radix2 (-60)); [rewrite <- bpow_plus; apply bpow_le; lia |].
    apply Rmult_le_compat; try apply bpow_ge_0; lra. }
  exists q. split; [exact Q |]. split; [rewrite V; exact E |]. split; [exact F |]. rewrite V. apply rnd_bound; [lia | exact B].
Qed.

Lemma part_nz x : part x -> val x <> 0 -> bpow radix2 (-60) <= Rabs (val x).
Proof. intros [_ [H | [H _]]] N; [contradiction | exact H]. Qed.

Lemma add_near x y : finite x = true -> finite y = true -> Rabs (val x) <= bpow radix2 120 -> Rabs (val y) <= bpow radix2 120 ->
  exists q, near 1 q /\ val (f_add x y) = (val x + val y) * q /\ finite (f_add x y) = true.
Proof.
  intros Fx Fy X Y. destruct (rnd_near_plus (val x) (val y) (val_fmt x) (val_fmt y)) as (q & Q & E).
  destruct (add_val x y Fx Fy) as [V F].
  { apply (rnd_small _ 121); [lia |]. apply Rle_trans with (1 := Rabs_triang _ _). replace 121%Z with (120 + 1)%Z by reflexivity. rewrite <- bpow_double. lra. }
  exists q. split; [exact Q |]. split; [rewrite V; exact E | exact F].
Qed.
Lemma sub_near x y : finite x = true -> finite y = true -> Rabs (val x) <= bpow radix2 120 -> Rabs (val y) <= bpow radix2 120 ->
  exists q, near 1 q /\ val (f_sub x y) = (val x - val y) * q /\ finite (f_sub x y) = true.
Proof.
  intros Fx Fy X Y. destruct (rnd_near_plus (val x) (- val y) (val_fmt x) (fmt_opp _ (val_fmt y))) as (q & Q & E).
  destruct (sub_val x y Fx Fy) as [V F].
  { apply (rnd_small _ 121); [lia |]. unfold Rminus. apply Rle_trans with (1 := Rabs_triang _ _). rewrite Rabs_Ropp. replace 121%Z with (120 + 1)%Z by reflexivity. rewrite <- bpow_double. lra. }
  exists q. split; [exact Q |]. split; [rewrite V; exact E | exact F].
Qed.

(** The two terms of a sum with their errors *)
Lemma sum_error a b p q k : (k <= 4000)%nat -> near k p -> near k q ->
  Rabs (a * p + b * q - (a + b)) <= (INR k + 1) * u * (Rabs a + Rabs b).
Proof.
  intros K P Q. replace (a * p + b * q - (a + b)) with (a * (p - 1) + b * (q - 1)) by ring.
  apply Rle_trans with (1 := Rabs_triang _ _). rewrite !Rabs_mult.
  pose proof (near_bound k p K P). pose proof (near_bound k q K Q). pose proof (Rabs_pos a). pose proof (Rabs_pos b). nra.
Qed.

Lemma near_nz k q : near k q -> q <> 0. Proof. intros H. pose proof (near_pos _ _ H). lra. Qed.

(** Sum and difference of a and b with b in the same units *)
Lemma add_parts a b : sane a -> sane b ->
  exists n d, n = f_add (f_mul (num a) (den b)) (f_mul (num b) (den a)) /\ d = f_mul (den a) (den b) /\
  finite n = true /\ finite d = true /\ val d <> 0 /\
  exists p q, near 3 p /\ near 3 q /\ val n / val d = quotient a * p + quotient b * q.
Proof.
  intros (An & Ad & A0) (Bn & Bd & B0).
  destruct (part_mul (num a) (den b) An Bd) as (q1 & Q1 & E1 & F1 & L1).
  destruct (part_mul (num b) (den a) Bn Ad) as (q2 & Q2 & E2 & F2 & L2).
  destruct (part_mul (den a) (den b) Ad Bd) as (q4 & Q4 & E4 & F4 & L4).
  destruct (add_near _ _ F1 F2 L1 L2) as (q3 & Q3 & E3 & F3).
  do 2 eexists. split; [reflexivity |]. split; [reflexivity |]. split; [exact F3 |]. split; [exact F4 |].
  assert (D0 : val (f_mul (den a) (den b)) <> 0) by (rewrite E4; repeat apply Rmult_integral_contrapositive_currified; try assumption; apply (near_nz 1); assumption).
  split; [exact D0 |]. exists (q1 * q3 / q4), (q2 * q3 / q4).
  split; [apply (near_div 2 1); [apply (near_mul 1 1); assumption | assumption] |].
  split; [apply (near_div 2 1); [apply (near_mul 1 1); assumption | assumption] |].
  rewrite E3, E1, E2, E4. unfold quotient. field. repeat split; try assumption. apply (near_nz 1); assumption.
Qed.
Lemma sub_parts a b : sane a -> sane b ->
  exists n d, n = f_sub (f_mul (num a) (den b)) (f_mul (num b) (den a)) /\ d = f_mul (den a) (den b) /\
  finite n = true /\ finite d = true /\ val d <> 0 /\
  exists p q, near 3 p /\ near 3 q /\ val n / val d = quotient a * p + - quotient b * q.
Proof.
  intros (An & Ad & A0) (Bn & Bd & B0).
  destruct (part_mul (num a) (den b) An Bd) as (q1 & Q1 & E1 & F1 & L1).
  destruct (part_mul (num b) (den a) Bn Ad) as (q2 & Q2 & E2 & F2 & L2).
  destruct (part_mul (den a) (den b) Ad Bd) as (q4 & Q4 & E4 & F4 & L4).
  destruct (sub_near _ _ F1 F2 L1 L2) as (q3 & Q3 & E3 & F3).
  do 2 eexists. split; [reflexivity |]. split; [reflexivity |]. split; [exact F3 |]. split; [exact F4 |].
  assert (D0 : val (f_mul (den a) (den b)) <> 0) by (rewrite E4; repeat apply Rmult_integral_contrapositive_currified; try assumption; apply (near_nz 1); assumption).
  split; [exact D0 |]. exists (q1 * q3 / q4), (q2 * q3 / q4).
  split; [apply (near_div 2 1); [apply (near_mul 1 1); assumption | assumption] |].
  split; [apply (near_div 2 1); [apply (near_mul 1 1); assumption | assumption] |].
  rewrite E3, E1, E2, E4. unfold quotient. field. repeat split; try assumption. apply (near_nz 1); assumption.
Qed.

Lemma rnd_bounded_error x e : (-100 <= e)%Z -> Rabs x < bpow radix2 e -> Rabs (rnd x - x) <= bpow radix2 (e - 25).
Proof.
  intros E H. apply Rle_trans with (/ 2 * ulp radix2 (FLT_exp (-149) 24) x); [apply error_le_half_ulp; typeclasses eauto |].
  replace (bpow radix2 (e - 25)) with (/ 2 * bpow radix2 (e - 24)).
  2:{ replace (e - 24)%Z with (e - 25 + 1)%Z by ring. rewrite <- bpow_double. lra. }
  apply Rmult_le_compat_l; [lra |].
  apply Rle_trans with (ulp radix2 (FLT_exp (-149) 24) (bpow radix2 (e - 1))).
  - destruct (Req_dec x 0) as [-> | N].
    + rewrite ulp_FLT_0 by reflexivity. rewrite ulp_bpow. apply bpow_le. unfold FLT_exp. lia.
    + rewrite !ulp_neq_0; [| apply Rgt_not_eq, bpow_gt_0 | exact N]. apply bpow_le. unfold cexp, FLT_exp. rewrite mag_bpow.
      assert (Raux.mag radix2 x <= e)%Z by (apply mag_le_bpow; assumption). lia.
  - rewrite ulp_bpow. apply bpow_le. unfold FLT_exp. lia.
Qed.

Lemma conv_compound nt dt no do c :
  finite (num c) = true -> (val (num c) = 0 \/ bpow radix2 (-125) <= Rabs (val (num c) * (factor no / factor nt)) <= bpow radix2 126) ->
  finite (den c) = true -> bpow radix2 (-125) <= Rabs (val (den c) * (factor do / factor dt)) <= bpow radix2 126 ->
  exists q, near 8 q /\ quotient (cconv nt dt no do c) = quotient c * (factor no / factor nt / (factor do / factor dt)) * q.
Proof.
  intros Fn Hn Fd Hd. destruct (conv_near no nt _ Fn Hn) as (p & P & E & _). destruct (conv_near do dt _ Fd (or_intror Hd)) as (q & Q & E' & _).
  exists (p / q). split; [apply (near_div 4 4); assumption |]. unfold quotient, cconv; cbn [UnitModel.num UnitModel.den]. rewrite E, E'.
  assert (val (den c) <> 0). { intros Z. rewrite Z, Rmult_0_l, Rabs_R0 in Hd. pose proof (bpow_gt_0 radix2 (-125)). lra. }
  pose proof (factor_pos no). pose proof (factor_pos nt). pose proof (factor_pos do). pose proof (factor_pos dt). pose proof (near_pos _ _ Q).
  field. repeat split; lra.
Qed.

Lemma cconv_same nt dt c : cconv nt dt nt dt c = c.
Proof. destruct c. unfold cconv; cbn [UnitModel.num UnitModel.den]. rewrite !conv_same. reflexivity. Qed.
Lemma csub_eq nt dt no do a b : let b' := cconv nt dt no do b in
  csub nt dt no do a b = mkCu (f_sub (f_mul (num a) (den b')) (f_mul (num b') (den a))) (f_mul (den a) (den b')).
Proof. unfold csub, usub, uscale; cbn zeta. rewrite conv_same. reflexivity. Qed.

Lemma add_same nt dt a b : sane a -> sane b ->
  Rabs (quotient (cadd nt dt nt dt a b) - (quotient a + quotient b)) <= 4 / IZR (2 ^ 24) * (Rabs (quotient a) + Rabs (quotient b)).
Proof.
  intros A B. destruct (add_parts a b A B) as (n & d & -> & -> & _ & _ & _ & p & q & P & Q & E).
  unfold cadd; cbn zeta. rewrite cconv_same. unfold quotient at 1; cbn [UnitModel.num UnitModel.den]. rewrite E.
  apply Rle_trans with (1 := sum_error _ _ p q 3 ltac:(lia) P Q). right. rewrite u_val. cbn [INR]. unfold Rdiv. ring.
Qed.
Lemma sub_same nt dt a b : sane a -> sane b ->
  Rabs (quotient (csub nt dt nt dt a b) - (quotient a - quotient b)) <= 4 / IZR (2 ^ 24) * (Rabs (quotient a) + Rabs (quotient b)).
Proof.
  intros A B. destruct (sub_parts a b A B) as (n & d & -> & -> & _ & _ & _ & p & q & P & Q & E).
  rewrite csub_eq; cbn zeta. rewrite cconv_same. unfold quotient at 1; cbn [UnitModel.num UnitModel.den]. rewrite E.
  replace (quotient a - quotient b) with (quotient a + - quotient b) by ring.
  apply Rle_trans with (1 := sum_error _ _ p q 3 ltac:(lia) P Q). rewrite Rabs_Ropp. right. rewrite u_val. cbn [INR]. unfold Rdiv. ring.
Qed.

(** In different units *)
Lemma add_units nt dt no do a b : sane a -> fits nt dt no do b -> sane (cconv nt dt no do b) ->
  let b' := quotient b * (factor no / factor nt / (factor do / factor dt)) in
  Rabs (quotient (cadd nt dt no do a b) - (quotient a + b')) <= 12 / IZR (2 ^ 24) * (Rabs (quotient a) + Rabs b').
Proof.
  intros A ((F1 & F2) & (F3 & [F4 | F4]) & F5) B b'; [contradiction |]. destruct (conv_compound nt dt no do b F1 F2 F3 F4) as (s & S & ES). fold b' in ES.
  destruct (add_parts a _ A B) as (n & d & -> & -> & _ & _ & _ & p & q & P & Q & E).
  unfold cadd; cbn zeta. unfold quotient at 1; cbn [UnitModel.num UnitModel.den]. rewrite E, ES. rewrite Rmult_assoc.
  eapply Rle_trans; [apply (sum_error _ _ p (s * q) 11); [lia | apply (near_up 3); [lia | exact P] | apply (near_mul 8 3); assumption] |].
  right. rewrite u_val. cbn [INR]. unfold Rdiv. ring.
Qed.
Lemma sub_units nt dt no do a b : sane a -> fits nt dt no do b -> sane (cconv nt dt no do b) ->
  let b' := quotient b * (factor no / factor nt / (factor do / factor dt)) in
  Rabs (quotient (csub nt dt no do a b) - (quotient a - b')) <= 12 / IZR (2 ^ 24) * (Rabs (quotient a) + Rabs b').
Proof.
  intros A ((F1 & F2) & (F3 & [F4 | F4]) & F5) B b'; [contradiction |]. destruct (conv_compound nt dt no do b F1 F2 F3 F4) as (s & S & ES). fold b' in ES.
  destruct (sub_parts a _ A B) as (n & d & -> & -> & _ & _ & _ & p & q & P & Q & E).
  rewrite csub_eq; cbn zeta. unfold quotient at 1; cbn [UnitModel.num UnitModel.den]. rewrite E, ES.
  replace (quotient a - b') with (quotient a + - b') by ring. replace (- (b' * s) * q) with (- b' * (s * q)) by ring.
  eapply Rle_trans; [apply (sum_error _ _ p (s * q) 11); [lia | apply (near_up 3); [lia | exact P] | apply (near_mul 8 3); assumption] |].
  rewrite Rabs_Ropp. right. rewrite u_val. cbn [INR]. unfold Rdiv. ring.
Qed.

Lemma neg_quotient c : quotient (cneg c) = - quotient c.
Proof. unfold quotient, cneg, uneg, f_neg, val; cbn [UnitModel.num UnitModel.den]. rewrite B2R_Bopp. unfold Rdiv. rewrite Rinv_opp. ring. Qed.

Lemma scale_quotient c s : sane c -> part s -> within 2 (quotient (cscale c s)) (quotient c * val s).
Proof.
  intros (N & D & D0) S. destruct (part_mul (num c) s N S) as (q & Q & E & _). unfold quotient, cscale, uscale; cbn [UnitModel.num UnitModel.den].
  rewrite E. replace (val (num c) * val s * q / val (den c)) with (val (num c) / val (den c) * val s * q) by (field; exact D0).
  apply (near_within 1); [lia | exact Q].
Qed.

Lemma inv60 : / bpow radix2 60 = bpow radix2 (-60). Proof. reflexivity. Qed.
Lemma inv_60 : / bpow radix2 (-60) = bpow radix2 60. Proof. symmetry. apply (bpow_opp radix2 (-60)). Qed.
Lemma inv64 : / bpow radix2 64 = bpow radix2 (-64). Proof. reflexivity. Qed.
Lemma part_div x y : part x -> part y -> val y <> 0 -> exists q, near 1 q /\ val (f_div x y) = val x / val y * q /\ finite (f_div x y) = true.
Proof.
  intros [Fx X] [Fy Y] Y0. change (/ IZR (2 ^ 60)) with (bpow radix2 (-60)) in *. change (IZR (2 ^ 60)) with (bpow radix2 60) in *.
  destruct Y as [Y | [Y1 Y2]]; [contradiction |]. assert (G := bpow_gt_0 radix2 (-60)). assert (G' := bpow_gt_0 radix2 60).
  assert (IY : bpow radix2 (-60) <= / Rabs (val y) <= bpow radix2 60).
  { split.
    - rewrite <- inv60. apply Rinv_le_contravar; lra.
    - rewrite <- inv_60. apply Rinv_le_contravar; lra. }
  assert (A : Rabs (val x / val y) = Rabs (val x) * / Rabs (val y)) by (unfold Rdiv; rewrite Rabs_mult, Rabs_inv; reflexivity).
  destruct (div_val x y Fx Fy Y0) as [V F].
  { apply (rnd_small _ 120); [lia |]. rewrite A. replace 120%Z with (60 + 60)%Z by reflexivity. rewrite bpow_plus.
    apply Rmult_le_compat; [apply Rabs_pos | lra | destruct X as [-> | X]; [rewrite Rabs_R0 |]; lra | lra]. }
  destruct (rnd_near_0 (val x / val y)) as (q & Q & E).
  { destruct X as [X | X]; [left; rewrite X; unfold Rdiv; ring |]. right. rewrite A.
    apply Rle_trans with (bpow radix2 (-60) * bpow radix2 (-60)); [rewrite <- bpow_plus; apply bpow_le; lia |]. apply Rmult_le_compat; lra. }
  exists q. split; [exact Q |]. split; [rewrite V; exact E | exact F].
Qed.

Lemma eq_zero x : finite x = true -> f_eq x f_zero = Req_bool (val x) 0.
Proof. intros F. rewrite eq_val by (assumption || reflexivity). reflexivity. Qed.
Lemma eq_zero_false x : finite x = true -> val x <> 0 -> f_eq x f_zero = false.
Proof. intros F N. rewrite eq_zero by exact F. apply Req_bool_false. exact N. Qed.

Lemma div_quotient c s : sane c -> part s -> val s <> 0 -> exists c', cdiv_scalar c s = Ok c' /\ within 2 (quotient c') (quotient c / val s).
Proof.
  intros (N & D & D0) S S0. destruct (part_div (num c) s N S S0) as (q & Q & E & _).
  unfold cdiv_scalar, udiv_scalar. rewrite (eq_zero_false s) by (apply S || exact S0). cbn [bind]. eexists. split; [reflexivity |].
  unfold quotient; cbn [UnitModel.num UnitModel.den]. rewrite E. replace (val (num c) / val s * q / val (den c)) with (val (num c) / val (den c) / val s * q) by (field; split; assumption).
  apply (near_within 1); [lia | exact Q].
Qed.

Lemma raw_val c : sane c -> exists r, craw c = Ok r /\ finite r = true /\ val r = rnd (quotient c) /\ within 2 (val r) (quotient c).
Proof.
  intros (N & D & D0). destruct (part_div (num c) (den c) N D D0) as (q & Q & E & F).
  unfold craw. rewrite (eq_zero_false (den c)) by (apply D || exact D0). eexists. split; [reflexivity |]. split; [exact F |]. split.
  - unfold quotient. destruct (div_val (num c) (den c)) as [V _]; [apply N | apply D | exact D0 | | exact V].
    (* the quotient was finite: no overflow *)
    destruct N as [_ X]. destruct D as [_ Y]. change (/ IZR (2 ^ 60)) with (bpow radix2 (-60)) in *. change (IZR (2 ^ 60)) with (bpow radix2 60) in *.
    destruct Y as [Y | [Y1 Y2]]; [contradiction |]. assert (G := bpow_gt_0 radix2 (-60)). assert (G' := bpow_gt_0 radix2 60).
    apply (rnd_small _ 120); [lia |]. unfold Rdiv. rewrite Rabs_mult, Rabs_inv. replace 120%Z with (60 + 60)%Z by reflexivity. rewrite bpow_plus.
    apply Rmult_le_compat; [apply Rabs_pos | left; apply Rinv_0_lt_compat; lra | destruct X as [-> | X]; [rewrite Rabs_R0 |]; lra |].
    rewrite <- inv_60. apply Rinv_le_contravar; lra.
  - unfold quotient. rewrite E. apply (near_within 1); [lia | exact Q].
Qed.

Lemma compound_order a b : sane a -> sane b ->
  (clt a b = Ok true -> quotient a < quotient b) /\ (quotient a <= quotient b -> cle a b = Ok true) /\
  (cgt a b = Ok true -> quotient b < quotient a) /\ (quotient b <= quotient a -> cge a b = Ok true).
Proof.
  intros A B. destruct (raw_val a A) as (x & Rx & Fx & Vx & _). destruct (raw_val b B) as (y & Ry & Fy & Vy & _).
  unfold clt, cle, cgt, cge, ccmp. rewrite Rx, Ry; cbn [bind]. unfold f_gt, f_ge. fold (f_lt y x) (f_le y x).
  rewrite (lt_val x y), (lt_val y x), (le_val x y), (le_val y x), Vx, Vy by assumption.
  split; [| split; [| split]]; intros H.
  - apply Rnot_le_lt. intros C. apply rnd_le in C. rewrite Rlt_bool_false in H by exact C. discriminate.
  - rewrite Rle_bool_true; [reflexivity | apply rnd_le; exact H].
  - apply Rnot_le_lt. intros C. apply rnd_le in C. rewrite Rlt_bool_false in H by exact C. discriminate.
  - rewrite Rle_bool_true; [reflexivity | apply rnd_le; exact H].
Qed.

(** ** simplify *)
Lemma ofZ_range n : (1 <= n <= 2 ^ 64)%Z -> finite (f_ofZ n) = true /\ 1 <= val (f_ofZ n) <= bpow radix2 64.
Proof.
  intros H. assert (H' : (Z.abs n <= 2 ^ 127)%Z) by (rewrite Z.abs_eq by lia; apply Z.le_trans with (2 ^ 64)%Z; [lia | now vm_compute]).
  destruct (ofZ_val n H') as [V F]. split; [exact F |]. rewrite V. destruct H as [H1 H2]. apply IZR_le in H1, H2. split.
  - rewrite <- (rnd_id 1) by (apply (fmt_bpow 0); lia). apply rnd_le. exact H1.
  - rewrite <- (rnd_id (bpow radix2 64)) by (apply fmt_bpow; lia). apply rnd_le. exact H2.
Qed.
Lemma div_wide x g : part x -> finite g = true -> 1 <= val g <= bpow radix2 64 ->
  exists q, near 1 q /\ val (f_div x g) = val x / val g * q /\ finite (f_div x g) = true.
Proof.
  intros [Fx X] Fg [G1 G2]. change (/ IZR (2 ^ 60)) with (bpow radix2 (-60)) in *. change (IZR (2 ^ 60)) with (bpow radix2 60) in *.
  assert (IG : bpow radix2 (-64) <= / val g <= 1).
  { split; [rewrite <- inv64; apply Rinv_le_contravar; lra | rewrite <- Rinv_1; apply Rinv_le_contravar; lra]. }
  assert (A : Rabs (val x / val g) = Rabs (val x) * / val g).
  { unfold Rdiv. rewrite Rabs_mult, Rabs_inv, (Rabs_pos_eq (val g)); lra. }
  assert (P60 := bpow_gt_0 radix2 60). assert (Q60 := bpow_gt_0 radix2 (-60)). assert (P64 := bpow_gt_0 radix2 (-64)).
  destruct (div_val x g Fx Fg) as [V F]; [lra | |].
  { apply (rnd_small _ 60); [lia |]. rewrite A. rewrite <- (Rmult_1_r (bpow radix2 60)).
    apply Rmult_le_compat; [apply Rabs_pos | lra | destruct X as [-> | X]; [rewrite Rabs_R0 |]; lra | lra]. }
  destruct (rnd_near_0 (val x / val g)) as (q & Q & E).
  { destruct X as [X | X]; [left; rewrite X; unfold Rdiv; ring |]. right. rewrite A.
    apply Rle_trans with (bpow radix2 (-60) * bpow radix2 (-64)); [rewrite <- bpow_plus; apply bpow_le; lia |]. apply Rmult_le_compat; lra. }
  exists q. split; [exact Q |]. split; [rewrite V; exact E | exact F].
Qed.

Lemma simplify_quotient sf c c' : sane c -> csimplify sf c = Ok c' -> within 3 (quotient c') (quotient c).
Proof.
  intros (N & D & D0) H. unfold csimplify in H.
  destruct (scale_to_integer (num c) sf) as [a | | | |] eqn:A; try discriminate H. cbn [bind] in H.
  destruct (scale_to_integer (den c) sf) as [b | | | |] eqn:B; try discriminate H. cbn [bind] in H.
  assert (SA : forall x n, scale_to_integer x sf = Ok n -> (0 <= n < 2 ^ 64)%Z).
  { intros x n E. unfold scale_to_integer in E. destruct (f_round (f_mul x sf)) as [k |]; [| discriminate].
    destruct ((0 <=? k) && (k <? 2 ^ 64))%Z eqn:T; [| discriminate]. injection E as <-. apply andb_prop in T. destruct T as [T1 T2].
    apply Z.leb_le in T1. apply Z.ltb_lt in T2. lia. }
  pose proof (SA _ _ A) as RA. pose proof (SA _ _ B) as RB.
  set (g := Z.gcd a b) in *.
  assert (G0 : g <> 0%Z).
  { intros Z. rewrite Z in H. unfold udiv_scalar in H. change (f_eq (f_ofZ 0) f_zero) with true in H. discriminate H. }
  assert (GP : (1 <= g <= 2 ^ 64)%Z).
  { pose proof (Z.gcd_nonneg a b). fold g in H0. split; [lia |].
    destruct (Z.eq_dec a 0) as [-> | NA].
    - assert (NB : b <> 0%Z) by (intros ->; apply G0; reflexivity).
      assert (g <= b)%Z by (apply Z.divide_pos_le; [lia | apply Z.gcd_divide_r]). lia.
    - assert (g <= a)%Z by (apply Z.divide_pos_le; [lia | apply Z.gcd_divide_l]). lia. }
  destruct (ofZ_range g GP) as [FG RG].
  destruct (div_wide (num c) (f_ofZ g) N FG RG) as (p & P & EP & _). destruct (div_wide (den c) (f_ofZ g) D FG RG) as (q & Q & EQ & _).
  unfold udiv_scalar in H. rewrite (eq_zero_false (f_ofZ g) FG) in H by lra. cbn [bind] in H.
  assert (E : c' = mkCu (f_div (num c) (f_ofZ g)) (f_div (den c) (f_ofZ g))) by congruence. rewrite E.
  unfold quotient at 1; cbn [UnitModel.num UnitModel.den]. rewrite EP, EQ. pose proof (near_pos _ _ Q).
  replace (val (num c) / val (f_ofZ g) * p / (val (den c) / val (f_ofZ g) * q)) with (quotient c * (p / q)) by (unfold quotient; field; repeat split; lra).
  apply (near_within 2); [lia | apply (near_div 1 1); assumption].
Qed.

(** ** Rounding to integers *)
Lemma f_round_spec x : finite x = true -> exists n, f_round x = Some n /\ Rabs (IZR n - val x) <= / 2.
Proof.
  destruct x as [s | s | | s m e b]; intros F; try discriminate.
  - exists 0%Z. split; [reflexivity |]. unfold val; cbn. rewrite Rminus_0_r, Rabs_R0. lra.
  - unfold f_round. set (a := if (0 <=? e)%Z then _ else _). exists (if s then - a else a)%Z. split; [reflexivity |].
    assert (A : Rabs (IZR a - IZR (Z.pos m) * bpow radix2 e) <= / 2).
    { unfold a. destruct (Z.leb_spec 0 e) as [L | L].
      - rewrite mult_IZR. change (2 ^ e)%Z with (Zpower radix2 e). rewrite IZR_Zpower by exact L.
        rewrite Rminus_diag_eq, Rabs_R0 by reflexivity. lra.
      - cbv zeta. set (d := (2 ^ (- e))%Z). assert (D : (0 < d)%Z) by (apply Z.pow_pos_nonneg; lia).
        replace (bpow radix2 e) with (/ IZR d).
        2:{ unfold d. change (2 ^ (- e))%Z with (Zpower radix2 (- e)). rewrite IZR_Zpower by lia. rewrite bpow_opp, Rinv_inv. reflexivity. }
        set (q := ((2 * Z.pos m + d) / (2 * d))%Z). pose proof (Z.mod_pos_bound (2 * Z.pos m + d) (2 * d) ltac:(lia)) as MB.
        pose proof (Z.div_mod (2 * Z.pos m + d) (2 * d) ltac:(lia)) as DM. fold q in DM.
        assert (B1 : (2 * d * q <= 2 * Z.pos m + d)%Z) by lia. assert (B2 : (2 * Z.pos m + d < 2 * d * q + 2 * d)%Z) by lia.
        apply IZR_le in B1. apply IZR_lt in B2, D. repeat rewrite ?plus_IZR, ?mult_IZR in B1; repeat rewrite ?plus_IZR, ?mult_IZR in B2.
        apply Rabs_le. split; apply Rmult_le_reg_r with (IZR d); try exact D;
          rewrite Rmult_minus_distr_r, Rmult_assoc, (Rinv_l (IZR d)) by lra; lra. }
    unfold val. cbn [B2R]. unfold F2R; cbn [Fnum Fexp]. destruct s; cbn [SpecFloat.cond_Zopp cond_Zopp].
    + rewrite opp_IZR. change (Z.opp (Z.pos m)) with (- Z.pos m)%Z. rewrite opp_IZR.
      replace (- IZR a - - IZR (Z.pos m) * bpow radix2 e) with (- (IZR a - IZR (Z.pos m) * bpow radix2 e)) by ring. rewrite Rabs_Ropp. exact A.
    + exact A.
Qed.
Lemma f_round_int x n : finite x = true -> val x = IZR n -> f_round x = Some n.
Proof.
  intros F V. destruct (f_round_spec x F) as (k & E & B). rewrite E. f_equal. rewrite V, <- minus_IZR, <- abs_IZR in B.
  assert (Z.abs (k - n) < 1)%Z; [| lia]. apply lt_IZR. lra.
Qed.

(** simplify answers when both scaled parts fit and the denominator does not vanish *)
Lemma simplify_answers sf c : finite (num c) = true -> finite (den c) = true -> finite sf = true ->
  0 <= val (num c) * val sf <= bpow radix2 63 -> 1 <= val (den c) * val sf <= bpow radix2 63 ->
  exists c', csimplify sf c = Ok c'.
Proof.
  intros FN FD FS HN HD.
  assert (S : forall x, finite x = true -> 0 <= val x * val sf <= bpow radix2 63 ->
    exists n, scale_to_integer x sf = Ok n /\ (0 <= n)%Z /\ (1 <= val x * val sf -> (1 <= n)%Z)).
  { intros x Fx H. assert (NN : 0 <= rnd (val x * val sf)) by (apply rnd_nonneg; lra).
    assert (UP : rnd (val x * val sf) <= bpow radix2 63) by (rewrite <- (rnd_id (bpow radix2 63)) by (apply fmt_bpow; lia); apply rnd_le; lra).
    destruct (mul_val x sf Fx FS) as [V F].
    { rewrite Rabs_pos_eq by exact NN. apply Rle_lt_trans with (1 := UP). apply bpow_lt. lia. }
    destruct (f_round_spec _ F) as (n & E & B). rewrite V in B. apply Rabs_le_inv in B.
    assert (N0 : (0 <= n)%Z). { assert (-1 < n)%Z; [| lia]. apply lt_IZR. lra. }
    assert (N1 : (n < 2 ^ 64)%Z).
    { apply lt_IZR. change (bpow radix2 63) with (IZR (2 ^ 63)) in UP. apply Rle_lt_trans with (IZR (2 ^ 63) + 1); [lra |].
      rewrite <- plus_IZR. apply IZR_lt. now vm_compute. }
    exists n. unfold scale_to_integer. rewrite E. replace ((0 <=? n) && (n <? 2 ^ 64))%Z with true by (symmetry; apply andb_true_intro; split; [apply Z.leb_le | apply Z.ltb_lt]; lia).
    split; [reflexivity |]. split; [exact N0 |]. intros G. assert (1 <= rnd (val x * val sf)) by (rewrite <- (rnd_id 1) by (apply (fmt_bpow 0); lia); apply rnd_le; exact G).
    assert (0 < n)%Z; [| lia]. apply lt_IZR. lra. }
  destruct (S _ FN HN) as (a & EA & A0 & _). destruct (S _ FD) as (b & EB & B0 & B1); [lra |].
  specialize (B1 (proj1 HD)). unfold csimplify. rewrite EA, EB; cbn [bind].
  assert (G : (1 <= Z.gcd a b <= 2 ^ 64)%Z).
  { assert (b < 2 ^ 64)%Z.
    { unfold scale_to_integer in EB. destruct (f_round (f_mul (den c) sf)) as [k |]; [| discriminate].
      destruct ((0 <=? k) && (k <? 2 ^ 64))%Z eqn:T; [| discriminate]. injection EB as <-. apply andb_prop in T. destruct T as [_ T2]. apply Z.ltb_lt in T2. exact T2. }
    pose proof (Z.gcd_nonneg a b). assert (Z.gcd a b <> 0)%Z by (intros Z0; apply Z.gcd_eq_0_r in Z0; lia).
    assert (Z.gcd a b <= b)%Z by (apply Z.divide_pos_le; [lia | apply Z.gcd_divide_r]). lia. }
  destruct (ofZ_range _ G) as [FG RG]. unfold udiv_scalar. rewrite (eq_zero_false _ FG) by lra. cbn [bind]. eexists; reflexivity.
Qed.

(** Whole parts: exact *)
Lemma whole_mul x y m n : whole 11 x m -> whole 11 y n -> finite (f_mul x y) = true /\ val (f_mul x y) = IZR (m * n) /\ (Z.abs (m * n) <= 2 ^ 22)%Z.
Proof.
  intros (Fx & X & Bx) (Fy & Y & By).
  assert (L : (Z.abs (m * n) <= 2 ^ 22)%Z) by (rewrite Z.abs_mul; change (2 ^ 22)%Z with (2 ^ 11 * 2 ^ 11)%Z; apply Z.mul_le_mono_nonneg; lia).
  assert (G : fmt (IZR (m * n))) by (apply fmt_Z; change (2 ^ 22)%Z with 4194304%Z in L; change (2 ^ 24)%Z with 16777216%Z; lia).
  assert (E : val x * val y = IZR (m * n)) by (rewrite X, Y, mult_IZR; reflexivity).
  destruct (mul_val x y Fx Fy) as [V F].
  { rewrite E. apply (rnd_small _ 22); [lia |]. rewrite <- abs_IZR. change (bpow radix2 22) with (IZR (2 ^ 22)). apply IZR_le. exact L. }
  split; [exact F |]. split; [| exact L]. rewrite V, E. apply rnd_id. exact G.
Qed.
Lemma whole_sum (op : bool) x y m n : finite x = true -> val x = IZR m -> finite y = true -> val y = IZR n -> (Z.abs m <= 2 ^ 22)%Z -> (Z.abs n <= 2 ^ 22)%Z ->
  val (if op then f_add x y else f_sub x y) = IZR (if op then m + n else m - n).
Proof.
  intros Fx X Fy Y M N. set (k := (if op then m + n else m - n)%Z).
  assert (L : (Z.abs k <= 2 ^ 23)%Z) by (unfold k; change (2 ^ 22)%Z with 4194304%Z in *; change (2 ^ 23)%Z with 8388608%Z; destruct op; lia).
  assert (G : fmt (IZR k)) by (apply fmt_Z; change (2 ^ 23)%Z with 8388608%Z in L; change (2 ^ 24)%Z with 16777216%Z; lia).
  assert (S : Rabs (rnd (IZR k)) < big).
  { apply (rnd_small _ 23); [lia |]. rewrite <- abs_IZR. change (bpow radix2 23) with (IZR (2 ^ 23)). apply IZR_le. exact L. }
  destruct op.
  - assert (E : val x + val y = IZR k) by (rewrite X, Y; unfold k; rewrite plus_IZR; reflexivity).
    destruct (add_val x y Fx Fy) as [V _]; [rewrite E; exact S |]. rewrite V, E. apply rnd_id, G.
  - assert (E : val x - val y = IZR k) by (rewrite X, Y; unfold k; rewrite minus_IZR; reflexivity).
    destruct (sub_val x y Fx Fy) as [V _]; [rewrite E; exact S |]. rewrite V, E. apply rnd_id, G.
Qed.
Lemma whole_compound nt dt a b an ad bn bd : whole 11 (num a) an -> whole 11 (den a) ad -> whole 11 (num b) bn -> whole 11 (den b) bd ->
  ad <> 0%Z -> bd <> 0%Z ->
  quotient (cadd nt dt nt dt a b) = quotient a + quotient b /\ quotient (csub nt dt nt dt a b) = quotient a - quotient b.
Proof.
  intros AN AD BN BD A0 B0. rewrite csub_eq. unfold cadd; cbn zeta. rewrite cconv_same.
  destruct (whole_mul _ _ _ _ AN BD) as (F1 & V1 & L1). destruct (whole_mul _ _ _ _ BN AD) as (F2 & V2 & L2). destruct (whole_mul _ _ _ _ AD BD) as (F3 & V3 & L3).
  pose proof (whole_sum true _ _ _ _ F1 V1 F2 V2 L1 L2) as S1. pose proof (whole_sum false _ _ _ _ F1 V1 F2 V2 L1 L2) as S2. cbv iota in S1, S2.
  unfold quotient; cbn [UnitModel.num UnitModel.den]. rewrite S1, S2, V3, (proj1 (proj2 AN)), (proj1 (proj2 AD)), (proj1 (proj2 BN)), (proj1 (proj2 BD)).
  apply not_0_IZR in A0, B0. rewrite plus_IZR, minus_IZR, !mult_IZR. split; field; split; assumption.
Qed.

(** Whole parts, scaling factor 1: lowest terms *)
Lemma simplify_whole c n d : whole 24 (num c) n -> whole 24 (den c) d -> (0 <= n)%Z -> (0 < d)%Z ->
  exists c', csimplify (f_ofZ 1) c = Ok c' /\ val (num c') = IZR (n / Z.gcd n d) /\ val (den c') = IZR (d / Z.gcd n d).
Proof.
  intros (FN & VN & LN) (FD & VD & LD) N0 D0.
  assert (S : forall x k, finite x = true -> val x = IZR k -> (0 <= k <= 2 ^ 24)%Z -> scale_to_integer x (f_ofZ 1) = Ok k).
  { intros x k F V K. destruct (ofZ_exact 1) as [O1 O2]; [now vm_compute |].
    destruct (mul_val x (f_ofZ 1) F O2) as [W FW].
    { rewrite O1, Rmult_1_r. rewrite rnd_id by apply val_fmt. apply (abs_B2R_lt_emax 24 128 x). }
    rewrite O1, Rmult_1_r, rnd_id in W by apply val_fmt. rewrite V in W.
    unfold scale_to_integer. rewrite (f_round_int _ k FW W).
    replace ((0 <=? k) && (k <? 2 ^ 64))%Z with true; [reflexivity |]. symmetry. apply andb_true_intro. split; [apply Z.leb_le; lia |].
    apply Z.ltb_lt. apply Z.le_lt_trans with (2 ^ 24)%Z; [lia | now vm_compute]. }
  unfold csimplify. rewrite (S (num c) n FN VN), (S (den c) d FD VD) by lia. cbn [bind].
  set (g := Z.gcd n d).
  assert (GP : (1 <= g <= 2 ^ 24)%Z).
  { pose proof (Z.gcd_nonneg n d). assert (g <> 0)%Z by (intros Z0; apply Z.gcd_eq_0_r in Z0; lia).
    assert (g <= d)%Z by (apply Z.divide_pos_le; [lia | apply Z.gcd_divide_r]). unfold g in *. lia. }
  destruct (ofZ_exact g) as [VG FG]; [lia |]. assert (G0 : val (f_ofZ g) <> 0) by (rewrite VG; apply not_0_IZR; lia).
  unfold udiv_scalar. rewrite (eq_zero_false _ FG G0). cbn [bind]. eexists. split; [reflexivity |]. cbn [UnitModel.num UnitModel.den].
  assert (Q : forall x k, finite x = true -> val x = IZR k -> (0 <= k <= 2 ^ 24)%Z -> (g | k)%Z -> val (f_div x (f_ofZ g)) = IZR (k / g)).
  { intros x k F V K DV. assert (E : val x / val (f_ofZ g) = IZR (k / g)).
    { rewrite V, VG. destruct DV as [j ->]. rewrite Z.div_mul by lia. rewrite mult_IZR. field. rewrite <- VG. exact G0. }
    assert (B : (0 <= k / g <= 2 ^ 24)%Z) by (split; [apply Z.div_pos; lia | apply Z.le_trans with k; [apply Z.div_le_upper_bound; nia | lia]]).
    destruct (div_val x (f_ofZ g) F FG G0) as [W _].
    - rewrite E. apply (rnd_small _ 24); [lia |]. rewrite <- abs_IZR. change (bpow radix2 24) with (IZR (2 ^ 24)). apply IZR_le. lia.
    - rewrite W, E. apply rnd_id, fmt_Z. lia. }
  split; apply Q; try assumption; try lia; [apply Z.gcd_divide_l | apply Z.gcd_divide_r].
Qed.

(** ** Comparisons between units *)
Lemma compare_units this other x y : finite x = true -> finite y = true ->
  bpow radix2 (-125) <= Rabs (val y * (factor other / factor this)) <= bpow radix2 126 ->
  let y' := val y * (factor other / factor this) in
  Rabs (val x - y') > 5 / IZR (2 ^ 24) * Rabs y' ->
  ult this other x y = Rlt_bool (val x) y' /\ ugt this other x y = Rlt_bool y' (val x) /\
  ule this other x y = Rle_bool (val x) y' /\ uge this other x y = Rle_bool y' (val x).
Proof.
  intros Fx Fy H y' D. destruct (conv_near other this y Fy (or_intror H)) as (q & Q & E & F). fold y' in E.
  pose proof (near_within 4 q y' ltac:(lia) Q) as W. unfold within in W. rewrite <- E in W. change (IZR (Z.of_nat 4 + 1)) with 5 in W.
  unfold ult, ugt, ule, uge, f_gt, f_ge. fold (f_lt (ufrom other this y) x) (f_le (ufrom other this y) x).
  rewrite (lt_val x _ Fx F), (lt_val _ x F Fx), (le_val x _ Fx F), (le_val _ x F Fx).
  set (b := 5 / IZR (2 ^ 24) * Rabs y') in *. set (v := val (ufrom other this y)) in *. apply Rabs_le_inv in W.
  destruct (Rle_or_lt 0 (val x - y')) as [P | P]; [rewrite Rabs_pos_eq in D by exact P | rewrite Rabs_left in D by exact P].
  - rewrite !(Rlt_bool_false (val x)), !(Rle_bool_false (val x)) by lra.
    destruct (Req_dec (val x) y') as [Z | Z].
    + exfalso. assert (0 <= b) by (unfold b; apply Rmult_le_pos; [| apply Rabs_pos]; change (2 ^ 24)%Z with 16777216%Z; lra). lra.
    + rewrite !Rlt_bool_true, !Rle_bool_true by lra. repeat split; reflexivity.
  - rewrite !(Rlt_bool_true (val x)), !(Rle_bool_true (val x)) by lra. rewrite !Rlt_bool_false, !Rle_bool_false by lra. repeat split; reflexivity.
Qed.

Lemma same_unit_ops m x y :
  uconv m m y = y /\ uadd m m x y = f_add x y /\ usub m m x y = f_sub x y /\ umul m m x y = f_mul x y /\
  udiv m m x y = (if f_eq y f_zero then Halt else Ok (f_div x y)) /\
  ult m m x y = f_lt x y /\ ugt m m x y = f_lt y x /\ ule m m x y = f_le x y /\ uge m m x y = f_le y x.
Proof.
  unfold uconv, uadd, usub, umul, udiv, ult, ugt, ule, uge. rewrite conv_same. repeat split; reflexivity.
Qed.

(** ** Temperature *)
Lemma c27315_val : finite c27315 = true /\ Rabs (val c27315 - 273.15) <= / 100000.
Proof.
  destruct (mk_exact 8950579 (-15)) as [V F]; [now vm_compute | lia |]. split; [exact F |]. unfold c27315. rewrite V.
  change (bpow radix2 (-15)) with (/ 32768). apply Rabs_le. lra.
Qed.
Lemma kelvin_there_and_back c : finite c = true -> Rabs (val c) <= IZR 1000 ->
  Rabs (val (to_kelvin c) - (val c + 273.15)) <= / 10000 /\ Rabs (val (to_celsius (to_kelvin c)) - val c) <= / 4096.
Proof.
  intros F B. destruct c27315_val as [F2 V2]. apply Rabs_le_inv in B, V2.
  assert (A1 : Rabs (val c + val c27315) < bpow radix2 11) by (change (bpow radix2 11) with 2048; apply Rabs_lt; lra).
  pose proof (rnd_bounded_error _ 11 ltac:(lia) A1) as E1. change (11 - 25)%Z with (-14)%Z in E1. change (bpow radix2 (-14)) with (/ 16384) in E1.
  destruct (add_val c c27315 F F2) as [V F1].
  { apply (rnd_small _ 11); [lia |]. left. exact A1. }
  apply Rabs_le_inv in E1. split; [unfold to_kelvin; rewrite V; apply Rabs_le; lra |].
  unfold to_celsius, to_kelvin. assert (A2 : Rabs (val (f_add c c27315) - val c27315) < bpow radix2 11) by (rewrite V; change (bpow radix2 11) with 2048; apply Rabs_lt; lra).
  pose proof (rnd_bounded_error _ 11 ltac:(lia) A2) as E2. change (11 - 25)%Z with (-14)%Z in E2. change (bpow radix2 (-14)) with (/ 16384) in E2.
  destruct (sub_val (f_add c c27315) c27315 F1 F2) as [W _].
  { apply (rnd_small _ 11); [lia |]. left. exact A2. }
  rewrite W. apply Rabs_le_inv in E2. rewrite V in *. apply Rabs_le. lra.
Qed.
Lemma kelvin_mono a b : finite a = true -> finite b = true -> Rabs (val a) <= bpow radix2 100 -> Rabs (val b) <= bpow radix2 100 ->
  f_le a b = true -> f_le (to_kelvin a) (to_kelvin b) = true /\ f_le (to_celsius a) (to_celsius b) = true.
Proof.
  intros Fa Fb A B L. destruct c27315_val as [F2 V2]. apply Rabs_le_inv in V2. apply le_real in L; try assumption.
  assert (C : Rabs (val c27315) <= bpow radix2 100).
  { apply Rle_trans with (bpow radix2 9); [change (bpow radix2 9) with 512; apply Rabs_le; lra | apply bpow_le; lia]. }
  assert (S : forall x, Rabs (val x) <= bpow radix2 100 -> Rabs (rnd (val x + val c27315)) < big /\ Rabs (rnd (val x - val c27315)) < big).
  { intros x X. split; apply (rnd_small _ 101); try lia; replace 101%Z with (100 + 1)%Z by reflexivity; rewrite <- bpow_double.
    - apply Rle_trans with (1 := Rabs_triang _ _). lra.
    - unfold Rminus. apply Rle_trans with (1 := Rabs_triang _ _). rewrite Rabs_Ropp. lra. }
  destruct (S a A) as [A1 A2]. destruct (S b B) as [B1 B2].
  destruct (add_val a c27315 Fa F2 A1) as [V1 W1]. destruct (add_val b c27315 Fb F2 B1) as [V3 W3].
  destruct (sub_val a c27315 Fa F2 A2) as [V4 W4]. destruct (sub_val b c27315 Fb F2 B2) as [V5 W5].
  unfold to_kelvin, to_celsius. rewrite !le_val by assumption. rewrite V1, V3, V4, V5. split; apply Rle_bool_true, rnd_le; lra.
Qed.


(** ** Kernel-time parts *)
Lemma kadd_quot nt dt a b : kden a <> 0%Z -> kden b <> 0%Z -> kquot (kcadd nt dt nt dt a b) = kquot a + kquot b.
Proof.
  intros A B. assert (S : forall k, same_unit k k = true) by (intros []; reflexivity).
  unfold kcadd, kconvert, kpart, kquot; cbn [knum kden]. rewrite !S; cbn [knum kden]. apply not_0_IZR in A, B.
  rewrite plus_IZR, !mult_IZR. field. split; assumption.
Qed.
Lemma ksub_quot nt dt a b : kden a <> 0%Z -> kden b <> 0%Z -> (Z.abs (knum b * kden a) <= 2 ^ 24)%Z -> kquot (kcsub nt dt nt dt a b) = kquot a - kquot b.
Proof.
  intros A B L. assert (S : forall k, same_unit k k = true) by (intros []; reflexivity).
  unfold kcsub, kconvert, kpart, kquot; cbn [knum kden]. rewrite !S; cbn [knum kden]. unfold ksub. rewrite from_other_same, near24_id by exact L.
  apply not_0_IZR in A, B. rewrite minus_IZR, !mult_IZR. field. split; assumption.
Qed.
Lemma kneg_quot c : kquot (kcneg c) = - kquot c.
Proof. unfold kquot, kcneg, kneg; cbn [knum kden]. rewrite opp_IZR. unfold Rdiv. rewrite Rinv_opp. ring. Qed.
Lemma kscale_quot c s : kquot (kcscale c s) = kquot c * IZR s.
Proof. unfold kquot, kcscale; cbn [knum kden]. rewrite mult_IZR. unfold Rdiv. ring. Qed.
Lemma signed64_id n : (0 <= n < 2 ^ 63)%Z -> signed64 n = n.
Proof.
  intros H. unfold signed64. rewrite Z.mod_small by (split; [lia | apply Z.lt_trans with (2 ^ 63)%Z; [lia | now vm_compute]]).
  destruct (Z.ltb_spec n (2 ^ 63)); [reflexivity | lia].
Qed.
Lemma ksimplify_quot c : (0 <= knum c < 2 ^ 63)%Z -> (0 < kden c < 2 ^ 63)%Z ->
  exists c', ksimplify c = Ok c' /\ kquot c' = kquot c /\ Z.gcd (knum c') (kden c') = 1%Z.
Proof.
  intros N D. unfold ksimplify. set (g := Z.gcd (knum c) (kden c)).
  assert (G : (0 < g)%Z). { pose proof (Z.gcd_nonneg (knum c) (kden c)). assert (g <> 0)%Z by (intros Z0; apply Z.gcd_eq_0_r in Z0; lia). unfold g in *. lia. }
  assert (W : (2 ^ 63 < 2 ^ 64)%Z) by now vm_compute.
  assert (Q : forall x, (0 <= x < 2 ^ 63)%Z -> udivide64 x g = Ok (x / g)%Z).
  { intros x X. unfold udivide64. destruct (Z.eqb_spec g 0); [lia |]. rewrite (Z.mod_small x) by lia. rewrite signed64_id; [reflexivity |].
    split; [apply Z.div_pos; lia |]. apply Z.le_lt_trans with x; [apply Z.div_le_upper_bound; nia | lia]. }
  rewrite (Q (knum c)), (Q (kden c)) by lia. cbn [bind]. eexists. split; [reflexivity |]. cbn [knum kden].
  split; [| apply Z.gcd_div_gcd; [lia | reflexivity]].
  unfold kquot; cbn [knum kden]. destruct (Z.gcd_divide_l (knum c) (kden c)) as [i I]. destruct (Z.gcd_divide_r (knum c) (kden c)) as [j J].
  fold g in I, J. rewrite I, J. rewrite !Z.div_mul by lia. rewrite !mult_IZR. assert (j <> 0)%Z by nia. apply not_0_IZR in H. assert (IZR g <> 0) by (apply not_0_IZR; lia).
  field. split; assumption.
Qed.

(** ** Equality within the epsilon *)
Lemma rnd_abs x : rnd (Rabs x) = Rabs (rnd x).
Proof.
  destruct (Rle_or_lt 0 x) as [H | H].
  - rewrite !Rabs_pos_eq; try reflexivity; [| exact H]. rewrite <- rnd_0. apply rnd_le, H.
  - rewrite !Rabs_left1; [apply rnd_opp | | lra]. rewrite <- rnd_0. apply rnd_le. lra.
Qed.
Lemma fmt_abs x : fmt x -> fmt (Rabs x).
Proof. apply generic_format_abs. Qed.
Lemma fmt_down x k : fmt x -> (0 <= k <= 23)%Z -> bpow radix2 (-102) <= Rabs x -> fmt (x * bpow radix2 (- k)).
Proof.
  intros F K B. apply mult_bpow_exact_FLT; [exact F |]. assert (M : (-101 <= Raux.mag radix2 x)%Z) by (apply mag_ge_bpow; exact B). lia.
Qed.
Lemma close_exact x y : fmt x -> fmt y -> Rabs (x - y) <= Rmax (Rabs x) (Rabs y) / 4 -> fmt (x - y).
Proof.
  intros X Y. assert (P : forall a b, fmt a -> fmt b -> 0 <= a -> Rabs (a - b) <= Rmax (Rabs a) (Rabs b) / 4 -> fmt (a - b)).
  { intros a b A B P H. apply Rabs_le_inv in H.
    assert (Q : b / 2 <= a <= 2 * b).
    { destruct (Rle_or_lt 0 b) as [N | N].
      - rewrite (Rabs_pos_eq a), (Rabs_pos_eq b) in H by assumption. unfold Rmax in H. destruct (Rle_dec a b); lra.
      - rewrite (Rabs_pos_eq a), (Rabs_left b) in H by assumption. unfold Rmax in H. destruct (Rle_dec a (- b)); lra. }
    apply sterbenz; try typeclasses eauto; assumption. }
  intros H. destruct (Rle_or_lt 0 x) as [N | N]; [apply P; assumption |].
  replace (x - y) with (- (- x - - y)) by ring. apply fmt_opp, P; try (apply fmt_opp; assumption); [lra |].
  rewrite !Rabs_Ropp. replace (- x - - y) with (- (x - y)) by ring. rewrite Rabs_Ropp. exact H.
Qed.
Lemma abs_float x : finite (f_abs x) = finite x /\ val (f_abs x) = Rabs (val x).
Proof. split; [apply is_finite_Babs | apply B2R_Babs]. Qed.

Lemma approx_exact a b : finite a = true -> finite b = true ->
  (val a = 0 /\ val b = 0 \/ bpow radix2 (-102) <= Rmax (Rabs (val a)) (Rabs (val b)) <= bpow radix2 126) ->
  approx a b = Rle_bool (Rabs (val a - val b)) (/ IZR (2 ^ 23) * Rmax (Rabs (val a)) (Rabs (val b))).
Proof.
  intros Fa Fb H. set (M := Rmax (Rabs (val a)) (Rabs (val b))) in *. change (/ IZR (2 ^ 23)) with (bpow radix2 (-23)).
  assert (MU : M <= bpow radix2 126).
  { destruct H as [[A B] | H]; [| tauto]. unfold M. rewrite A, B, Rabs_R0, Rmax_left by lra. apply bpow_ge_0. }
  assert (MP : 0 <= M) by (unfold M; apply Rle_trans with (1 := Rabs_pos (val a)), Rmax_l).
  assert (MF : fmt M) by (unfold M, Rmax; destruct (Rle_dec _ _); apply fmt_abs, val_fmt).
  assert (D : Rabs (val a - val b) <= bpow radix2 127).
  { apply (diff_bound _ _ 126); apply Rle_trans with (2 := MU); [apply Rmax_l | apply Rmax_r]. }
  destruct (sub_val a b Fa Fb (rnd_small _ 127 ltac:(lia) D)) as [VD FD].
  destruct (mk_exact 1 (-23)) as [VE FE]; [now vm_compute | lia |].
  unfold approx. set (m := if f_lt (f_abs a) (f_abs b) then f_abs b else f_abs a).
  destruct (abs_float a) as [Fa' Va], (abs_float b) as [Fb' Vb], (abs_float (f_sub a b)) as [Fd' Vd].
  assert (FM : finite m = true /\ val m = M).
  { unfold m. rewrite lt_val by congruence. rewrite Va, Vb. unfold M, Rmax. case Rlt_bool_spec; intros L; destruct (Rle_dec _ _); split;
      try congruence; lra. }
  destruct FM as [FM VM].
  assert (EX : fmt (M * bpow radix2 (-23))).
  { destruct (Req_dec M 0) as [E | E]; [rewrite E, Rmult_0_l; apply fmt_0 |]. apply (fmt_down M 23); [exact MF | lia |]. rewrite Rabs_pos_eq by exact MP.
    destruct H as [[A B] | H]; [| tauto]. exfalso. apply E. unfold M. rewrite A, B, Rabs_R0. apply Rmax_left. lra. }
  assert (PV : val (f_mul eps m) = M * bpow radix2 (-23) /\ finite (f_mul eps m) = true).
  { assert (EQ : val eps * val m = M * bpow radix2 (-23)) by (unfold eps; rewrite VE, VM; ring).
    destruct (mul_val eps m FE FM) as [V F].
    - rewrite EQ, rnd_id by exact EX. rewrite Rabs_pos_eq by (apply Rmult_le_pos; [exact MP | apply bpow_ge_0]).
      apply Rle_lt_trans with (bpow radix2 126 * 1); [| rewrite Rmult_1_r; apply bpow_lt; lia].
      apply Rmult_le_compat; [exact MP | apply bpow_ge_0 | exact MU | apply (bpow_le radix2 (-23) 0); lia].
    - rewrite V, EQ, rnd_id by exact EX. auto. }
  destruct PV as [PV PF]. rewrite le_val by congruence. rewrite Vd, VD, PV, <- rnd_abs. rewrite (Rmult_comm M).
  case (Rle_bool_spec (Rabs (val a - val b))); intros L.
  - apply Rle_bool_true. rewrite <- (rnd_id (bpow radix2 (-23) * M)) by (rewrite Rmult_comm; exact EX). apply rnd_le, L.
  - apply Rle_bool_false. destruct (Rle_or_lt (Rabs (val a - val b)) (M / 4)) as [S | S].
    + rewrite rnd_id; [exact L |]. apply fmt_abs, close_exact; try apply val_fmt. exact S.
    + assert (MN : M <> 0).
      { intros E. assert (A1 : Rabs (val a) <= 0) by (rewrite <- E; apply Rmax_l). assert (A2 : Rabs (val b) <= 0) by (rewrite <- E; apply Rmax_r).
        apply Rabs_le_inv in A1, A2. replace (val a - val b) with 0 in S by lra. rewrite Rabs_R0 in S. lra. }
      assert (F4 : fmt (M / 4)).
      { change (M / 4) with (M * bpow radix2 (- 2)). apply (fmt_down M 2); [exact MF | lia |]. rewrite Rabs_pos_eq by exact MP.
        destruct H as [[A B] | H]; [| tauto]. exfalso. apply MN. unfold M. rewrite A, B, Rabs_R0. apply Rmax_left. lra. }
      apply Rlt_le_trans with (M / 4); [| rewrite <- (rnd_id (M / 4) F4); apply rnd_le; lra].
      change (bpow radix2 (-23)) with (/ 8388608). lra.
Qed.

Lemma equal_units this other x y : finite x = true -> converts other this y -> val y <> 0 ->
  bpow radix2 (-102) <= Rmax (Rabs (val x)) (Rabs (val (uconv this other y))) <= bpow radix2 126 ->
  ueq this other x y = true -> within 8 (val x) (val y * (factor other / factor this)).
Proof.
  intros Fx [Fy [Z | H]] NZ B E; [contradiction |]. destruct (conv_near other this y Fy (or_intror H)) as (q & Q & V & F).
  set (y' := val y * (factor other / factor this)) in *.
  pose proof (near_within 4 q y' ltac:(lia) Q) as W. unfold within in W. rewrite <- V in W. change (IZR (Z.of_nat 4 + 1)) with 5 in W.
  unfold ueq in E. unfold uconv in B. rewrite approx_exact in E by (try assumption; right; exact B). set (v := val (ufrom other this y)) in *.
  revert E. case Rle_bool_spec; [intros L _ | discriminate]. unfold within. change (2 ^ 24)%Z with 16777216%Z in *. change (2 ^ 23)%Z with 8388608%Z in *.
  assert (A1 : Rabs v <= Rabs y' * (1 + 5 / 16777216)).
  { replace v with (v - y' + y') by ring. apply Rle_trans with (1 := Rabs_triang _ _). lra. }
  assert (A2 : Rabs (val x) <= Rabs (val x - v) + Rabs v) by (replace (val x) with (val x - v + v) at 1 by ring; apply Rabs_triang).
  assert (A3 : Rmax (Rabs (val x)) (Rabs v) <= Rabs (val x - v) + Rabs v) by (apply Rmax_lub; [exact A2 | pose proof (Rabs_pos (val x - v)); lra]).
  pose proof (Rabs_pos (val x - v)). pose proof (Rabs_pos y').
  replace (val x - y') with (val x - v + (v - y')) by ring. apply Rle_trans with (1 := Rabs_triang _ _). lra.
Qed.
