(** The single precision arithmetic of KTimeModel is the rounding to nearest even on 24 bits of Flocq, and std::round its rounding to
    nearest, halves away from zero. Conversions therefore preserve order. *)
From Coq Require Import ZArith Reals Lia Lra Bool.
From Flocq Require Import Core.
From Verif Require Import Base KTimeModel KTimeSpec KTimeProofs KTimeConv.
Open Scope R_scope.

Definition flx := FLX_exp 24.
Definition near (x : R) : R := round radix2 flx ZnearestE x.
Definition fval (f : fl) : R := IZR (fm f) * bpow radix2 (fe f).
Global Instance flx_valid : Valid_exp flx.
Proof. apply FLX_exp_valid. unfold Prec_gt_0. lia. Qed.

Lemma bpow_max (e : Z) : bpow radix2 e = IZR (2 ^ Z.max 0 e) / IZR (2 ^ Z.max 0 (- e)).
Proof.
  destruct (Z.le_ge_cases 0 e) as [H | H].
  - rewrite (Z.max_r 0 e), (Z.max_l 0 (- e)) by lia. change (2 ^ 0)%Z with 1%Z. rewrite (IZR_Zpower radix2) by lia. lra.
  - rewrite (Z.max_l 0 e), (Z.max_r 0 (- e)) by lia. change (2 ^ 0)%Z with 1%Z. rewrite (IZR_Zpower radix2) by lia. rewrite bpow_opp.
    field. apply Rgt_not_eq, bpow_gt_0.
Qed.
Lemma pow_max_pos e : 0 < IZR (2 ^ Z.max 0 e).
Proof. apply IZR_lt, pow2_pos. Qed.
Lemma IZR_pos z : (0 < z)%Z -> 0 < IZR z. Proof. intros H. now apply IZR_lt. Qed.

Lemma rne_near_even n d : (0 < d)%Z -> rne n d = ZnearestE (IZR n / IZR d).
Proof.
  intros D. pose proof (IZR_pos d D) as D'. unfold rne. unfold Znearest. rewrite (Zfloor_div n d) by lia.
  assert (E : IZR n / IZR d - IZR (n / d) = IZR (n mod d) / IZR d).
  { rewrite (Z.div_mod n d) at 1 by lia. rewrite plus_IZR, mult_IZR. field. lra. }
  rewrite E. pose proof (Z.mod_pos_bound n d D) as M.
  destruct (Z.compare_spec (2 * (n mod d)) d) as [H | H | H].
  - rewrite Rcompare_Eq; [destruct (Z.even (n / d)); [reflexivity |] |].
    + cbn [negb]. rewrite (Zceil_floor_neq (IZR n / IZR d)); rewrite (Zfloor_div n d) by lia; [reflexivity |].
      intros K. assert (Z0 : IZR (n mod d) / IZR d = 0) by lra. assert (IZR (n mod d) = 0) by (apply (Rmult_eq_reg_r (/ IZR d)); [unfold Rdiv in Z0; lra | apply Rinv_neq_0_compat; lra]).
      apply eq_IZR in H0. lia.
    + apply (Rmult_eq_reg_r (2 * IZR d)); [| lra]. field_simplify; [| lra]. rewrite <- mult_IZR. now rewrite H.
  - rewrite Rcompare_Lt; [reflexivity |]. apply (Rmult_lt_reg_r (2 * IZR d)); [lra |]. replace (IZR (n mod d) / IZR d * (2 * IZR d)) with (2 * IZR (n mod d)) by (field; lra).
    replace (/ 2 * (2 * IZR d)) with (IZR d) by field. rewrite <- mult_IZR. now apply IZR_lt.
  - rewrite Rcompare_Gt.
    + rewrite (Zceil_floor_neq (IZR n / IZR d)); rewrite (Zfloor_div n d) by lia; [reflexivity |].
      intros K. assert (Z0 : IZR (n mod d) / IZR d = 0) by lra. assert (IZR (n mod d) = 0) by (apply (Rmult_eq_reg_r (/ IZR d)); [unfold Rdiv in Z0; lra | apply Rinv_neq_0_compat; lra]).
      apply eq_IZR in H0. lia.
    + apply (Rmult_lt_reg_r (2 * IZR d)); [lra |]. replace (IZR (n mod d) / IZR d * (2 * IZR d)) with (2 * IZR (n mod d)) by (field; lra).
      replace (/ 2 * (2 * IZR d)) with (IZR d) by field. rewrite <- mult_IZR. now apply IZR_lt.
Qed.

Lemma log2_bounds n : (0 < n)%Z -> bpow radix2 (Z.log2 n) <= IZR n < bpow radix2 (Z.log2 n + 1).
Proof.
  intros N. pose proof (Z.log2_spec n N) as [A B]. pose proof (Z.log2_nonneg n). rewrite <- !IZR_Zpower by lia. split; [now apply IZR_le | now apply IZR_lt].
Qed.
Lemma fexp_range n d : (0 < n)%Z -> (0 < d)%Z -> let e := fexp n d in bpow radix2 (e + 23) <= IZR n / IZR d < bpow radix2 (e + 24).
Proof.
  intros N D e. pose proof (IZR_pos d D) as D'. split.
  - pose proof (fexp_low n d N D) as L. fold e in L. cbv zeta in L. apply IZR_le in L. rewrite !mult_IZR in L.
    change (IZR (2 ^ 23)) with (bpow radix2 23) in L. rewrite bpow_plus, (bpow_max e).
    apply (Rmult_le_reg_r (IZR d * IZR (2 ^ Z.max 0 (- e)))); [apply Rmult_lt_0_compat; [lra | apply pow_max_pos] |].
    pose proof (pow_max_pos (- e)). replace (IZR n / IZR d * (IZR d * IZR (2 ^ Z.max 0 (- e)))) with (IZR n * IZR (2 ^ Z.max 0 (- e))) by (field; lra).
    eapply Rle_trans; [| exact L]. right. field. lra.
  - unfold e, fexp. set (e0 := (Z.log2 n - Z.log2 d - 23)%Z). destruct (Z.ltb_spec (n * 2 ^ Z.max 0 (- e0)) (d * 2 ^ Z.max 0 e0 * 2 ^ 23)) as [C | C].
    + apply IZR_lt in C. rewrite !mult_IZR in C. change (IZR (2 ^ 23)) with (bpow radix2 23) in C. replace (e0 - 1 + 24)%Z with (e0 + 23)%Z by lia.
      rewrite bpow_plus, (bpow_max e0). pose proof (pow_max_pos (- e0)).
      apply (Rmult_lt_reg_r (IZR d * IZR (2 ^ Z.max 0 (- e0)))); [apply Rmult_lt_0_compat; lra |].
      replace (IZR n / IZR d * (IZR d * IZR (2 ^ Z.max 0 (- e0)))) with (IZR n * IZR (2 ^ Z.max 0 (- e0))) by (field; lra).
      eapply Rlt_le_trans; [exact C |]. right. field. lra.
    + unfold e0. replace (Z.log2 n - Z.log2 d - 23 + 24)%Z with (Z.log2 n + 1 + - Z.log2 d)%Z by lia. rewrite bpow_plus, bpow_opp.
      pose proof (log2_bounds n N) as [_ A]. pose proof (log2_bounds d D) as [B _]. pose proof (bpow_gt_0 radix2 (Z.log2 d)).
      pose proof (bpow_gt_0 radix2 (Z.log2 n + 1)). apply Rlt_le_trans with (bpow radix2 (Z.log2 n + 1) * / IZR d).
      * apply Rmult_lt_compat_r; [now apply Rinv_0_lt_compat | exact A].
      * apply Rmult_le_compat_l; [lra |]. now apply Rinv_le.
Qed.

Lemma fquot_near n d : (0 < d)%Z -> fval (fquot n d) = near (IZR n / IZR d).
Proof.
  intros D. pose proof (IZR_pos d D) as D'. unfold fquot. destruct (Z.eqb_spec n 0) as [-> | N].
  - unfold fval, near. cbn [fm fe]. unfold Rdiv. rewrite Rmult_0_l, Rmult_0_l. symmetry. apply round_0. typeclasses eauto.
  - cbv zeta. set (e := fexp (Z.abs n) d).
    pose proof (fexp_range (Z.abs n) d ltac:(lia) D) as R. cbv zeta in R. fold e in R.
    assert (M : Raux.mag radix2 (IZR n / IZR d) = (e + 24)%Z :> Z).
    { apply mag_unique. replace (e + 24 - 1)%Z with (e + 23)%Z by lia. unfold Rdiv. rewrite Rabs_mult, <- abs_IZR, (Rabs_pos_eq (/ IZR d)); [exact R |].
      left. now apply Rinv_0_lt_compat. }
    unfold near, round, F2R, scaled_mantissa, cexp. rewrite M. unfold flx, FLX_exp. replace (e + 24 - 24)%Z with e by lia. unfold fval. cbn [fm fe Fnum Fexp].
    f_equal. f_equal. rewrite rne_near_even by (apply Z.mul_pos_pos; [lia | apply pow2_pos]). f_equal. rewrite !mult_IZR, bpow_max, Z.opp_involutive.
    pose proof (pow_max_pos e). pose proof (pow_max_pos (- e)). field. lra.
Qed.
Lemma f_of_int_near x : fval (f_of_int x) = near (IZR x).
Proof. unfold f_of_int. rewrite fquot_near by lia. f_equal. unfold Rdiv. rewrite Rinv_1. ring. Qed.
Lemma fmul_near a b : fval (fmul a b) = near (fval a * fval b).
Proof.
  unfold fmul. rewrite fquot_near by apply pow2_pos. f_equal. unfold fval. rewrite !mult_IZR.
  replace (IZR (fm a) * bpow radix2 (fe a) * (IZR (fm b) * bpow radix2 (fe b))) with (IZR (fm a) * IZR (fm b) * bpow radix2 (fe a + fe b)) by (rewrite bpow_plus; ring).
  rewrite (bpow_max (fe a + fe b)). unfold Rdiv. ring.
Qed.
Lemma fdiv_near a b : (0 < fm b)%Z -> fval (fdiv a b) = near (fval a / fval b).
Proof.
  intros B. pose proof (IZR_pos _ B) as B'. unfold fdiv. rewrite fquot_near by (apply Z.mul_pos_pos; [lia | apply pow2_pos]). f_equal. unfold fval. rewrite !mult_IZR.
  pose proof (bpow_gt_0 radix2 (fe b)). pose proof (pow_max_pos (fe a - fe b)). pose proof (pow_max_pos (- (fe a - fe b))).
  replace (IZR (fm a) * bpow radix2 (fe a) / (IZR (fm b) * bpow radix2 (fe b))) with (IZR (fm a) / IZR (fm b) * bpow radix2 (fe a - fe b)).
  - rewrite (bpow_max (fe a - fe b)). field. lra.
  - unfold Zminus. rewrite bpow_plus, bpow_opp. field. lra.
Qed.
(** std::round *)
Lemma away_opp x : ZnearestA (- x) = (- ZnearestA x)%Z.
Proof.
  rewrite Znearest_opp. f_equal. unfold Znearest. destruct (Rcompare _ _); auto.
  replace (negb (Zle_bool 0 (- (Zfloor x + 1)))) with (Zle_bool 0 (Zfloor x)); [reflexivity |].
  destruct (Zle_bool 0 (Zfloor x)) eqn:E.
  - apply Zle_bool_imp_le in E. rewrite Zle_bool_false by lia. reflexivity.
  - destruct (Zle_bool 0 (- (Zfloor x + 1))) eqn:F; [reflexivity |]. exfalso. rewrite Z.leb_gt in E, F. lia.
Qed.
Lemma fround_away f : fround f = ZnearestA (fval f).
Proof.
  unfold fround, fval. destruct (Z.leb_spec 0 (fe f)) as [H | H].
  - rewrite <- IZR_Zpower by lia. rewrite <- mult_IZR. symmetry. apply Zrnd_IZR; typeclasses eauto.
  - set (k := (- fe f)%Z). assert (K : (0 < k)%Z) by (unfold k; lia). replace (fe f) with (- k)%Z by (unfold k; lia). rewrite bpow_opp, <- IZR_Zpower by lia.
    change (Zpower radix2 k) with (2 ^ k)%Z. set (d := (2 ^ k)%Z). assert (D : (0 < d)%Z) by (apply Z.pow_pos_nonneg; lia).
    pose proof (IZR_pos d D) as D'. change (IZR (fm f) * / IZR d) with (IZR (fm f) / IZR d). cbv zeta. generalize (fm f). intros m. clear H K. clearbody d.
    assert (P : forall m, (0 <= m)%Z -> ((2 * m + d) / (2 * d))%Z = ZnearestA (IZR m / IZR d)).
    { clear m. intros m M. unfold Znearest. rewrite (Zfloor_div m d) by lia.
      assert (E : IZR m / IZR d - IZR (m / d) = IZR (m mod d) / IZR d).
      { rewrite (Z.div_mod m d) at 1 by lia. rewrite plus_IZR, mult_IZR. field. lra. }
      rewrite E. pose proof (Z.mod_pos_bound m d D) as B. pose proof (Z.div_mod m d ltac:(lia)) as Q. assert (Q0 : (0 <= m / d)%Z) by (apply Z.div_pos; lia).
      set (q := (m / d)%Z) in *. set (r := (m mod d)%Z) in *.
      assert (C : r <> 0%Z -> Zceil (IZR m / IZR d) = (q + 1)%Z).
      { intros R0. rewrite Zceil_floor_neq; rewrite (Zfloor_div m d) by lia; [reflexivity |]. fold q. intros K. apply R0.
        assert (Z0 : IZR r * / IZR d = 0) by (unfold Rdiv in E, K |- *; lra). apply Rmult_integral in Z0. destruct Z0 as [Z0 | Z0]; [now apply eq_IZR |].
        exfalso. revert Z0. apply Rgt_not_eq. now apply Rinv_0_lt_compat. }
      assert (V : IZR r / IZR d * (2 * IZR d) = 2 * IZR r) by (field; lra).
      destruct (Z.lt_ge_cases (2 * r) d) as [L | L].
      - rewrite Rcompare_Lt.
        + symmetry. apply (Z.div_unique _ _ _ (2 * r + d)%Z); lia.
        + apply (Rmult_lt_reg_r (2 * IZR d)); [lra |]. rewrite V. replace (/ 2 * (2 * IZR d)) with (IZR d) by field. rewrite <- mult_IZR. now apply IZR_lt.
      - assert (S : ((2 * m + d) / (2 * d))%Z = (q + 1)%Z) by (symmetry; apply (Z.div_unique _ _ _ (2 * r - d)%Z); lia). rewrite S, C by lia.
        destruct (Z.eq_dec (2 * r) d) as [H | H].
        + rewrite Rcompare_Eq; [now rewrite Zle_bool_true by lia |]. apply (Rmult_eq_reg_r (2 * IZR d)); [| lra]. rewrite V.
          replace (/ 2 * (2 * IZR d)) with (IZR d) by field. rewrite <- mult_IZR. now rewrite H.
        + rewrite Rcompare_Gt; [reflexivity |]. apply (Rmult_lt_reg_r (2 * IZR d)); [lra |]. rewrite V.
          replace (/ 2 * (2 * IZR d)) with (IZR d) by field. rewrite <- mult_IZR. apply IZR_lt. lia. }
    destruct (Z.le_ge_cases 0 m) as [M | M].
    + rewrite Z.abs_eq by lia. rewrite P by lia. destruct (Z.eq_dec m 0) as [-> | N]; [| rewrite Z.sgn_pos by lia; apply Z.mul_1_l].
      unfold Rdiv. rewrite Rmult_0_l. rewrite (Zrnd_IZR ZnearestA 0). reflexivity.
    + rewrite Z.abs_neq by lia. rewrite P by lia. destruct (Z.eq_dec m 0) as [-> | N].
      * unfold Rdiv. change (- 0)%Z with 0%Z. rewrite Rmult_0_l. rewrite (Zrnd_IZR ZnearestA 0). reflexivity.
      * rewrite Z.sgn_neg by lia. replace (IZR m / IZR d) with (- (IZR (- m) / IZR d)) by (rewrite opp_IZR; field; lra).
        rewrite away_opp. lia.
Qed.

Lemma near_le x y : x <= y -> near x <= near y.
Proof. apply round_le; typeclasses eauto. Qed.
Lemma ratio_pos o t : 0 <= fval (ratio o t).
Proof. unfold fval. apply Rmult_le_pos; [| apply bpow_ge_0]. apply IZR_le. destruct o, t; vm_compute; discriminate. Qed.
(** A conversion: the ratio times the count, each rounded, then rounded to a count *)
Lemma from_other_near o t x : from_other o t x = ZnearestA (near (fval (ratio o t) * near (IZR x))).
Proof. unfold from_other. rewrite fround_away, fmul_near, f_of_int_near. reflexivity. Qed.
Lemma from_other_mono o t x y : (x <= y)%Z -> (from_other o t x <= from_other o t y)%Z.
Proof.
  intros H. rewrite !from_other_near. apply Zrnd_le; [typeclasses eauto |]. apply near_le. apply Rmult_le_compat_l; [apply ratio_pos |]. now apply near_le, IZR_le.
Qed.
