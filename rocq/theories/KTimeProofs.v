(** Proofs about kernel time. *)
From Coq Require Import ZArith Lia Bool.
From Verif Require Import Base KTimeModel KTimeSpec.
Open Scope Z_scope.

(** ** rne *)
Lemma rne_near n d : 0 < d -> 2 * Z.abs (rne n d * d - n) <= d.
Proof.
  intros Hd. unfold rne. pose proof (Z.div_mod n d ltac:(lia)) as H. pose proof (Z.mod_pos_bound n d Hd) as Hb.
  set (q := n / d) in *. set (r := n mod d) in *.
  destruct (Z.compare_spec (2 * r) d); [destruct (Z.even q)| |]; nia.
Qed.

Lemma rne_exact q d : 0 < d -> rne (q * d) d = q.
Proof.
  intros Hd. unfold rne. rewrite Z.div_mul by lia. rewrite Z.mod_mul by lia. destruct (Z.compare_spec (2 * 0) d); lia.
Qed.

(** The nearest multiple of d is as near as any other. *)
Lemma rne_best n d k : 0 < d -> Z.abs (rne n d * d - n) <= Z.abs (k * d - n).
Proof.
  intros Hd. pose proof (rne_near n d Hd) as H. destruct (Z.eq_dec k (rne n d)) as [->|N]; [lia|].
  assert (d <= Z.abs (k * d - rne n d * d)); [|lia].
  replace (k * d - rne n d * d) with ((k - rne n d) * d) by ring. rewrite Z.abs_mul, (Z.abs_eq d) by lia. nia.
Qed.

(** ** Integers to single precision *)
Definition near24 (x : Z) : Z :=
  if Z.abs x <? 2 ^ 24 then x else let d := 2 ^ (Z.log2 (Z.abs x) - 23) in rne x d * d.

Lemma log2_24 x : 2 ^ 24 <= x -> 24 <= Z.log2 x.
Proof. intros H. apply Z.log2_le_pow2; lia. Qed.

Lemma near24_nearest x : nearest_f32 x (near24 x).
Proof.
  unfold near24. destruct (Z.ltb_spec (Z.abs x) (2 ^ 24)) as [H|H].
  - split.
    + exists x, 0. lia.
    + intros z _. rewrite Z.sub_diag. simpl. lia.
  - set (a := Z.abs x) in *. pose proof (log2_24 a H) as Hl. pose proof (Z.log2_spec a ltac:(lia)) as [Hs1 Hs2].
    rewrite Z.pow_succ_r in Hs2 by lia.
    set (e := Z.log2 a - 23) in *. assert (He : 1 <= e) by lia. assert (Hd : 0 < 2 ^ e) by (apply Z.pow_pos_nonneg; lia).
    assert (Ha : 2 ^ Z.log2 a = 2 ^ 23 * 2 ^ e) by (rewrite <- Z.pow_add_r by lia; f_equal; lia).
    rewrite Ha in Hs1, Hs2. pose proof (rne_near x (2 ^ e) Hd) as Hn. pose proof (fun k => rne_best x (2 ^ e) k Hd) as Hb.
    cbv zeta. split.
    + exists (rne x (2 ^ e)), e. split; [lia|]. split; [|reflexivity]. subst a. nia.
    + intros z (m & e' & He' & Hm & ->). destruct (Z.le_gt_cases e e') as [Hle|Hgt].
      * replace (m * 2 ^ e') with ((m * 2 ^ (e' - e)) * 2 ^ e); [apply Hb|].
        rewrite <- Z.mul_assoc, <- Z.pow_add_r by lia. do 2 f_equal. lia.
      * assert (Hp : 2 * 2 ^ e' <= 2 ^ e). { rewrite <- Z.pow_succ_r by lia. apply Z.pow_le_mono_r; lia. }
        assert (0 < 2 ^ e') by (apply Z.pow_pos_nonneg; lia).
        assert (Hz : Z.abs (m * 2 ^ e') <= 2 ^ 23 * 2 ^ e). { rewrite Z.abs_mul, (Z.abs_eq (2 ^ e')) by lia. nia. }
        specialize (Hb (Z.sgn x * 2 ^ 23)). subst a.
        destruct (Z.abs_spec x) as [[Hx Ex]|[Hx Ex]].
        -- rewrite Z.sgn_pos in Hb by lia. lia.
        -- rewrite Z.sgn_neg in Hb by lia. lia.
Qed.

Lemma near24_id x : Z.abs x <= 2 ^ 24 -> near24 x = x.
Proof.
  intros H. destruct (near24_nearest x) as [_ Hn]. specialize (Hn x). assert (f32_int x) by (exists x, 0; lia).
  specialize (Hn H0). lia.
Qed.

Lemma near24_repr x : f32_int x -> near24 x = x.
Proof. intros H. destruct (near24_nearest x) as [_ Hn]. specialize (Hn x H). lia. Qed.

Lemma near24_fix x : near24 x = x <-> f32_int x.
Proof. split; [|apply near24_repr]. intros <-. apply near24_nearest. Qed.

Lemma near24_idem x : near24 (near24 x) = near24 x.
Proof. apply near24_repr. apply near24_nearest. Qed.

Lemma near24_mono x y : x <= y -> near24 x <= near24 y.
Proof.
  intros H. destruct (near24_nearest x) as [H1 H2]. destruct (near24_nearest y) as [H3 H4].
  destruct (Z.eq_dec x y) as [->|N]; [lia|]. specialize (H2 _ H3). specialize (H4 _ H1). lia.
Qed.

Lemma near24_error x : 2 ^ 24 * Z.abs (near24 x - x) <= Z.abs x.
Proof.
  unfold near24. destruct (Z.ltb_spec (Z.abs x) (2 ^ 24)) as [H|H]; [lia|].
  set (a := Z.abs x) in *. pose proof (log2_24 a H) as Hl. pose proof (Z.log2_spec a ltac:(lia)) as [Hs1 _].
  cbv zeta. set (e := Z.log2 a - 23) in *. assert (Hd : 0 < 2 ^ e) by (apply Z.pow_pos_nonneg; lia).
  assert (Ha : 2 ^ Z.log2 a = 2 ^ 23 * 2 ^ e) by (rewrite <- Z.pow_add_r by lia; f_equal; lia).
  rewrite Ha in Hs1. pose proof (rne_near x (2 ^ e) Hd) as Hn. lia.
Qed.

Lemma near24_0 : near24 0 = 0. Proof. reflexivity. Qed.
Lemma near24_nonneg x : 0 <= x -> 0 <= near24 x.
Proof. intros H. rewrite <- near24_0. apply near24_mono; auto. Qed.

(** ** fquot with a power of two below *)
Lemma fexp_pow2 n k : 0 < n -> 0 <= k -> fexp n (2 ^ k) = Z.log2 n - k - 23.
Proof.
  intros Hn Hk. unfold fexp. rewrite Z.log2_pow2 by lia. set (e := Z.log2 n - k - 23).
  destruct (Z.ltb_spec (n * 2 ^ Z.max 0 (- e)) (2 ^ k * 2 ^ Z.max 0 e * 2 ^ 23)) as [H|H]; auto. exfalso.
  pose proof (Z.log2_spec n Hn) as [Hs _]. assert (0 <= Z.log2 n) by apply Z.log2_nonneg.
  assert (2 ^ Z.log2 n * 2 ^ Z.max 0 (- e) = 2 ^ k * 2 ^ Z.max 0 e * 2 ^ 23).
  { rewrite <- !Z.pow_add_r by lia. f_equal. lia. }
  assert (0 < 2 ^ Z.max 0 (- e)) by (apply Z.pow_pos_nonneg; lia). nia.
Qed.

Lemma abs_log2_mul_pow2 m k : m <> 0 -> 0 <= k -> Z.log2 (Z.abs (m * 2 ^ k)) = Z.log2 (Z.abs m) + k.
Proof.
  intros Hm Hk. rewrite Z.abs_mul, (Z.abs_eq (2 ^ k)) by (apply Z.pow_nonneg; lia). rewrite Z.log2_mul_pow2 by lia. lia.
Qed.

(** A number of at most 24 bits is kept: n / 2^k = m * 2^e. *)
Lemma log2_le24 m : m <> 0 -> Z.abs m <= 2 ^ 24 -> Z.log2 (Z.abs m) <= 23 \/ Z.abs m = 2 ^ 24.
Proof.
  intros Hm H. destruct (Z.eq_dec (Z.abs m) (2 ^ 24)); auto. left. assert (Z.log2 (Z.abs m) < 24); [|lia]. apply Z.log2_lt_pow2; lia.
Qed.

(** Value of a float whose exponent is not negative enough to leave the integers: stated by cross-multiplication. *)
Definition fval_is (f : fl) (m e : Z) : Prop := fm f * 2 ^ Z.max 0 (fe f - e) = m * 2 ^ Z.max 0 (e - fe f).

Lemma fquot_pow2_exact n k m e : 0 <= k -> Z.abs m <= 2 ^ 24 -> m <> 0 ->
  n * 2 ^ Z.max 0 (- e) = m * 2 ^ (k + Z.max 0 e) -> fval_is (fquot n (2 ^ k)) m e.
Proof.
  intros Hk Hm Hm0 Hn.
  assert (Hp : forall j, 0 <= j -> 0 < 2 ^ j) by (intros; apply Z.pow_pos_nonneg; lia).
  assert (n <> 0) as Hn0. { intros ->. pose proof (Hp (k + Z.max 0 e) ltac:(lia)). nia. }
  assert (Hlog : Z.log2 (Z.abs n) = Z.log2 (Z.abs m) + k + e).
  { pose proof (abs_log2_mul_pow2 n (Z.max 0 (- e)) Hn0 ltac:(lia)) as H1.
    pose proof (abs_log2_mul_pow2 m (k + Z.max 0 e) Hm0 ltac:(lia)) as H2. rewrite Hn in H1. lia. }
  unfold fquot. destruct (Z.eqb_spec n 0); [lia|]. cbv zeta. rewrite fexp_pow2 by lia. rewrite Hlog.
  replace (Z.log2 (Z.abs m) + k + e - k - 23) with (Z.log2 (Z.abs m) + e - 23) by lia.
  set (g := Z.log2 (Z.abs m) + e - 23). unfold fval_is. cbn [fm fe].
  assert (Hg : exists q, q * 2 ^ Z.max 0 (g - e) = m * 2 ^ Z.max 0 (e - g)).
  { destruct (log2_le24 m Hm0 Hm) as [H|H].
    - exists (m * 2 ^ (e - g)). rewrite Z.max_l, (Z.max_r 0 (e - g)) by lia. ring.
    - assert (Z.log2 (Z.abs m) = 24) by (rewrite H; reflexivity). exists (Z.sgn m * 2 ^ 23).
      rewrite (Z.max_r 0 (g - e)), (Z.max_l 0 (e - g)) by lia. replace (g - e) with 1 by lia.
assert (m = 2 ^ 24 \/ m = - 2 ^ 24) as [->| ->] by lia; reflexivity. }
  destruct Hg as (q & Hq). rewrite <- Hq.
  replace (n * 2 ^ Z.max 0 (- g)) with (q * (2 ^ k * 2 ^ Z.max 0 g)).
  { rewrite rne_exact; [reflexivity|]. pose proof (Hp k Hk). pose proof (Hp (Z.max 0 g) ltac:(lia)). nia. }
  (* cross-multiply *)
  apply (Z.mul_reg_r _ _ (2 ^ Z.max 0 (g - e) * 2 ^ Z.max 0 (- e))).
  { pose proof (Hp (Z.max 0 (g - e)) ltac:(lia)). pose proof (Hp (Z.max 0 (-e)) ltac:(lia)). nia. }
  replace (n * 2 ^ Z.max 0 (- g) * (2 ^ Z.max 0 (g - e) * 2 ^ Z.max 0 (- e)))
    with ((n * 2 ^ Z.max 0 (- e)) * (2 ^ Z.max 0 (- g) * 2 ^ Z.max 0 (g - e))) by ring.
  rewrite Hn.
  replace (q * (2 ^ k * 2 ^ Z.max 0 g) * (2 ^ Z.max 0 (g - e) * 2 ^ Z.max 0 (- e)))
    with ((q * 2 ^ Z.max 0 (g - e)) * (2 ^ k * 2 ^ Z.max 0 g * 2 ^ Z.max 0 (- e))) by ring.
  rewrite Hq. rewrite <- !Z.pow_add_r by lia.
  replace (m * 2 ^ Z.max 0 (e - g) * 2 ^ (k + Z.max 0 g + Z.max 0 (- e)))
    with (m * (2 ^ Z.max 0 (e - g) * 2 ^ (k + Z.max 0 g + Z.max 0 (- e)))) by ring.
  rewrite <- (Z.mul_assoc m). rewrite <- !Z.pow_add_r by lia. do 2 f_equal. lia.
Qed.

Lemma f_of_int_small x : x <> 0 -> Z.abs x < 2 ^ 24 -> f_of_int x = mkFl (x * 2 ^ (23 - Z.log2 (Z.abs x))) (Z.log2 (Z.abs x) - 23).
Proof.
  intros Hx H. unfold f_of_int, fquot. destruct (Z.eqb_spec x 0); [lia|]. cbv zeta. change 1 with (2 ^ 0).
  rewrite fexp_pow2 by lia. rewrite Z.sub_0_r. assert (Z.log2 (Z.abs x) < 24) by (apply Z.log2_lt_pow2; lia).
  rewrite (Z.max_l 0 (Z.log2 (Z.abs x) - 23)) by lia. rewrite Z.max_r by lia.
  f_equal. replace (- (Z.log2 (Z.abs x) - 23)) with (23 - Z.log2 (Z.abs x)) by lia. change (2 ^ 0 * 2 ^ 0) with 1.
  rewrite <- (Z.mul_1_r (x * _)) at 1. rewrite rne_exact by lia. reflexivity.
Qed.

Lemma f_of_int_large x : 2 ^ 24 <= Z.abs x ->
  f_of_int x = mkFl (rne x (2 ^ (Z.log2 (Z.abs x) - 23))) (Z.log2 (Z.abs x) - 23).
Proof.
  intros H. unfold f_of_int, fquot. destruct (Z.eqb_spec x 0); [subst; simpl in H; lia|]. cbv zeta. change 1 with (2 ^ 0).
  rewrite fexp_pow2 by lia. rewrite Z.sub_0_r. pose proof (log2_24 _ H).
  rewrite (Z.max_r 0 (Z.log2 (Z.abs x) - 23)) by lia. rewrite Z.max_l by lia. change (2 ^ 0) with 1. rewrite Z.mul_1_r, Z.mul_1_l. reflexivity.
Qed.

Lemma fround_int f m e : 0 <= e -> fval_is f m e -> fround f = m * 2 ^ e.
Proof.
  intros He H. unfold fval_is in H. unfold fround. destruct (Z.leb_spec 0 (fe f)) as [Hf|Hf].
  - destruct (Z.le_gt_cases (fe f) e).
    + rewrite Z.max_l, Z.max_r in H by lia. rewrite Z.pow_0_r, Z.mul_1_r in H. rewrite H, <- Z.mul_assoc, <- Z.pow_add_r by lia.
      do 2 f_equal. lia.
    + rewrite Z.max_r, Z.max_l in H by lia. rewrite Z.pow_0_r, Z.mul_1_r in H. rewrite <- H, <- Z.mul_assoc, <- Z.pow_add_r by lia.
      do 2 f_equal. lia.
  - rewrite Z.max_l, Z.max_r, Z.pow_0_r, Z.mul_1_r in H by lia. cbv zeta. set (d := 2 ^ (- fe f)).
    assert (0 < d) by (apply Z.pow_pos_nonneg; lia). assert (fm f = (m * 2 ^ e) * d) as Hm.
    { unfold d. rewrite H, <- Z.mul_assoc, <- Z.pow_add_r by lia. do 2 f_equal; lia. }
    rewrite Hm. set (v := m * 2 ^ e). rewrite Z.abs_mul, (Z.abs_eq d) by lia. rewrite Z.sgn_mul, (Z.sgn_pos d) by lia.
    replace (2 * (Z.abs v * d) + d) with (d + Z.abs v * (2 * d)) by ring. rewrite Z.div_add by lia. rewrite Z.div_small by lia.
    rewrite Z.add_0_l, Z.mul_1_r. rewrite Z.mul_comm; apply Z.abs_sgn.
Qed.

Lemma ratio_same u : ratio u u = mkFl (2 ^ 23) (-23).
Proof. destruct u; vm_compute; reflexivity. Qed.

Lemma fmul_one m e : m <> 0 -> Z.abs m <= 2 ^ 24 -> fval_is (fmul (mkFl (2 ^ 23) (-23)) (mkFl m e)) m e.
Proof.
  intros H0 H. unfold fmul. cbn [fm fe]. apply fquot_pow2_exact; try lia.
  replace (2 ^ 23 * m * 2 ^ Z.max 0 (-23 + e) * 2 ^ Z.max 0 (- e)) with (m * (2 ^ 23 * 2 ^ Z.max 0 (-23 + e) * 2 ^ Z.max 0 (- e))) by ring.
  rewrite <- !Z.pow_add_r by lia. do 2 f_equal. lia.
Qed.

Lemma fval_is_scale f m e j : 0 <= j -> fval_is f (m * 2 ^ j) (e - j) -> fval_is f m e.
Proof.
  intros Hj H. unfold fval_is in *.
  assert (Hp : forall j, 0 <= j -> 0 < 2 ^ j) by (intros; apply Z.pow_pos_nonneg; lia).
  apply (Z.mul_reg_r _ _ (2 ^ Z.max 0 (fe f - (e - j)))). { pose proof (Hp (Z.max 0 (fe f - (e - j))) ltac:(lia)). lia. }
  replace (fm f * 2 ^ Z.max 0 (fe f - e) * 2 ^ Z.max 0 (fe f - (e - j))) with
    ((fm f * 2 ^ Z.max 0 (fe f - (e - j))) * 2 ^ Z.max 0 (fe f - e)) by ring. rewrite H.
  rewrite <- !(Z.mul_assoc m). rewrite <- !Z.pow_add_r by lia. do 2 f_equal. lia.
Qed.

Lemma from_other_same u x : from_other u u x = near24 x.
Proof.
  unfold from_other. rewrite ratio_same. destruct (Z.eq_dec x 0) as [->|Hx]; [reflexivity|].
  unfold near24. destruct (Z.ltb_spec (Z.abs x) (2 ^ 24)) as [H|H].
  - rewrite f_of_int_small by auto. set (l := Z.log2 (Z.abs x)). assert (0 <= l) by apply Z.log2_nonneg.
    assert (l < 24) by (apply Z.log2_lt_pow2; lia).
    rewrite <- (Z.mul_1_r x) at 2. change 1 with (2 ^ 0). apply fround_int; [lia|].
    apply (fval_is_scale _ x 0 (23 - l)); [lia|]. replace (0 - (23 - l)) with (l - 23) by lia.
    assert (0 < 2 ^ (23 - l)) by (apply Z.pow_pos_nonneg; lia).
    apply fmul_one; [nia|]. rewrite Z.abs_mul, (Z.abs_eq (2 ^ (23 - l))) by lia.
    assert (Z.abs x < 2 ^ (l + 1)) by (apply (Z.log2_spec (Z.abs x)); lia).
    assert (2 ^ 24 = 2 ^ (l + 1) * 2 ^ (23 - l)) as -> by (rewrite <- Z.pow_add_r by lia; f_equal; lia). nia.
  - rewrite f_of_int_large by auto. pose proof (log2_24 _ H) as Hl. set (l := Z.log2 (Z.abs x)) in *. cbv zeta.
    apply fround_int; [lia|]. assert (0 < 2 ^ (l - 23)) by (apply Z.pow_pos_nonneg; lia).
    pose proof (rne_near x (2 ^ (l - 23)) ltac:(lia)) as Hn.
    pose proof (Z.log2_spec (Z.abs x) ltac:(lia)) as [Hs1 Hs2]. fold l in Hs1, Hs2. rewrite Z.pow_succ_r in Hs2 by lia.
    assert (2 ^ l = 2 ^ 23 * 2 ^ (l - 23)) as Ha by (rewrite <- Z.pow_add_r by lia; f_equal; lia). rewrite Ha in Hs1, Hs2.
    apply fmul_one; nia.
Qed.
