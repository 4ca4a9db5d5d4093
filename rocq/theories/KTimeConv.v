(** Accuracy of conversions between units of kernel time. *)
From Coq Require Import ZArith QArith Qabs Lia Lqa Bool List.
From Verif Require Import Base KTimeModel KTimeSpec KTimeProofs.
Import ListNotations.
Open Scope Z_scope.

Definition fnum (f : fl) : Z := fm f * 2 ^ Z.max 0 (fe f).
Definition fden (f : fl) : Z := 2 ^ Z.max 0 (- fe f).

Lemma pow2_pos j : 0 < 2 ^ Z.max 0 j.
Proof. apply Z.pow_pos_nonneg; lia. Qed.
Lemma fden_pos f : 0 < fden f. Proof. apply pow2_pos. Qed.

Lemma fexp_low n d : 0 < n -> 0 < d -> let e := fexp n d in d * 2 ^ Z.max 0 e * 2 ^ 23 <= n * 2 ^ Z.max 0 (- e).
Proof.
  intros Hn Hd. cbv zeta. unfold fexp. set (e := Z.log2 n - Z.log2 d - 23).
  destruct (Z.ltb_spec (n * 2 ^ Z.max 0 (- e)) (d * 2 ^ Z.max 0 e * 2 ^ 23)) as [H|H]; [|exact H].
  pose proof (Z.log2_spec n Hn) as [Hn1 _]. pose proof (Z.log2_spec d Hd) as [_ Hd2].
  assert (0 <= Z.log2 n) by apply Z.log2_nonneg. assert (0 <= Z.log2 d) by apply Z.log2_nonneg.
  pose proof (pow2_pos (e - 1)). pose proof (pow2_pos (- (e - 1))).
  apply Z.le_trans with (2 ^ Z.succ (Z.log2 d) * 2 ^ Z.max 0 (e - 1) * 2 ^ 23); [nia|].
  apply Z.le_trans with (2 ^ Z.log2 n * 2 ^ Z.max 0 (- (e - 1))); [|nia].
  rewrite <- !Z.pow_add_r by lia. apply Z.pow_le_mono_r; lia.
Qed.

Lemma fquot_error n d : 0 < d -> 2 ^ 24 * Z.abs (fnum (fquot n d) * d - n * fden (fquot n d)) <= Z.abs n * fden (fquot n d).
Proof.
  intros Hd. unfold fquot. destruct (Z.eqb_spec n 0) as [->|Hn]; [reflexivity|]. cbv zeta.
  pose proof (fexp_low (Z.abs n) d ltac:(lia) Hd) as Hl. cbv zeta in Hl. set (e := fexp (Z.abs n) d) in *.
  unfold fnum, fden. cbn [fm fe]. pose proof (pow2_pos e). pose proof (pow2_pos (- e)).
  pose proof (rne_near (n * 2 ^ Z.max 0 (- e)) (d * 2 ^ Z.max 0 e) ltac:(nia)) as Hr.
  set (N := n * 2 ^ Z.max 0 (- e)) in *. set (m := rne N (d * 2 ^ Z.max 0 e)) in *.
  replace (m * 2 ^ Z.max 0 e * d) with (m * (d * 2 ^ Z.max 0 e)) by ring.
  assert (Z.abs N = Z.abs n * 2 ^ Z.max 0 (- e)) as HN by (unfold N; rewrite Z.abs_mul, (Z.abs_eq (2 ^ _)) by lia; reflexivity).
  lia.
Qed.

(** ** In rational numbers *)
Definition fq (f : fl) : Q := (inject_Z (fnum f) / inject_Z (fden f))%Q.
Definition u24 : Q := 1 # 16777216.

Lemma inject_pos a : 0 < a -> (0 < inject_Z a)%Q.
Proof. intros H. change 0%Q with (inject_Z 0). rewrite <- Zlt_Qlt. exact H. Qed.

Lemma Qdiv_le_iff (a b c : Q) : (0 < b)%Q -> (a <= c * b)%Q -> (a / b <= c)%Q.
Proof. intros Hb H. apply Qle_shift_div_r; auto. Qed.

(** Relative error form: v = w * (1 + delta). *)
Lemma rel_error (a b c d k : Z) : 0 < b -> 0 < d -> 0 < k -> k * Z.abs (a * d - c * b) <= Z.abs c * b ->
  exists t : Q, (Qabs t <= / inject_Z k)%Q /\ (inject_Z a / inject_Z b == inject_Z c / inject_Z d * (1 + t))%Q.
Proof.
  intros Hb Hd Hk H. pose proof (inject_pos b Hb) as Qb. pose proof (inject_pos d Hd) as Qd. pose proof (inject_pos k Hk) as Qk.
  destruct (Z.eq_dec c 0) as [->|Hc].
  - assert (a = 0) as -> by nia. exists 0%Q. split; [simpl; apply Qlt_le_weak, Qinv_lt_0_compat; auto|].
    change (inject_Z 0) with 0%Q. field. split; intros E; rewrite E in *; apply (Qlt_irrefl 0); auto.
  - assert (Qc : ~ (inject_Z c == 0)%Q). { intros E. apply Hc. apply inject_Z_injective. exact E. }
    assert (Qb' : ~ (inject_Z b == 0)%Q) by (intros E; rewrite E in Qb; apply (Qlt_irrefl 0); auto).
    assert (Qd' : ~ (inject_Z d == 0)%Q) by (intros E; rewrite E in Qd; apply (Qlt_irrefl 0); auto).
    assert (Qk' : ~ (inject_Z k == 0)%Q) by (intros E; rewrite E in Qk; apply (Qlt_irrefl 0); auto).
    exists (inject_Z (a * d - c * b) / inject_Z (c * b))%Q. split.
    + unfold Qdiv. rewrite Qabs_Qmult. rewrite Qabs_Qinv. 
      change (Qabs (inject_Z (c * b))) with (inject_Z (Z.abs (c * b))). change (Qabs (inject_Z (a * d - c * b))) with (inject_Z (Z.abs (a * d - c * b))).
      assert (0 < Z.abs (c * b)) as Hp by nia. pose proof (inject_pos _ Hp) as Qp.
      apply Qle_shift_div_r; auto. apply (Qmult_le_l _ _ (inject_Z k)); auto. rewrite Qmult_assoc, Qmult_inv_r, Qmult_1_l by auto.
      rewrite <- inject_Z_mult, <- Zle_Qle. rewrite (Z.abs_mul c b), (Z.abs_eq b) by lia. lia.
    + unfold Z.sub. rewrite inject_Z_plus, inject_Z_opp, !inject_Z_mult. field. auto.
Qed.

Lemma fq_fquot n d : 0 < d -> exists t : Q, (Qabs t <= u24)%Q /\ (fq (fquot n d) == inject_Z n / inject_Z d * (1 + t))%Q.
Proof. intros Hd. apply (rel_error _ _ n d (2 ^ 24)); auto; [apply fden_pos|lia|apply fquot_error; auto]. Qed.

Lemma fq_int x : exists t : Q, (Qabs t <= u24)%Q /\ (fq (f_of_int x) == inject_Z x * (1 + t))%Q.
Proof.
  destruct (fq_fquot x 1 ltac:(lia)) as (t & H1 & H2). exists t. split; auto. unfold f_of_int. rewrite H2. change (inject_Z 1) with 1%Q. field.
Qed.

Lemma fq_mul a b : exists t : Q, (Qabs t <= u24)%Q /\ (fq (fmul a b) == fq a * fq b * (1 + t))%Q.
Proof.
  unfold fmul. destruct (fq_fquot (fm a * fm b * 2 ^ Z.max 0 (fe a + fe b)) (2 ^ Z.max 0 (- (fe a + fe b))) (pow2_pos _)) as (t & H1 & H2).
  exists t. split; auto. rewrite H2. clear H1 H2. apply Qmult_comp; [|reflexivity].
  unfold fq. 
  assert (E : fm a * fm b * 2 ^ Z.max 0 (fe a + fe b) * (fden a * fden b) = fnum a * fnum b * 2 ^ Z.max 0 (- (fe a + fe b))).
  { unfold fnum, fden. replace (fm a * fm b * 2 ^ Z.max 0 (fe a + fe b) * (2 ^ Z.max 0 (- fe a) * 2 ^ Z.max 0 (- fe b)))
      with (fm a * fm b * (2 ^ Z.max 0 (fe a + fe b) * 2 ^ Z.max 0 (- fe a) * 2 ^ Z.max 0 (- fe b))) by ring.
    replace (fm a * 2 ^ Z.max 0 (fe a) * (fm b * 2 ^ Z.max 0 (fe b)) * 2 ^ Z.max 0 (- (fe a + fe b)))
      with (fm a * fm b * (2 ^ Z.max 0 (fe a) * 2 ^ Z.max 0 (fe b) * 2 ^ Z.max 0 (- (fe a + fe b)))) by ring.
    rewrite <- !Z.pow_add_r by lia. do 2 f_equal. lia. }
  apply (f_equal inject_Z) in E. rewrite !inject_Z_mult in E.
  pose proof (inject_pos _ (fden_pos a)) as Qa. pose proof (inject_pos _ (fden_pos b)) as Qb.
  pose proof (inject_pos _ (pow2_pos (- (fe a + fe b)))) as Qc.
  set (A := inject_Z (fden a)) in *. set (B := inject_Z (fden b)) in *. set (C := inject_Z (2 ^ Z.max 0 (- (fe a + fe b)))) in *.
  rewrite !inject_Z_mult.
  assert (~ A == 0)%Q by (intros X; rewrite X in Qa; apply (Qlt_irrefl 0); auto).
  assert (~ B == 0)%Q by (intros X; rewrite X in Qb; apply (Qlt_irrefl 0); auto).
  assert (~ C == 0)%Q by (intros X; rewrite X in Qc; apply (Qlt_irrefl 0); auto).
  apply (Qmult_inj_r _ _ (A * B * C)%Q).
  { intros X. apply Qmult_integral in X as [X|X]; [apply Qmult_integral in X as [X|X]|]; auto. }
  transitivity (inject_Z (fm a) * inject_Z (fm b) * inject_Z (2 ^ Z.max 0 (fe a + fe b)) * (A * B))%Q; [field; auto|].
  rewrite E. field. auto.
Qed.

(** Every ratio is within two units in the last place, relatively 2^-23, of the exact one: computed for each pair of units. *)
Definition ratio_ok (o t : kunit) : bool :=
  2 ^ 23 * Z.abs (fnum (ratio o t) * micros_per t - micros_per o * fden (ratio o t)) <=? micros_per o * fden (ratio o t).
Lemma ratios_ok o t : ratio_ok o t = true.
Proof. destruct o, t; vm_compute; reflexivity. Qed.

Lemma micros_pos u : 0 < micros_per u.
Proof. destruct u; reflexivity. Qed.

Lemma fq_ratio o t : exists s : Q, (Qabs s <= 2 * u24)%Q /\
  (fq (ratio o t) == inject_Z (micros_per o) / inject_Z (micros_per t) * (1 + s))%Q.
Proof.
  pose proof (ratios_ok o t) as H. apply Z.leb_le in H. pose proof (micros_pos o). pose proof (micros_pos t).
  destruct (rel_error (fnum (ratio o t)) (fden (ratio o t)) (micros_per o) (micros_per t) (2 ^ 23)) as (s & Hs1 & Hs2); auto.
  - apply fden_pos.
  - lia.
  - rewrite (Z.abs_eq (micros_per o)) by lia. exact H.
  - exists s. split; [|exact Hs2]. eapply Qle_trans; [exact Hs1|]. vm_compute. discriminate.
Qed.

Lemma fround_half f : (Qabs (inject_Z (fround f) - fq f) <= 1 # 2)%Q.
Proof.
  pose proof (fden_pos f) as Hd. pose proof (inject_pos _ Hd) as Qd.
  assert (H : 2 * Z.abs (fround f * fden f - fnum f) <= fden f).
  { unfold fround, fnum, fden in *. destruct (Z.leb_spec 0 (fe f)) as [H|H].
    - rewrite (Z.max_r 0 (fe f)), (Z.max_l 0 (- fe f)) by lia. rewrite Z.pow_0_r, Z.mul_1_r, Z.sub_diag. simpl. lia.
    - rewrite (Z.max_l 0 (fe f)), (Z.max_r 0 (- fe f)) in * by lia. cbv zeta. set (d := 2 ^ (- fe f)) in *. rewrite Z.pow_0_r, Z.mul_1_r.
      pose proof (Z.div_mod (2 * Z.abs (fm f) + d) (2 * d) ltac:(lia)) as Hm. pose proof (Z.mod_pos_bound (2 * Z.abs (fm f) + d) (2 * d) ltac:(lia)).
      set (q := (2 * Z.abs (fm f) + d) / (2 * d)) in *. destruct (Z.lt_trichotomy (fm f) 0) as [?|[?|?]].
      + rewrite Z.sgn_neg by lia. nia.
      + rewrite H1. simpl. lia.
      + rewrite Z.sgn_pos by lia. nia. }
  unfold fq. assert (Qd' : ~ (inject_Z (fden f) == 0)%Q) by (intros X; rewrite X in Qd; apply (Qlt_irrefl 0); auto).
  assert (E : (inject_Z (fround f) - inject_Z (fnum f) / inject_Z (fden f) == inject_Z (fround f * fden f - fnum f) / inject_Z (fden f))%Q).
  { unfold Z.sub. rewrite inject_Z_plus, inject_Z_opp, inject_Z_mult. field. auto. }
  rewrite E. unfold Qdiv. rewrite Qabs_Qmult, Qabs_Qinv. rewrite (Qabs_pos (inject_Z (fden f))) by (apply Qlt_le_weak; auto).
  apply Qle_shift_div_r; auto. change (Qabs (inject_Z (fround f * fden f - fnum f))) with (inject_Z (Z.abs (fround f * fden f - fnum f))).
  apply (Qmult_le_l _ _ (2 # 1)); [reflexivity|]. rewrite Qmult_assoc. change ((2 # 1) * (1 # 2))%Q with (2 # 2)%Q.
  change (2 # 2)%Q with (2 # 2)%Q. setoid_replace (2 # 2)%Q with 1%Q by reflexivity. rewrite Qmult_1_l. change (2 # 1)%Q with (inject_Z 2).
  rewrite <- inject_Z_mult, <- Zle_Qle. exact H.
Qed.

Lemma three_factors (a b c : Q) : (Qabs a <= 2 * u24 -> Qabs b <= u24 -> Qabs c <= u24 ->
  Qabs ((1 + a) * (1 + b) * (1 + c) - 1) <= 5 * u24)%Q.
Proof.
  intros Ha Hb Hc. apply Qabs_Qle_condition in Ha as [Ha1 Ha2]. apply Qabs_Qle_condition in Hb as [Hb1 Hb2]. apply Qabs_Qle_condition in Hc as [Hc1 Hc2].
  unfold u24 in *.
  assert (forall x y U V : Q, -U <= x -> x <= U -> -V <= y -> y <= V -> - (U * V) <= x * y /\ x * y <= U * V)%Q as Hp.
  { intros x y U V H1 H2 H3 H4. split; nra. }
  destruct (Hp a b _ _ Ha1 Ha2 Hb1 Hb2) as [Hab1 Hab2]. destruct (Hp a c _ _ Ha1 Ha2 Hc1 Hc2) as [Hac1 Hac2].
  destruct (Hp b c _ _ Hb1 Hb2 Hc1 Hc2) as [Hbc1 Hbc2]. destruct (Hp (a * b)%Q c _ _ Hab1 Hab2 Hc1 Hc2) as [Habc1 Habc2].
  apply Qabs_Qle_condition. split; lra.
Qed.

Lemma from_other_error_q o t x :
  (Qabs (inject_Z (from_other o t x) - inject_Z (x * micros_per o) / inject_Z (micros_per t)) <=
   (1 # 2) + 5 * u24 * Qabs (inject_Z (x * micros_per o) / inject_Z (micros_per t)))%Q.
Proof.
  unfold from_other. destruct (fq_ratio o t) as (a & Ha & Ea). destruct (fq_int x) as (b & Hb & Eb).
  destruct (fq_mul (ratio o t) (f_of_int x)) as (c & Hc & Ec). pose proof (fround_half (fmul (ratio o t) (f_of_int x))) as Hr.
  pose proof (three_factors a b c Ha Hb Hc) as H3.
  set (y := (inject_Z (x * micros_per o) / inject_Z (micros_per t))%Q). set (z := inject_Z (fround (fmul (ratio o t) (f_of_int x)))) in *.
  set (p := fq (fmul (ratio o t) (f_of_int x))) in *.
  assert (Ep : (p == y * ((1 + a) * (1 + b) * (1 + c)))%Q).
  { rewrite Ec, Ea, Eb. unfold y. rewrite inject_Z_mult. field. pose proof (inject_pos _ (micros_pos t)) as Q0.
    intros X; rewrite X in Q0; apply (Qlt_irrefl 0); auto. }
  setoid_replace (z - y)%Q with ((z - p) + y * ((1 + a) * (1 + b) * (1 + c) - 1))%Q by (rewrite Ep; ring).
  eapply Qle_trans; [apply Qabs_triangle|]. apply Qplus_le_compat; auto. rewrite Qabs_Qmult, Qmult_comm.
  apply Qmult_le_compat_r; auto. apply Qabs_nonneg.
Qed.

(** In integers: the deviation from the exact value is at most half a count and 5 * 2^-24 of the value. *)
Lemma from_other_error o t x :
  2 ^ 24 * (2 * Z.abs (from_other o t x * micros_per t - x * micros_per o)) <= 2 ^ 24 * micros_per t + 10 * Z.abs (x * micros_per o).
Proof.
  pose proof (from_other_error_q o t x) as H. set (r := from_other o t x) in *. set (n := x * micros_per o) in *.
  pose proof (micros_pos t) as Hd. set (d := micros_per t) in *. pose proof (inject_pos d Hd) as Qd.
  assert (Qd' : ~ (inject_Z d == 0)%Q) by (intros X; rewrite X in Qd; apply (Qlt_irrefl 0); auto).
  assert (E : (inject_Z r - inject_Z n / inject_Z d == inject_Z (r * d - n) / inject_Z d)%Q).
  { unfold Z.sub. rewrite inject_Z_plus, inject_Z_opp, inject_Z_mult. field. auto. }
  rewrite E in H. unfold Qdiv in H. rewrite !Qabs_Qmult, Qabs_Qinv in H. rewrite (Qabs_pos (inject_Z d)) in H by (apply Qlt_le_weak; auto).
  change (Qabs (inject_Z (r * d - n))) with (inject_Z (Z.abs (r * d - n))) in H. change (Qabs (inject_Z n)) with (inject_Z (Z.abs n)) in H.
  set (A := Z.abs (r * d - n)) in *. set (B := Z.abs n) in *. unfold u24 in H.
  apply (Qmult_le_r _ _ (inject_Z d)) in H; auto.
  setoid_replace (inject_Z A * / inject_Z d * inject_Z d)%Q with (inject_Z A) in H by (field; auto).
  setoid_replace (((1 # 2) + 5 * (1 # 16777216) * (inject_Z B * / inject_Z d)) * inject_Z d)%Q with ((1 # 2) * inject_Z d + (5 # 16777216) * inject_Z B)%Q in H by (field; auto).
  assert (H2 : (inject_Z (2 ^ 24 * (2 * A)) <= inject_Z (2 ^ 24 * d + 10 * B))%Q).
  { rewrite inject_Z_plus, !inject_Z_mult. change (inject_Z (2 ^ 24)) with (16777216 # 1)%Q. change (inject_Z 2) with (2 # 1)%Q.
    change (inject_Z 10) with (10 # 1)%Q. lra. }
  rewrite <- Zle_Qle in H2. exact H2.
Qed.

(** The nearest count, as long as the time is below about two million of the smaller unit. *)
Lemma from_other_nearest o t x : Z.abs (x * micros_per o) < 1677721 * Z.min (micros_per o) (micros_per t) ->
  nearest_count o t x (from_other o t x).
Proof.
  intros H. pose proof (from_other_error o t x) as He. unfold nearest_count.
  set (r := from_other o t x) in *. pose proof (micros_pos t) as Ht. pose proof (micros_pos o) as Ho.
  assert (Hdiv : exists k, 0 < k /\ (micros_per t = k * micros_per o \/ micros_per o = k * micros_per t)).
  { destruct o, t; [exists 1|exists 1000|exists (1000*1000)|exists (60*(1000*1000))|exists (60*(60*(1000*1000)))|exists (24*(60*(60*(1000*1000))))
    |exists 1000|exists 1|exists 1000|exists (60*1000)|exists (60*(60*1000))|exists (24*(60*(60*1000)))
    |exists (1000*1000)|exists 1000|exists 1|exists 60|exists (60*60)|exists (24*(60*60))
    |exists (60*(1000*1000))|exists (60*1000)|exists 60|exists 1|exists 60|exists (24*60)
    |exists (60*(60*(1000*1000)))|exists (60*(60*1000))|exists (60*60)|exists 60|exists 1|exists 24
    |exists (24*(60*(60*(1000*1000))))|exists (24*(60*(60*1000)))|exists (24*(60*60))|exists (24*60)|exists 24|exists 1];
    (split; [reflexivity|]); first [left; reflexivity|right; reflexivity]. }
  destruct Hdiv as (k & Hk & [E|E]).
  - (* to a larger unit: deviations are multiples of the smaller unit *)
    rewrite E in *. set (a := micros_per o) in *. rewrite Z.min_l in H by nia.
    replace (r * (k * a) - x * a) with ((r * k - x) * a) in * by ring. rewrite Z.abs_mul, (Z.abs_eq a) in * by lia.
    assert (Z.abs x < 1677721) as Hx by nia.
    assert (2 ^ 24 * (2 * Z.abs (r * k - x)) <= 2 ^ 24 * k + 10 * Z.abs x) by nia.
    assert (2 * Z.abs (r * k - x) <= k) by lia. nia.
  - (* to a smaller unit: the exact result is an integer *)
    rewrite E in *. set (a := micros_per t) in *. rewrite Z.min_r in H by nia.
    replace (r * a - x * (k * a)) with ((r - x * k) * a) in * by ring. rewrite Z.abs_mul, (Z.abs_eq a) in * by lia.
    replace (x * (k * a)) with ((x * k) * a) in * by ring. rewrite Z.abs_mul, (Z.abs_eq a) in H by lia.
    rewrite (Z.abs_mul (x * k)), (Z.abs_eq a) in He by lia.
    assert (Z.abs (x * k) < 1677721) as Hx by nia.
    assert (2 ^ 24 * (2 * Z.abs (r - x * k)) <= 2 ^ 24 + 10 * Z.abs (x * k)) by nia.
    assert (Z.abs (r - x * k) = 0) by lia. nia.
Qed.
