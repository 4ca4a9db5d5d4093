(** Facts about binary32 used in several places. *)
From Coq Require Import ZArith Bool Reals Lia Lra.
From Flocq Require Import Core IEEE754.BinarySingleNaN.
Require Import Flocq.Prop.Relative.
From Verif Require Import FloatModel.
Open Scope Z_scope.

(** ** The order, infinities included *)
Lemma lt_le x y : f_lt x y = true -> f_le x y = true.
Proof. unfold f_lt, f_le, Bltb, Bleb, SpecFloat.SFltb, SpecFloat.SFleb. destruct (SpecFloat.SFcompare _ _) as [[]|]; auto; discriminate. Qed.
Lemma cmp_some (x y : float) : f_isnan x = false -> f_isnan y = false -> exists c, Bcompare x y = Some c /\ Bcompare y x = Some (CompOpp c).
Proof.
  intros Hx Hy. rewrite (Bcompare_swap 24 128 x y). destruct (Bcompare x y) as [c|] eqn:E; [eauto|]. exfalso.
  unfold Bcompare in E. destruct x, y; try discriminate; cbn in E; repeat match goal with b : bool |- _ => destruct b end; try discriminate.
  all: repeat match type of E with context [match ?c with _ => _ end] => destruct c end; discriminate.
Qed.
Lemma lt_cmp (x y : float) : f_lt x y = match Bcompare x y with Some Lt => true | _ => false end. Proof. reflexivity. Qed.
Lemma le_cmp (x y : float) : f_le x y = match Bcompare x y with Some Lt | Some Eq => true | _ => false end. Proof. reflexivity. Qed.
Lemma not_lt x y : f_isnan x = false -> f_isnan y = false -> f_lt x y = false -> f_le y x = true.
Proof. intros Hx Hy. rewrite lt_cmp, le_cmp. destruct (cmp_some x y Hx Hy) as (c & -> & ->). destruct c; cbn; congruence. Qed.
Lemma not_le x y : f_isnan x = false -> f_isnan y = false -> f_le x y = false -> f_lt y x = true.
Proof. intros Hx Hy. rewrite lt_cmp, le_cmp. destruct (cmp_some x y Hx Hy) as (c & -> & ->). destruct c; cbn; congruence. Qed.
Lemma le_refl x : f_isnan x = false -> f_le x x = true.
Proof. intros H. apply not_lt; auto. rewrite lt_cmp. destruct (Bcompare x x) as [c|] eqn:E; auto. pose proof (Bcompare_swap 24 128 x x) as S. rewrite E in S. destruct c; cbn in S; congruence. Qed.
Lemma le_nan x y : f_le x y = true -> f_isnan x = false /\ f_isnan y = false.
Proof. destruct x as [s|s| |s m e]; destruct y as [s2|s2| |s2 m2 e2]; cbn; auto; destruct s; discriminate. Qed.
Lemma lt_nan x y : f_lt x y = true -> f_isnan x = false /\ f_isnan y = false.
Proof. intros H. apply le_nan, lt_le, H. Qed.
Lemma ge_false x y : f_isnan x = false -> f_isnan y = false -> f_ge x y = false -> f_lt x y = true.
Proof. intros. apply not_le; auto. Qed.

(** ** Real values *)
Open Scope R_scope.
Definition val (x : float) : R := B2R x.
Definition fmt := generic_format radix2 (FLT_exp (-149) 24).
Definition rnd := round radix2 (FLT_exp (-149) 24) ZnearestE.
Definition big : R := bpow radix2 128.
Notation finite := (@is_finite 24 128).
#[global] Instance fexp_valid : Valid_exp (FLT_exp (-149) 24). Proof. apply FLT_exp_valid. reflexivity. Qed.
#[global] Instance fexp_mono : Monotone_exp (FLT_exp (-149) 24). Proof. apply FLT_exp_monotone. Qed.

Lemma val_fmt x : fmt (val x). Proof. apply (generic_format_B2R 24 128 x). Qed.
Lemma rnd_fmt x : fmt (rnd x). Proof. apply generic_format_round; typeclasses eauto. Qed.
Lemma rnd_id x : fmt x -> rnd x = x. Proof. apply round_generic. typeclasses eauto. Qed.
Lemma rnd_le x y : x <= y -> rnd x <= rnd y. Proof. apply round_le; typeclasses eauto. Qed.
Lemma rnd_0 : rnd 0 = 0. Proof. apply round_0. typeclasses eauto. Qed.
Lemma rnd_opp x : rnd (- x) = - rnd x. Proof. unfold rnd. apply round_NE_opp. Qed.
Lemma fmt_opp x : fmt x -> fmt (- x). Proof. apply generic_format_opp. Qed.
Lemma fmt_0 : fmt 0. Proof. apply generic_format_0. Qed.
Lemma fmt_bpow e : (-149 <= e)%Z -> fmt (bpow radix2 e). Proof. intros H. apply generic_format_bpow. unfold FLT_exp. lia. Qed.
Lemma fmt_Z n : (Z.abs n <= 2 ^ 24)%Z -> fmt (IZR n).
Proof.
  intros H. destruct (Z.eq_dec (Z.abs n) (2 ^ 24)) as [E|E].
  - destruct (Z.abs_spec n) as [[_ A]|[_ A]]; rewrite A in E.
    + rewrite E. change (fmt (bpow radix2 24)). now apply fmt_bpow.
    + replace n with (- 2 ^ 24)%Z by lia. rewrite opp_IZR. apply fmt_opp. change (fmt (bpow radix2 24)). now apply fmt_bpow.
  - apply generic_format_FLT. apply (FLT_spec _ _ _ _ (Float radix2 n 0)); cbn [Fnum Fexp]; [unfold F2R; cbn; ring|change (radix2 ^ 24)%Z with (2 ^ 24)%Z; lia|lia].
Qed.
Lemma rnd_bound x e : (-149 <= e)%Z -> Rabs x <= bpow radix2 e -> Rabs (rnd x) <= bpow radix2 e.
Proof. intros He H. apply Rabs_le_inv in H as [H1 H2]. apply Rabs_le. split; [rewrite <- (rnd_id (- bpow radix2 e)) by (apply fmt_opp, fmt_bpow, He)|rewrite <- (rnd_id (bpow radix2 e)) by apply fmt_bpow, He]; now apply rnd_le. Qed.
Lemma rnd_small x e : (-149 <= e < 128)%Z -> Rabs x <= bpow radix2 e -> Rabs (rnd x) < big.
Proof. intros He H. eapply Rle_lt_trans; [apply (rnd_bound x e); auto; lia|]. apply bpow_lt. lia. Qed.

Lemma lt_val x y : finite x = true -> finite y = true -> f_lt x y = Rlt_bool (val x) (val y). Proof. apply Bltb_correct. Qed.
Lemma le_val x y : finite x = true -> finite y = true -> f_le x y = Rle_bool (val x) (val y). Proof. apply Bleb_correct. Qed.
Lemma eq_val x y : finite x = true -> finite y = true -> f_eq x y = Req_bool (val x) (val y). Proof. apply Beqb_correct. Qed.

Lemma mul_val x y : finite x = true -> finite y = true -> Rabs (rnd (val x * val y)) < big ->
  val (f_mul x y) = rnd (val x * val y) /\ finite (f_mul x y) = true.
Proof.
  intros Hx Hy Hb. pose proof (Bmult_correct 24 128 _ _ mode_NE x y) as H. unfold big in Hb. rewrite Rlt_bool_true in H by exact Hb.
  destruct H as (H1 & H2 & _). split; [exact H1|]. unfold f_mul. now rewrite H2, Hx, Hy.
Qed.
Lemma add_val x y : finite x = true -> finite y = true -> Rabs (rnd (val x + val y)) < big ->
  val (f_add x y) = rnd (val x + val y) /\ finite (f_add x y) = true.
Proof.
  intros Hx Hy Hb. pose proof (Bplus_correct 24 128 _ _ mode_NE x y Hx Hy) as H. unfold big in Hb. rewrite Rlt_bool_true in H by exact Hb.
  destruct H as (H1 & H2 & _). split; [exact H1|exact H2].
Qed.
Lemma sub_val x y : finite x = true -> finite y = true -> Rabs (rnd (val x - val y)) < big ->
  val (f_sub x y) = rnd (val x - val y) /\ finite (f_sub x y) = true.
Proof.
  intros Hx Hy Hb. pose proof (Bminus_correct 24 128 _ _ mode_NE x y Hx Hy) as H. unfold big in Hb. rewrite Rlt_bool_true in H by exact Hb.
  destruct H as (H1 & H2 & _). split; [exact H1|exact H2].
Qed.
Lemma div_val x y : finite x = true -> finite y = true -> val y <> 0 -> Rabs (rnd (val x / val y)) < big ->
  val (f_div x y) = rnd (val x / val y) /\ finite (f_div x y) = true.
Proof.
  intros Hx Hy H0 Hb. pose proof (Bdiv_correct 24 128 _ _ mode_NE x y H0) as H. unfold big in Hb. rewrite Rlt_bool_true in H by exact Hb.
  destruct H as (H1 & H2 & _). split; [exact H1|]. unfold f_div. now rewrite H2.
Qed.
Lemma ofZ_val n : (Z.abs n <= 2 ^ 127)%Z -> val (f_ofZ n) = rnd (IZR n) /\ finite (f_ofZ n) = true.
Proof.
  intros H. pose proof (binary_normalize_correct 24 128 _ _ mode_NE n 0 false) as C. cbv zeta in C.
  replace (F2R _) with (IZR n) in C by (unfold F2R; cbn; ring).
  rewrite Rlt_bool_true in C.
  - destruct C as (C1 & C2 & _). split; [exact C1|exact C2].
  - apply (rnd_small (IZR n) 127); [lia|]. rewrite <- abs_IZR. change (bpow radix2 127) with (IZR (2 ^ 127)). apply IZR_le. exact H.
Qed.
Lemma ofZ_exact n : (Z.abs n <= 2 ^ 24)%Z -> val (f_ofZ n) = IZR n /\ finite (f_ofZ n) = true.
Proof. intros H. destruct (ofZ_val n) as [H1 H2]; [transitivity (2 ^ 24)%Z; [exact H|now vm_compute]|]. split; auto. rewrite H1. apply rnd_id, fmt_Z, H. Qed.

(** Relative error in the normal range *)
Lemma rnd_error x : bpow radix2 (-126) <= Rabs x -> exists eps, Rabs eps <= bpow radix2 (-24) /\ rnd x = x * (1 + eps).
Proof.
  intros H. destruct (relative_error_N_FLT_ex radix2 (-149) 24 eq_refl (fun z => negb (Z.even z)) x) as (eps & H1 & H2).
  - exact H.
  - exists eps. split; [|exact H2]. replace (bpow radix2 (-24)) with (/ 2 * bpow radix2 (- 24 + 1)); [exact H1|]. change (/2 * bpow radix2 (-23) = bpow radix2 (-24)). cbn. lra.
Qed.
