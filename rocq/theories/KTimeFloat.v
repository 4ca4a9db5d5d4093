(** The conversions of KTimeModel, computed on integers, are those of IEEE binary32 (FloatModel, UnitModel). *)
From Coq Require Import ZArith Reals Lia Lra Bool.
From Flocq Require Import Core IEEE754.BinarySingleNaN.
From Verif Require Import Base KTimeModel KTimeSpec KTimeProofs KTimeFlocq FloatModel FloatFacts UnitModel.
Open Scope R_scope.

(** The magnitudes of the kernel time units (time.hpp:27-32) *)
Definition kmag (u : kunit) : mag :=
  match u with US => Micro | MS => Milli | SEC => Unity | MIN => Minute | HOUR => Hour | DAY => Day end.
(** unit.hpp:138-143 in binary32: std::round(ratio * value) *)
Definition from_other_float (o t : kunit) (x : Z) : option Z := f_round (f_mul (uratio (kmag o) (kmag t)) (f_ofZ x)).

Definition fl_of (x : float) : fl :=
  match x with B754_finite s m e _ => mkFl (if s then Z.neg m else Z.pos m) e | _ => mkFl 0 0 end.
Lemma fl_of_val x : finite x = true -> val x = fval (fl_of x).
Proof.
  destruct x as [s | s | | s m e b]; intros F; try discriminate; unfold val, fval; cbn.
  - ring.
  - unfold F2R. cbn. destruct s; reflexivity.
Qed.
Lemma f_round_away x : finite x = true -> f_round x = Some (ZnearestA (val x)).
Proof.
  intros F. rewrite (fl_of_val x F), <- fround_away. destruct x as [s | s | | s m e b]; try discriminate; [reflexivity |].
  unfold f_round, fl_of, fround. cbn [fm fe]. f_equal. destruct (Z.leb_spec 0 e) as [E | E]; destruct s; try reflexivity.
  - rewrite <- (Z.mul_opp_l (Z.pos m)). reflexivity.
  - change (Z.sgn (Z.pos m)) with 1%Z. change (Z.abs (Z.pos m)) with (Z.pos m). now rewrite Z.mul_1_l.
Qed.

Definition ratio_same_float (o t : kunit) : bool :=
  is_finite (uratio (kmag o) (kmag t)) && (fm (fl_of (uratio (kmag o) (kmag t))) =? fm (ratio o t))%Z && (fe (fl_of (uratio (kmag o) (kmag t))) =? fe (ratio o t))%Z.
Lemma ratio_float o t : finite (uratio (kmag o) (kmag t)) = true /\ val (uratio (kmag o) (kmag t)) = fval (ratio o t).
Proof.
  assert (H : ratio_same_float o t = true) by (destruct o, t; vm_compute; reflexivity).
  unfold ratio_same_float in H. apply andb_prop in H as [H C]. apply andb_prop in H as [A B]. split; [exact A |].
  rewrite fl_of_val by exact A. unfold fval. apply Z.eqb_eq in B, C. now rewrite B, C.
Qed.
Lemma ratio_bounds o t : bpow radix2 (-40) <= fval (ratio o t) <= bpow radix2 40.
Proof.
  assert (H : (-40 <= fe (ratio o t) + 23 /\ fe (ratio o t) + 24 <= 40 /\ 2 ^ 23 <= fm (ratio o t) <= 2 ^ 24)%Z) by (destruct o, t; vm_compute; repeat split; discriminate).
  destruct H as (A & B & C & D). unfold fval. apply IZR_le in C, D. change (IZR (2 ^ 23)) with (bpow radix2 23) in C. change (IZR (2 ^ 24)) with (bpow radix2 24) in D.
  pose proof (bpow_gt_0 radix2 (fe (ratio o t))). split.
  - apply Rle_trans with (bpow radix2 23 * bpow radix2 (fe (ratio o t))); [rewrite <- bpow_plus; apply bpow_le; lia | apply Rmult_le_compat_r; lra].
  - apply Rle_trans with (bpow radix2 24 * bpow radix2 (fe (ratio o t))); [apply Rmult_le_compat_r; lra | rewrite <- bpow_plus; apply bpow_le; lia].
Qed.
Lemma rnd_near x : x = 0 \/ bpow radix2 (-126) <= Rabs x -> rnd x = near x.
Proof.
  intros [-> | H]; [unfold near; rewrite rnd_0, round_0; auto; typeclasses eauto |]. unfold rnd, near, flx. apply round_FLT_FLX. exact H.
Qed.
Lemma near_one x : 1 <= Rabs x -> 1 <= Rabs (near x).
Proof.
  intros H. assert (F : generic_format radix2 flx 1) by (apply (generic_format_bpow radix2 flx 0); unfold flx, FLX_exp; lia).
  unfold near. apply abs_round_ge_generic; auto; typeclasses eauto.
Qed.
Lemma from_other_float_ok o t x : (Z.abs x <= 2 ^ 63)%Z -> from_other_float o t x = Some (from_other o t x).
Proof.
  intros B. unfold from_other_float. destruct (ratio_float o t) as [RF RV]. destruct (ofZ_val x) as [XV XF]; [eapply Z.le_trans; [exact B |]; apply Z.pow_le_mono_r; lia |].
  assert (XN : rnd (IZR x) = near (IZR x)).
  { apply rnd_near. destruct (Z.eq_dec x 0) as [-> | N]; [now left | right]. rewrite <- abs_IZR. apply Rle_trans with (bpow radix2 0); [apply bpow_le; lia |]. apply IZR_le. lia. }
  assert (XB : Rabs (near (IZR x)) <= bpow radix2 63).
  { rewrite <- XN. apply rnd_bound; [lia |]. rewrite <- abs_IZR. change (bpow radix2 63) with (IZR (2 ^ 63)). now apply IZR_le. }
  pose proof (ratio_bounds o t) as [R1 R2]. pose proof (bpow_gt_0 radix2 (-40)) as R0.
  assert (PB : Rabs (fval (ratio o t) * near (IZR x)) <= bpow radix2 103).
  { rewrite Rabs_mult, (Rabs_pos_eq (fval (ratio o t))) by lra. replace (bpow radix2 103) with (bpow radix2 40 * bpow radix2 63) by (rewrite <- bpow_plus; reflexivity).
    apply Rmult_le_compat; try lra. apply Rabs_pos. }
  destruct (mul_val _ _ RF XF) as [MV MF].
  { rewrite RV, XV, XN. apply (rnd_small _ 103); [lia | exact PB]. }
  rewrite f_round_away by exact MF. rewrite MV, RV, XV, XN, from_other_near. f_equal. f_equal. apply rnd_near.
  destruct (Z.eq_dec x 0) as [-> | N]; [left | right].
  - unfold near. rewrite round_0 by typeclasses eauto. ring.
  - rewrite Rabs_mult, (Rabs_pos_eq (fval (ratio o t))) by lra. apply Rle_trans with (bpow radix2 (-40) * 1); [rewrite Rmult_1_r; apply bpow_le; lia |].
    apply Rmult_le_compat; try lra. apply near_one. rewrite <- abs_IZR. apply IZR_le. lia.
Qed.
