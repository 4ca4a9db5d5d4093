(** Lemmas on fading. *)
From Coq Require Import ZArith Reals Lia Lra Bool List.
From Flocq Require Import Core IEEE754.BinarySingleNaN.
From Verif Require Import Base FloatModel FloatFacts FilterProofs UnitModel UnitProofs GpioModel GpioSpec.
Import ListNotations.
Open Scope R_scope.

Lemma zero_val : val f_zero = 0 /\ finite f_zero = true. Proof. split; reflexivity. Qed.
Lemma one_val1 : val f_one = 1 /\ finite f_one = true. Proof. exact one_val. Qed.

(** ** Range *)
Lemma add_not_nan x y : finite x = true -> finite y = true -> f_isnan (f_add x y) = false.
Proof.
  intros Fx Fy. pose proof (Bplus_correct 24 128 _ _ mode_NE x y Fx Fy) as H. fold (f_add x y) in H.
  destruct (Rlt_bool _ _).
  - destruct H as (_ & H & _). destruct (f_add x y); try discriminate; reflexivity.
  - destruct H as [H _]. destruct (f_add x y) as [s | s | | s m e b]; try reflexivity. unfold binary_overflow in H. cbn in H. discriminate.
Qed.
Lemma clamp_unit x : f_isnan x = false -> unit_value (f_clamp x f_zero f_one).
Proof.
  intros N. unfold unit_value, f_clamp. destruct zero_val as [Z0 ZF]. destruct one_val1 as [O1 OF].
  destruct (f_lt x f_zero) eqn:A; [rewrite Z0; split; [exact ZF | lra] |].
  destruct (f_lt f_one x) eqn:B; [rewrite O1; split; [exact OF | lra] |].
  apply (not_lt x f_zero N eq_refl) in A. apply (not_lt f_one x eq_refl N) in B.
  assert (F : finite x = true) by (destruct x as [s | [] | | s m e b]; auto; try discriminate).
  split; [exact F |]. apply (le_real _ _ ZF F) in A. apply (le_real _ _ F OF) in B. rewrite Z0 in A. rewrite O1 in B. lra.
Qed.
Lemma add_not_nan_inf x y : f_isnan x = false -> finite y = true -> f_isnan (f_add x y) = false.
Proof.
  intros X Y. destruct (finite x) eqn:F; [now apply add_not_nan |]. destruct x as [s | s | | s m e b]; try discriminate. destruct y as [s' | s' | | s' m' e' b']; try discriminate; reflexivity.
Qed.
Lemma loop_unit fuel : forall v step inc d, f_isnan v = false -> finite step = true -> Forall unit_value (fst (fade_loop fuel v step inc d)).
Proof.
  induction fuel as [| n IH]; intros v step inc d V S; cbn [fade_loop]; destruct (f_gt d f_zero); try constructor.
  pose proof (clamp_unit _ (add_not_nan_inf v step V S)) as C.
  assert (N : f_isnan (f_clamp (f_add v step) f_zero f_one) = false) by (destruct C as [C _]; destruct (f_clamp _ _ _); try discriminate; reflexivity).
  pose proof (IH _ step inc (f_sub d inc) N S) as I.
  destruct (fade_loop n _ _ _ _) as [vs fin]. cbn [fst] in *. now constructor.
Qed.
Lemma step_val (neg : bool) inc : finite inc = true ->
  finite (f_mul (f_ofZ (if neg then -1 else 1)) inc) = true /\ val (f_mul (f_ofZ (if neg then -1 else 1)) inc) = (if neg then - val inc else val inc).
Proof.
  intros F. destruct (ofZ_exact (if neg then -1 else 1)%Z) as [V O]; [destruct neg; vm_compute; discriminate |].
  assert (E : val (f_ofZ (if neg then -1 else 1)) * val inc = if neg then - val inc else val inc) by (rewrite V; destruct neg; ring).
  assert (M : fmt (if neg then - val inc else val inc)) by (destruct neg; [apply fmt_opp |]; apply val_fmt).
  destruct (mul_val _ inc O F) as [A B]; [| rewrite E, rnd_id in A by exact M; auto].
  rewrite E, rnd_id by exact M. unfold big. destruct neg; [rewrite Rabs_Ropp |]; apply abs_B2R_lt_emax.
Qed.
Lemma mul_nan_r x : f_mul x f_nan = f_nan. Proof. destruct x; reflexivity. Qed.
Lemma diff_odd v s inc : f_isnan v = true \/ finite inc = false -> fade_diff v s inc = f_nan.
Proof.
  intros H. unfold fade_diff. cbv zeta.
  assert (R : f_roundf f_nan = f_nan) by reflexivity. assert (D : forall x, f_div f_nan x = f_nan) by (intros []; reflexivity).
  destruct (f_isnan v) eqn:N.
  - destruct v; try discriminate. assert (f_abs (f_sub B754_nan s) = f_nan) as -> by (destruct s; reflexivity).
    assert (forall x, f_mul f_nan x = f_nan) as -> by (intros []; reflexivity). now rewrite R, D.
  - destruct H as [H | H]; [discriminate |]. destruct inc as [b | b | | b m e bd]; try discriminate.
    + assert (f_div f_one (B754_infinity b) = B754_zero b) as -> by (apply B2SF_inj; destruct b; vm_compute; reflexivity).
      assert (Q : f_div f_zero (B754_zero b) = f_nan) by reflexivity.
      destruct (f_abs (f_sub v s)) as [c | c | | c m e bd]; cbn -[f_roundf f_div]; unfold f_roundf; cbn [f_round];
        try (change (f_ofZ 0) with (B754_zero false : float); exact Q); reflexivity.
    + assert (f_div f_one B754_nan = f_nan) as -> by (apply B2SF_inj; vm_compute; reflexivity). rewrite mul_nan_r, R. apply D.
Qed.
Lemma fade_odd fuel v s inc : f_isnan v = true \/ finite inc = false -> fade fuel v s inc = ([], true).
Proof.
  intros H. unfold fade. rewrite (diff_odd v s inc H). cbv zeta. assert (f_lt f_nan inc = false) as -> by reflexivity. destruct fuel; reflexivity.
Qed.
Lemma fade_unit fuel v s inc : unit_value s -> Forall unit_value (fst (fade fuel v s inc)).
Proof.
  intros S. destruct (f_isnan v) eqn:V; [rewrite fade_odd by auto; constructor |]. destruct (finite inc) eqn:I; [| rewrite fade_odd by auto; constructor].
  unfold fade. cbv zeta. destruct (f_lt _ inc); [constructor; [exact S | constructor] |]. apply loop_unit; [exact V |].
  apply (step_val (f_gt v s) inc I).
Qed.

(** ** More rounds change nothing once the fade has returned *)
Lemma loop_fuel n : forall m v step inc d, snd (fade_loop n v step inc d) = true -> (n <= m)%nat -> fade_loop m v step inc d = fade_loop n v step inc d.
Proof.
  induction n as [| n IH]; intros m v step inc d H L; cbn [fade_loop] in H.
  - destruct m; cbn [fade_loop]; destruct (f_gt d f_zero); try discriminate; reflexivity.
  - destruct m as [| m]; [lia |]. cbn [fade_loop]. destruct (f_gt d f_zero); [| reflexivity]. cbv zeta in *.
    rewrite (IH m); [reflexivity | | lia]. destruct (fade_loop n _ _ _ _) as [vs fin]. exact H.
Qed.
Lemma fade_fuel n m v s inc : snd (fade n v s inc) = true -> (n <= m)%nat -> fade m v s inc = fade n v s inc.
Proof. unfold fade. cbv zeta. destruct (f_lt _ inc); [reflexivity |]. apply loop_fuel. Qed.

(** ** The loop in real numbers *)
Definition clampR (x : R) : R := Rmax 0 (Rmin 1 x).
Lemma clampR_case x : (x <= 0 /\ clampR x = 0) \/ (0 <= x <= 1 /\ clampR x = x) \/ (1 <= x /\ clampR x = 1).
Proof. unfold clampR, Rmax, Rmin. destruct (Rle_dec 1 x); destruct (Rle_dec 0 _); lra. Qed.
Lemma clampR_unit x : 0 <= clampR x <= 1.
Proof. destruct (clampR_case x) as [[? ->] | [[? ->] | [? ->]]]; lra. Qed.
Lemma clampR_id x : 0 <= x <= 1 -> clampR x = x.
Proof. intros H. destruct (clampR_case x) as [[? ->] | [[? ->] | [? ->]]]; lra. Qed.
Lemma clampR_near x y : Rabs (clampR x - clampR y) <= Rabs (x - y).
Proof.
  destruct (clampR_case x) as [[? ->] | [[? ->] | [? ->]]]; destruct (clampR_case y) as [[? ->] | [[? ->] | [? ->]]]; unfold Rabs; repeat destruct (Rcase_abs _); lra.
Qed.
Lemma clampR_twice x y : 0 <= x -> 0 <= y -> clampR (clampR x + y) = clampR (x + y).
Proof.
  intros X Y. destruct (clampR_case x) as [[? ->] | [[? ->] | [? ->]]]; [f_equal; lra | reflexivity |].
  destruct (clampR_case (1 + y)) as [[? ->] | [[? ->] | [? ->]]]; destruct (clampR_case (x + y)) as [[? ->] | [[? ->] | [? ->]]]; lra.
Qed.
Lemma clampR_twice_down x y : x <= 1 -> y <= 0 -> clampR (clampR x + y) = clampR (x + y).
Proof.
  intros X Y. destruct (clampR_case x) as [[? ->] | [[? ->] | [? ->]]]; [| reflexivity | f_equal; lra].
  destruct (clampR_case (0 + y)) as [[? ->] | [[? ->] | [? ->]]]; destruct (clampR_case (x + y)) as [[? ->] | [[? ->] | [? ->]]]; lra.
Qed.

Lemma clamp_val x : finite x = true -> val (f_clamp x f_zero f_one) = clampR (val x) /\ finite (f_clamp x f_zero f_one) = true.
Proof.
  intros F. destruct zero_val as [Z0 ZF]. destruct one_val1 as [O1 OF]. unfold f_clamp. rewrite (lt_val x f_zero F ZF), Z0.
  case Rlt_bool_spec; intros A; [split; [| exact ZF]; rewrite Z0; destruct (clampR_case (val x)) as [[? ->] | [[? ->] | [? ->]]]; lra |].
  rewrite (lt_val f_one x OF F), O1. case Rlt_bool_spec; intros B; [split; [| exact OF]; rewrite O1 | split; [| exact F]];
    destruct (clampR_case (val x)) as [[? E] | [[? E] | [? E]]]; rewrite E; lra.
Qed.

Definition e24 : R := bpow radix2 (-24).
Definition e25 : R := bpow radix2 (-25).
Lemma e25_e24 : e24 = 2 * e25 /\ 0 < e25.
Proof. unfold e24, e25. split; [change (-24)%Z with (1 + -25)%Z; rewrite bpow_plus; reflexivity | apply bpow_gt_0]. Qed.
(** One step *)
Lemma step_value v step : unit_value v -> finite step = true -> Rabs (val step) <= 1 ->
  let w := f_clamp (f_add v step) f_zero f_one in unit_value w /\ Rabs (val w - clampR (val v + val step)) <= e25.
Proof.
  intros [V VB] S SB w. apply Rabs_le_inv in SB. destruct (add_val v step V S) as [A F].
  { apply (rnd_small _ 1); [lia |]. change (bpow radix2 1) with 2. apply Rabs_le. lra. }
  destruct (clamp_val _ F) as [E G]. fold w in E, G. split; [split; [exact G | rewrite E; apply clampR_unit] |].
  rewrite E, A. set (x := val v + val step). pose proof e25_e24 as [_ P].
  destruct (Rle_or_lt x 0) as [N | N]; [| destruct (Rle_or_lt 1 x) as [M | M]].
  - assert (rnd x <= 0) by (rewrite <- rnd_0; now apply rnd_le). destruct (clampR_case x) as [[? ->] | [[? ->] | [? ->]]]; destruct (clampR_case (rnd x)) as [[? ->] | [[? ->] | [? ->]]]; try lra; rewrite Rabs_pos_eq; lra.
  - assert (1 <= rnd x) by (rewrite <- (rnd_id 1) by (apply (fmt_bpow 0); lia); now apply rnd_le). destruct (clampR_case x) as [[? ->] | [[? ->] | [? ->]]]; destruct (clampR_case (rnd x)) as [[? ->] | [[? ->] | [? ->]]]; try lra; unfold Rabs; destruct (Rcase_abs _); lra.
  - eapply Rle_trans; [apply clampR_near |]. apply rnd_abs_error. rewrite Rabs_pos_eq; lra.
Qed.
Lemma step_diff d inc : finite d = true -> finite inc = true -> 0 < val d <= 3 / 2 -> 0 < val inc <= 1 ->
  finite (f_sub d inc) = true /\ Rabs (val (f_sub d inc) - (val d - val inc)) <= e24 /\ val (f_sub d inc) <= val d.
Proof.
  intros D I DB IB. destruct (sub_val d inc D I) as [A F].
  { apply (rnd_small _ 1); [lia |]. change (bpow radix2 1) with 2. apply Rabs_le. lra. }
  split; [exact F |]. rewrite A. split.
  - apply (rnd_bounded_error _ 1); [lia |]. change (bpow radix2 1) with 2. apply Rabs_lt. lra.
  - rewrite <- (rnd_id (val d)) at 2 by apply val_fmt. apply rnd_le. lra.
Qed.
Lemma gt_zero d : finite d = true -> f_gt d f_zero = Rlt_bool 0 (val d).
Proof. intros F. change (f_gt d f_zero) with (f_lt f_zero d). rewrite lt_val by (auto; reflexivity). reflexivity. Qed.

(** Termination *)
Lemma loop_ends n : forall v step inc d, unit_value v -> finite step = true -> Rabs (val step) <= 1 -> finite inc = true -> finite d = true ->
  val d <= 3 / 2 -> e24 < val inc <= 1 -> val d <= INR n * (val inc - e24) -> snd (fade_loop n v step inc d) = true.
Proof.
  induction n as [| n IH]; intros v step inc d V S SB I D DB IB N; cbn [fade_loop]; rewrite gt_zero by exact D; case Rlt_bool_spec; intros P; auto.
  - change (INR 0) with 0 in N. lra.
  - pose proof e25_e24 as [E1 E2]. destruct (step_value v step V S SB) as [W _]. destruct (step_diff d inc D I ltac:(lra) ltac:(lra)) as (F & A & B).
    rewrite S_INR in N. apply Rabs_le_inv in A. specialize (IH _ step inc _ W S SB I F). destruct (fade_loop n _ _ _ _) as [vs fin]. apply IH; lra.
Qed.
(** Where it ends: after n steps, (n - 1) of which did not use up the difference *)
Lemma loop_position fuel : forall v step inc d vs, unit_value v -> finite step = true -> finite inc = true -> finite d = true ->
  0 < val d <= 3 / 2 -> e24 < val inc <= 1 -> val step = val inc \/ val step = - val inc ->
  fade_loop fuel v step inc d = (vs, true) ->
  exists n, length vs = S n /\ let k := INR (S n) in
    k * val inc >= val d - k * e24 /\ (k - 1) * val inc <= val d + k * e24 /\
    Rabs (val (last vs v) - clampR (val v + k * val step)) <= k * e25 /\ smooth (val inc + e25) (val v) vs.
Proof.
  induction fuel as [| fuel IH]; intros v step inc d vs V S I D DB IB ST H; cbn [fade_loop] in H; rewrite gt_zero in H by exact D; rewrite Rlt_bool_true in H by lra; [discriminate |].
  cbv zeta in H. pose proof e25_e24 as [E1 E2]. assert (SB : Rabs (val step) <= 1) by (apply Rabs_le; destruct ST as [-> | ->]; lra).
  destruct (step_value v step V S SB) as [W WE]. destruct (step_diff d inc D I ltac:(lra) ltac:(lra)) as (F & A & B). set (w := f_clamp _ _ _) in *. apply Rabs_le_inv in A.
  assert (J : Rabs (val w - val v) <= val inc + e25).
  { replace (val w - val v) with ((val w - clampR (val v + val step)) + (clampR (val v + val step) - val v)) by ring. eapply Rle_trans; [apply Rabs_triang |].
    rewrite Rplus_comm. apply Rplus_le_compat; [| exact WE]. rewrite <- (clampR_id (val v)) at 2 by apply V. eapply Rle_trans; [apply clampR_near |].
    replace (val v + val step - val v) with (val step) by ring. destruct ST as [-> | ->]; [| rewrite Rabs_Ropp]; rewrite Rabs_pos_eq; lra. }
  destruct (fade_loop fuel w step inc (f_sub d inc)) as [ws fin] eqn:L. injection H as <- ->.
  destruct (Rle_or_lt (val (f_sub d inc)) 0) as [Z | Z].
  - assert (ws = []) as ->.
    { destruct fuel; cbn [fade_loop] in L; rewrite gt_zero in L by exact F; rewrite Rlt_bool_false in L by exact Z; now injection L as <-. }
    exists 0%nat. split; [reflexivity |]. change (INR 1) with 1. cbn [last smooth]. repeat split; try lra; try exact J. rewrite !Rmult_1_l. exact WE.
  - destruct (IH w step inc (f_sub d inc) ws W S I F ltac:(lra) IB ST L) as (n & LN & K1 & K2 & K3 & K4). exists (Datatypes.S n). split; [cbn [length]; now rewrite LN |].
    cbv zeta in *. rewrite (S_INR (Datatypes.S n)). set (k := INR (Datatypes.S n)) in *. assert (KP : 0 <= k) by apply pos_INR.
    split; [lra | split; [lra | split; [| split; [exact J | exact K4]]]].
    assert (LV : last (w :: ws) v = last ws w).
    { destruct ws as [| a ws]; [discriminate LN |]. cbn [last]. clear. revert a. induction ws as [| b ws IH]; intros a; [reflexivity |]. apply IH. }
    rewrite LV. replace (val v + (k + 1) * val step) with (val v + val step + k * val step) by ring.
    assert (T : clampR (clampR (val v + val step) + k * val step) = clampR (val v + val step + k * val step)).
    { destruct V as [_ V]. destruct ST as [-> | ->].
      - apply clampR_twice; [lra |]. apply Rmult_le_pos; lra.
      - apply clampR_twice_down; [lra |]. assert (0 <= k * val inc) by (apply Rmult_le_pos; lra). lra. }
    rewrite <- T. replace (val (last ws w) - clampR (clampR (val v + val step) + k * val step)) with
      ((val (last ws w) - clampR (val w + k * val step)) + (clampR (val w + k * val step) - clampR (clampR (val v + val step) + k * val step))) by ring.
    eapply Rle_trans; [apply Rabs_triang |]. replace ((k + 1) * e25) with (k * e25 + e25) by ring. apply Rplus_le_compat; [exact K3 |].
    eapply Rle_trans; [apply clampR_near |]. replace (val w + k * val step - (clampR (val v + val step) + k * val step)) with (val w - clampR (val v + val step)) by ring. exact WE.
Qed.

(** ** The difference *)
Lemma rnd_one_rel x y : 0 <= x <= y -> 1 <= y -> Rabs (rnd x - x) <= y * e24.
Proof.
  intros X Y. pose proof e25_e24 as [E1 E2]. destruct (Rle_or_lt (bpow radix2 (-126)) x) as [B | B].
  - destruct (rnd_error x) as (e & EB & ->); [rewrite Rabs_pos_eq; lra |]. replace (x * (1 + e) - x) with (x * e) by ring. rewrite Rabs_mult, (Rabs_pos_eq x) by lra.
    apply Rmult_le_compat; try lra; [apply Rabs_pos | exact EB].
  - apply Rle_trans with (bpow radix2 (-100 - 25)).
    + apply rnd_bounded_error; [lia |]. rewrite Rabs_pos_eq by lra. apply Rlt_trans with (1 := B). apply bpow_lt. lia.
    + apply Rle_trans with (1 * e24); [rewrite Rmult_1_l; apply bpow_le; lia |]. apply Rmult_le_compat_r; lra.
Qed.
Lemma diff_val v s inc : unit_value v -> unit_value s -> finite inc = true -> bpow radix2 (-20) <= val inc <= 1 ->
  let d := fade_diff v s inc in finite d = true /\ 0 <= val d <= 3 / 2 /\ Rabs (val d - Rabs (val v - val s)) <= val inc / 2 + 4 * e24.
Proof.
  intros [V VB] [S SB] I IB d. pose proof e25_e24 as [E1 E2]. pose proof (bpow_gt_0 radix2 (-20)) as P20. set (i := val inc) in *.
  assert (E24 : e24 <= / 1000) by (unfold e24; change (bpow radix2 (-24)) with (/ IZR (2 ^ 24)); apply Rinv_le; [lra | apply IZR_le; vm_compute; discriminate]).
  assert (INV : 1 <= 1 / i <= bpow radix2 20).
  { split; [apply (Rmult_le_reg_r i); [lra |]; replace (1 / i * i) with 1 by (field; lra); lra |].
    apply (Rmult_le_reg_r i); [lra |]. replace (1 / i * i) with 1 by (field; lra). replace 1 with (bpow radix2 20 * bpow radix2 (-20)) by (rewrite <- bpow_plus; reflexivity).
    apply Rmult_le_compat_l; [apply bpow_ge_0 | lra]. }
  destruct one_val1 as [O1 OF]. destruct (div_val f_one inc OF I ltac:(fold i; lra)) as [DV DF].
  { rewrite O1. apply (rnd_small _ 20); [lia |]. fold i. rewrite Rabs_pos_eq; lra. }
  rewrite O1 in DV. fold i in DV. unfold fade_diff in d. set (dec := f_div f_one inc) in *.
  assert (DB : 1 <= val dec <= bpow radix2 20).
  { rewrite DV. split.
    - apply Rle_trans with (rnd 1); [right; symmetry; apply rnd_id, (fmt_bpow 0); lia | apply rnd_le; lra].
    - rewrite <- (rnd_id (bpow radix2 20)) by (apply fmt_bpow; lia). apply rnd_le. lra. }
  assert (DI : / val dec <= i + 2 * e24).
  { destruct (rnd_error (1 / i)) as (e & EB & EQ); [rewrite Rabs_pos_eq by lra; apply Rle_trans with (bpow radix2 0); [apply bpow_le; lia | exact (proj1 INV)] |].
    fold e24 in EB. apply Rabs_le_inv in EB. rewrite DV, EQ. replace (/ (1 / i * (1 + e))) with (i / (1 + e)) by (field; lra).
    apply (Rmult_le_reg_r (1 + e)); [lra |]. replace (i / (1 + e) * (1 + e)) with i by (field; lra).
    assert (0 <= (i + 2 * e24) * (1 + e) - i); [| lra]. replace ((i + 2 * e24) * (1 + e) - i) with (i * e + 2 * e24 + 2 * (e24 * e)) by ring.
    assert (i * - e24 <= i * e) by (apply Rmult_le_compat_l; lra). assert (i * e24 <= 1 * e24) by (apply Rmult_le_compat_r; lra).
    assert (e24 * - e24 <= e24 * e) by (apply Rmult_le_compat_l; lra). assert (e24 * e24 <= e24 * / 1000) by (apply Rmult_le_compat_l; lra). lra. }
  destruct (sub_val v s V S) as [AV AF].
  { apply (rnd_small _ 0); [lia |]. change (bpow radix2 0) with 1. apply Rabs_le. lra. }
  destruct (abs_float (f_sub v s)) as [BF BV]. rewrite AF in BF. rewrite AV in BV. set (a := f_abs (f_sub v s)) in *.
  assert (AB : 0 <= val a <= 1).
  { rewrite BV. split; [apply Rabs_pos |]. apply (rnd_bound _ 0); [lia |]. change (bpow radix2 0) with 1. apply Rabs_le. lra. }
  assert (AE : Rabs (val a - Rabs (val v - val s)) <= e25).
  { rewrite BV. eapply Rle_trans; [apply Rabs_triang_inv2 |]. apply rnd_abs_error. apply Rabs_le. lra. }
  assert (PB : 0 <= val a * val dec <= val dec).
  { split; [apply Rmult_le_pos; lra |]. rewrite <- (Rmult_1_l (val dec)) at 2. apply Rmult_le_compat_r; lra. }
  assert (RB : 0 <= rnd (val a * val dec) <= val dec).
  { split; [apply rnd_nonneg; lra |]. rewrite <- (rnd_id (val dec)) at 2 by apply val_fmt. apply rnd_le. lra. }
  destruct (mul_val a dec BF DF) as [MV MF].
  { apply (rnd_small _ 20); [lia |]. rewrite Rabs_pos_eq; lra. }
  set (p := f_mul a dec) in *. destruct (f_round_spec p MF) as (n & NE & NB). rewrite MV in NB.
  assert (PE : Rabs (rnd (val a * val dec) - val a * val dec) <= val dec * e24) by (apply rnd_one_rel; lra).
  apply Rabs_le_inv in NB. assert (N0 : (0 <= n)%Z). { assert (-1 < n)%Z; [| lia]. apply lt_IZR. lra. }
  assert (N1 : (n <= 2 ^ 20)%Z). { assert (n < 2 ^ 20 + 1)%Z; [| lia]. apply lt_IZR. rewrite plus_IZR. change (IZR (2 ^ 20)) with (bpow radix2 20). lra. }
  destruct (ofZ_exact n ltac:(lia)) as [CV CF].
  assert (QB : 0 <= IZR n / val dec <= 3 / 2).
  { split; [apply Rmult_le_pos; [now apply IZR_le | left; apply Rinv_0_lt_compat; lra] |]. apply (Rmult_le_reg_r (val dec)); [lra |].
    replace (IZR n / val dec * val dec) with (IZR n) by (field; lra). lra. }
  destruct (div_val (f_ofZ n) dec CF DF ltac:(lra)) as [GV GF].
  { rewrite CV. apply (rnd_small _ 1); [lia |]. change (bpow radix2 1) with 2. rewrite Rabs_pos_eq; lra. }
  assert (d = f_div (f_ofZ n) dec) as -> by (unfold d, f_roundf; now rewrite NE). rewrite CV in GV. rewrite GV.
  split; [exact GF |]. split.
  - split; [apply rnd_nonneg; lra |]. rewrite <- (rnd_id (3 / 2)); [apply rnd_le; lra |]. replace (3 / 2) with (IZR 3 * bpow radix2 (-1)) by (change (bpow radix2 (-1)) with (/ 2); lra). apply fmt_grid; vm_compute; discriminate.
  - assert (GE : Rabs (rnd (IZR n / val dec) - IZR n / val dec) <= e24) by (apply (rnd_bounded_error _ 1); [lia |]; change (bpow radix2 1) with 2; apply Rabs_lt; lra).
    assert (H1 : Rabs (IZR n / val dec - val a) <= i / 2 + 2 * e24).
    { replace (IZR n / val dec - val a) with ((IZR n - val a * val dec) * / val dec) by (field; lra). rewrite Rabs_mult, (Rabs_pos_eq (/ val dec)) by (left; apply Rinv_0_lt_compat; lra).
      assert (H : Rabs (IZR n - val a * val dec) <= / 2 + val dec * e24) by (apply Rabs_le_inv in PE; apply Rabs_le; lra).
      eapply Rle_trans; [apply Rmult_le_compat_r; [left; apply Rinv_0_lt_compat; lra | exact H] |].
      replace ((/ 2 + val dec * e24) * / val dec) with (/ 2 * / val dec + e24) by (field; lra). lra. }
    apply Rabs_le_inv in GE, H1, AE. apply Rabs_le. lra.
Qed.

(** ** Fading in real numbers *)
Lemma pow10_bounds i : bpow radix2 (-10) <= i -> e24 * 16 <= i * i.
Proof.
  intros H. pose proof (bpow_gt_0 radix2 (-10)). apply Rle_trans with (bpow radix2 (-10) * bpow radix2 (-10)).
  - rewrite <- bpow_plus. unfold e24. change 16 with (bpow radix2 4). rewrite <- bpow_plus. right. reflexivity.
  - apply Rmult_le_compat; lra.
Qed.
Lemma fade_ends v s inc : unit_value v -> unit_value s -> finite inc = true -> bpow radix2 (-20) <= val inc <= 1 ->
  exists n, snd (fade n v s inc) = true.
Proof.
  intros V S I IB. destruct (diff_val v s inc V S I IB) as (F & DB & _). set (n := Z.to_nat (up (3 / 2 / (val inc - e24)))). exists n.
  assert (E20 : 2 * e24 <= bpow radix2 (-20)) by (unfold e24; change 2 with (bpow radix2 1); rewrite <- bpow_plus; apply bpow_le; lia). pose proof e25_e24 as [E1 E2].
  unfold fade. cbv zeta. destruct (f_lt _ inc); [reflexivity |]. destruct (step_val (f_gt v s) inc I) as [SF SV].
  apply loop_ends; auto; try lra.
  - rewrite SV. apply Rabs_le. destruct (f_gt v s); lra.
  - pose proof (archimed (3 / 2 / (val inc - e24))) as [U _]. assert (W : 0 < val inc - e24) by lra. assert (P : 0 < 3 / 2 / (val inc - e24)) by (apply Rmult_lt_0_compat; [lra | now apply Rinv_0_lt_compat]).
    assert (N : 3 / 2 / (val inc - e24) <= INR n). { unfold n. rewrite INR_IZR_INZ, Z2Nat.id; [lra |]. apply le_IZR. lra. }
    apply Rmult_le_compat_r with (r := val inc - e24) in N; [| lra]. replace (3 / 2 / (val inc - e24) * (val inc - e24)) with (3 / 2) in N by (field; lra). lra.
Qed.
(** The output ends within two increments of the setpoint *)
Lemma fade_close n v s inc vs : unit_value v -> unit_value s -> finite inc = true -> bpow radix2 (-10) <= val inc <= 1 ->
  fade n v s inc = (vs, true) -> vs <> [] /\ Rabs (val (last vs v) - val s) <= 2 * val inc.
Proof.
  intros V S I IB H. assert (I20 : bpow radix2 (-20) <= val inc <= 1) by (split; [apply Rle_trans with (2 := proj1 IB); apply bpow_le; lia | lra]).
  pose proof (bpow_gt_0 radix2 (-10)) as P10. pose proof e25_e24 as [E1 E2].
  assert (E10 : 16384 * e24 = bpow radix2 (-10)) by (unfold e24; change 16384 with (bpow radix2 14); rewrite <- bpow_plus; reflexivity).
  destruct (diff_val v s inc V S I I20) as (F & DB & DE). unfold fade in H. cbv zeta in H. set (d := fade_diff v s inc) in *.
  rewrite (lt_val d inc F I) in H. revert H. case Rlt_bool_spec; intros L H.
  - injection H as <-. split; [discriminate |]. cbn [last]. rewrite Rminus_diag_eq, Rabs_R0 by reflexivity. lra.
  - destruct (step_val (f_gt v s) inc I) as [SF SV].
    destruct (loop_position n v _ inc d vs V SF I F ltac:(lra) ltac:(lra)) as (k' & LN & K1 & K2 & K3 & _); [rewrite SV; destruct (f_gt v s); auto | exact H |].
    split; [destruct vs; discriminate |]. cbv zeta in *. set (k := INR (Datatypes.S k')) in *. set (i := val inc) in *.
    assert (KP : 1 <= k) by (unfold k; rewrite S_INR; pose proof (pos_INR k'); lra).
    assert (KS : k * e24 <= i / 4).
    { assert (A : k * e24 * 16384 <= k * i) by (rewrite Rmult_assoc; apply Rmult_le_compat_l; lra).
      assert (C : k * i <= 3) by lra.
      assert (Dq : k * (e24 * 16) <= k * (i * i)) by (apply Rmult_le_compat_l; [lra | now apply pow10_bounds]).
      assert (Eq : k * (i * i) <= 3 * i) by (rewrite <- Rmult_assoc; apply Rmult_le_compat_r; lra). lra. }
    replace (k * e25) with (k * e24 / 2) in K3 by (rewrite E1; field).
    destruct (f_gt v s) eqn:G; change (f_gt v s) with (f_lt s v) in G; rewrite (lt_val s v (proj1 S) (proj1 V)) in G; destruct V as [_ VB]; destruct S as [_ SB];
      revert G; case Rlt_bool_spec; intros O G; try discriminate; rewrite SV in K3.
    + rewrite (Rabs_pos_eq (val v - val s)) in DE by lra. apply Rabs_le_inv in DE, K3.
      destruct (clampR_case (val v + k * - i)) as [[? Q] | [[? Q] | [? Q]]]; rewrite Q in K3; apply Rabs_le; lra.
    + rewrite (Rabs_left1 (val v - val s)) in DE by lra. apply Rabs_le_inv in DE, K3.
      destruct (clampR_case (val v + k * i)) as [[? Q] | [[? Q] | [? Q]]]; rewrite Q in K3; apply Rabs_le; lra.
Qed.
Lemma fade_smooth n v s inc vs : unit_value v -> unit_value s -> finite inc = true -> bpow radix2 (-20) <= val inc <= 1 ->
  fade n v s inc = (vs, true) -> smooth (val inc + e25) (val v) vs \/ vs = [s] /\ Rabs (val s - val v) <= 3 / 2 * val inc + 4 * e24.
Proof.
  intros V S I IB H. pose proof e25_e24 as [E1 E2]. assert (E20 : 2 * e24 <= bpow radix2 (-20)) by (unfold e24; change 2 with (bpow radix2 1); rewrite <- bpow_plus; apply bpow_le; lia).
  destruct (diff_val v s inc V S I IB) as (F & DB & DE). unfold fade in H. cbv zeta in H. set (d := fade_diff v s inc) in *.
  rewrite (lt_val d inc F I) in H. revert H. case Rlt_bool_spec; intros L H.
  - injection H as <-. right. split; [reflexivity |]. rewrite Rabs_minus_sym. apply Rabs_le_inv in DE. lra.
  - destruct (step_val (f_gt v s) inc I) as [SF SV]. left.
    destruct (loop_position n v _ inc d vs V SF I F ltac:(lra) ltac:(lra)) as (k' & _ & _ & _ & _ & K); [rewrite SV; destruct (f_gt v s); auto | exact H | exact K].
Qed.

(** ** Increments that are powers of two *)
Lemma is_step_steps e x k : (0 <= e)%Z -> is_step e x k <-> steps (- e) x k.
Proof.
  intros E. unfold is_step, steps. assert (/ IZR (2 ^ e) = bpow radix2 (- e)) as ->; [| tauto].
  rewrite bpow_opp. f_equal. change (2 ^ e)%Z with (Zpower radix2 e). now apply IZR_Zpower.
Qed.
Lemma add_steps e x y k m : (-149 <= e <= 100)%Z -> (Z.abs (k + m) <= 2 ^ 24)%Z -> steps e x k -> steps e y m -> steps e (f_add x y) (k + m).
Proof.
  intros He H [Fx Ex] [Fy Ey]. assert (D : val x + val y = IZR (k + m) * bpow radix2 e) by (rewrite Ex, Ey, plus_IZR; ring).
  assert (G := fmt_grid (k + m) e ltac:(lia) H). destruct (add_val x y Fx Fy) as [E F].
  - apply (rnd_small _ 124); [lia |]. rewrite D, Rabs_mult, <- abs_IZR, (Rabs_pos_eq (bpow radix2 e)) by apply bpow_ge_0.
    apply Rle_trans with (IZR (2 ^ 24) * bpow radix2 e); [apply Rmult_le_compat_r; [apply bpow_ge_0 | apply IZR_le, H] |]. change (IZR (2 ^ 24)) with (bpow radix2 24). rewrite <- bpow_plus. apply bpow_le. lia.
  - split; [exact F |]. rewrite E, D. apply rnd_id, G.
Qed.
Lemma steps_lt e x y k m : steps e x k -> steps e y m -> f_lt x y = (k <? m)%Z.
Proof.
  intros [Fx Ex] [Fy Ey]. rewrite lt_val, Ex, Ey by assumption. pose proof (bpow_gt_0 radix2 e). case Rlt_bool_spec; intros H0; symmetry.
  - apply Z.ltb_lt. apply lt_IZR. nra.
  - apply Z.ltb_ge. apply le_IZR. nra.
Qed.
Lemma steps_unit e x k : (0 <= e)%Z -> steps (- e) x k -> (0 <= k <= 2 ^ e)%Z -> unit_value x.
Proof.
  intros E [F V] K. split; [exact F |]. rewrite V, bpow_opp. rewrite <- (IZR_Zpower radix2) by exact E. change (Zpower radix2 e) with (2 ^ e)%Z.
  assert (P : 0 < IZR (2 ^ e)) by (apply IZR_lt, Z.pow_pos_nonneg; lia). destruct K as [K1 K2]. apply IZR_le in K1, K2. split.
  - apply Rmult_le_pos; [exact K1 | left; now apply Rinv_0_lt_compat].
  - apply (Rmult_le_reg_r (IZR (2 ^ e))); [exact P |]. rewrite Rmult_assoc, Rinv_l by lra. lra.
Qed.
Lemma clamp_steps e x k : (0 <= e)%Z -> steps (- e) x k -> (0 <= k <= 2 ^ e)%Z -> steps (- e) (f_clamp x f_zero f_one) k.
Proof.
  intros E S K. destruct (clamp_val x (proj1 S)) as [A B]. split; [exact B |]. rewrite A, clampR_id; [apply S | apply (steps_unit e x k E S K)].
Qed.
Lemma diff_steps e v s inc a b : (0 <= e <= 20)%Z -> steps (- e) v a -> steps (- e) s b -> steps (- e) inc 1 -> (0 <= a <= 2 ^ e)%Z -> (0 <= b <= 2 ^ e)%Z ->
  steps (- e) (fade_diff v s inc) (Z.abs (a - b)).
Proof.
  intros E V S I A B. assert (P : (2 ^ e <= 2 ^ 20)%Z) by (apply Z.pow_le_mono_r; lia). unfold fade_diff. set (dec := f_div f_one inc). destruct one_val1 as [O1 OF].
  assert (IV : val inc = bpow radix2 (- e)) by (rewrite (proj2 I); ring). pose proof (bpow_gt_0 radix2 e) as PE. pose proof (bpow_gt_0 radix2 (- e)) as PN.
  assert (INV : 1 / bpow radix2 (- e) = bpow radix2 e) by (rewrite bpow_opp; field; lra).
  destruct (div_val f_one inc OF (proj1 I) ltac:(lra)) as [DV DF].
  { rewrite O1, IV, INV. apply (rnd_small _ e); [lia |]. rewrite Rabs_pos_eq; lra. }
  rewrite O1, IV, INV, rnd_id in DV by (apply fmt_bpow; lia). fold dec in DV, DF.
  pose proof (sub_steps (- e) v s a b ltac:(lia) ltac:(lia) V S) as [SF SV]. destruct (abs_float (f_sub v s)) as [AF AV]. rewrite SF in AF.
  rewrite SV, Rabs_mult, <- abs_IZR, (Rabs_pos_eq (bpow radix2 (- e))) in AV by lra. set (w := f_abs (f_sub v s)) in *. set (m := Z.abs (a - b)) in *.
  assert (MB : (Z.abs m <= 2 ^ 24)%Z) by lia.
  assert (PR : val w * val dec = IZR m) by (rewrite AV, DV, Rmult_assoc, <- bpow_plus, Z.add_opp_diag_l; cbn [bpow]; ring).
  destruct (mul_val w dec AF DF) as [MV MF].
  { rewrite PR, rnd_id by (now apply fmt_Z). rewrite <- abs_IZR. apply Rle_lt_trans with (bpow radix2 24); [change (bpow radix2 24) with (IZR (2 ^ 24)); now apply IZR_le | apply bpow_lt; lia]. }
  rewrite PR, rnd_id in MV by (now apply fmt_Z). unfold f_roundf. rewrite (f_round_int _ m MF MV). destruct (ofZ_exact m MB) as [NV NF].
  assert (QR : val (f_ofZ m) / val dec = IZR m * bpow radix2 (- e)) by (rewrite NV, DV, bpow_opp; reflexivity).
  assert (QF : fmt (IZR m * bpow radix2 (- e))) by (apply fmt_grid; lia).
  destruct (div_val (f_ofZ m) dec NF DF ltac:(lra)) as [GV GF].
  { rewrite QR, rnd_id by exact QF. rewrite Rabs_mult, <- abs_IZR, (Rabs_pos_eq (bpow radix2 (- e))) by lra. apply Rle_lt_trans with (IZR (2 ^ 24) * bpow radix2 (- e)).
    - apply Rmult_le_compat_r; [lra | now apply IZR_le].
    - change (IZR (2 ^ 24)) with (bpow radix2 24). rewrite <- bpow_plus. apply bpow_lt. lia. }
  split; [exact GF |]. now rewrite GV, QR, rnd_id by exact QF.
Qed.
Lemma loop_steps e (neg : bool) inc step : (0 <= e <= 20)%Z -> steps (- e) inc 1 -> steps (- e) step (if neg then -1 else 1) ->
  forall n v d a, steps (- e) v a -> steps (- e) d (Z.of_nat n) -> (0 <= a <= 2 ^ e)%Z -> (0 <= a + (if neg then - Z.of_nat n else Z.of_nat n) <= 2 ^ e)%Z ->
  exists vs, fade_loop n v step inc d = (vs, true) /\
    Forall2 (steps (- e)) vs (List.map (fun j => (a + (if neg then - Z.of_nat (S j) else Z.of_nat (S j)))%Z) (seq 0 n)).
Proof.
  intros E I ST. assert (P : (2 ^ e <= 2 ^ 20)%Z) by (apply Z.pow_le_mono_r; lia).
  assert (Z0 : steps (- e) f_zero 0) by (split; [reflexivity |]; change (val f_zero) with 0; ring).
  induction n as [| n IH]; intros v d a V D A B.
  - exists []. cbn [fade_loop]. change (f_gt d f_zero) with (f_lt f_zero d). rewrite (steps_lt (- e) f_zero d 0 0 Z0 D). split; [reflexivity | constructor].
  - cbn [fade_loop]. change (f_gt d f_zero) with (f_lt f_zero d). rewrite (steps_lt (- e) f_zero d 0 _ Z0 D). replace (0 <? Z.of_nat (S n))%Z with true by (symmetry; apply Z.ltb_lt; lia).
    cbv zeta. set (a' := (a + (if neg then -1 else 1))%Z). assert (AB : (0 <= a' <= 2 ^ e)%Z) by (unfold a'; destruct neg; lia).
    pose proof (clamp_steps e _ a' ltac:(lia) (add_steps (- e) v step a (if neg then -1 else 1) ltac:(lia) ltac:(fold a'; lia) V ST) AB) as W.
    assert (NB : (Z.of_nat (S n) <= 2 ^ e)%Z) by (destruct neg; lia).
    pose proof (sub_steps (- e) d inc (Z.of_nat (S n)) 1 ltac:(lia) ltac:(lia) D I) as D'. replace (Z.of_nat (S n) - 1)%Z with (Z.of_nat n) in D' by lia.
    destruct (IH _ _ a' W D' AB) as (vs & -> & F2); [unfold a'; destruct neg; lia |]. exists (f_clamp (f_add v step) f_zero f_one :: vs). split; [reflexivity |].
    cbn [seq List.map]. constructor; [replace (a + _)%Z with a'; [exact W | unfold a'; destruct neg; lia] |].
    rewrite <- seq_shift, map_map. erewrite map_ext; [exact F2 |]. intros j. cbn beta. unfold a'. destruct neg; lia.
Qed.
Lemma fade_steps e v s inc a b fuel : (0 <= e <= 20)%Z -> is_step e v a -> is_step e s b -> is_step e inc 1 -> (0 <= a <= 2 ^ e)%Z -> (0 <= b <= 2 ^ e)%Z ->
  (Z.to_nat (Z.abs (b - a)) <= fuel)%nat ->
  exists vs, fade fuel v s inc = (vs, true) /\ Forall2 (is_step e) vs (if (a =? b)%Z then [b] else path a b).
Proof.
  intros E V S I A B FU. rewrite is_step_steps in V, S, I by lia.
  assert (F2 : forall vs l, Forall2 (steps (- e)) vs l -> Forall2 (is_step e) vs l) by (intros vs l H; induction H; constructor; auto; apply is_step_steps; auto; lia).
  pose proof (diff_steps e v s inc a b E V S I A B) as D. unfold fade. cbv zeta. rewrite (steps_lt (- e) _ inc _ 1 D I).
  destruct (Z.eqb_spec a b) as [-> | N].
  - rewrite Z.sub_diag. change (Z.abs 0 <? 1)%Z with true. exists [s]. split; [reflexivity |]. apply F2. constructor; auto.
  - replace (Z.abs (a - b) <? 1)%Z with false by (symmetry; apply Z.ltb_ge; lia). change (f_gt v s) with (f_lt s v). rewrite (steps_lt (- e) s v b a S V).
    set (neg := (b <? a)%Z). destruct (step_val neg inc (proj1 I)) as [SF SV].
    assert (ST : steps (- e) (f_mul (f_ofZ (if neg then -1 else 1)) inc) (if neg then -1 else 1)) by (split; [exact SF |]; rewrite SV, (proj2 I); destruct neg; ring).
    assert (M : Z.abs (a - b) = Z.of_nat (Z.to_nat (Z.abs (b - a)))) by lia. rewrite M in D.
    destruct (loop_steps e neg inc _ E I ST _ v _ a V D A) as (vs & L & F); [unfold neg; destruct (Z.ltb_spec b a); lia |].
    exists vs. split; [| apply F2; exact F]. rewrite (loop_fuel (Z.to_nat (Z.abs (b - a))) fuel); [exact L | rewrite L; reflexivity | exact FU].
Qed.

(** ** Fades that never end *)
Lemma loop_stuck inc d : f_gt d f_zero = true -> f_sub d inc = d -> forall fuel v step, snd (fade_loop fuel v step inc d) = false.
Proof.
  intros G S. induction fuel as [| n IH]; intros v step; cbn [fade_loop]; rewrite G; [reflexivity |]. cbv zeta. rewrite S.
  specialize (IH (f_clamp (f_add v step) f_zero f_one) step). destruct (fade_loop n _ _ _ _). exact IH.
Qed.
Lemma fade_stuck v s inc : f_lt (fade_diff v s inc) inc = false -> f_gt (fade_diff v s inc) f_zero = true -> f_sub (fade_diff v s inc) inc = fade_diff v s inc ->
  forall fuel, snd (fade fuel v s inc) = false.
Proof. intros L G S fuel. unfold fade. cbv zeta. rewrite L. now apply loop_stuck. Qed.
(** With a negative increment the difference only grows *)
Lemma loop_negative inc : finite inc = true -> val inc <= 0 -> forall fuel v step d, finite d = true \/ d = f_inf false -> f_gt d f_zero = true ->
  snd (fade_loop fuel v step inc d) = false.
Proof.
  intros I IB. induction fuel as [| n IH]; intros v step d D G; cbn [fade_loop]; rewrite G; [reflexivity |]. cbv zeta.
  assert (K : (finite (f_sub d inc) = true \/ f_sub d inc = f_inf false) /\ f_gt (f_sub d inc) f_zero = true).
  { destruct D as [D | ->].
    - assert (DP : 0 < val d) by (change (f_gt d f_zero) with (f_lt f_zero d) in G; rewrite (lt_val f_zero d eq_refl D) in G; revert G; case Rlt_bool_spec; [auto | discriminate]).
      destruct (Rlt_or_le (Rabs (rnd (val d - val inc))) big) as [B | B].
      + destruct (sub_val d inc D I B) as [SV SF]. split; [now left |]. change (f_lt f_zero (f_sub d inc) = true). rewrite (lt_val f_zero _ eq_refl SF). apply Rlt_bool_true.
        change (val f_zero) with 0. rewrite SV. apply Rlt_le_trans with (val d); [exact DP |]. rewrite <- (rnd_id (val d)) at 1 by apply val_fmt. apply rnd_le. lra.
      + pose proof (Bminus_correct 24 128 _ _ mode_NE d inc D I) as H. fold (f_sub d inc) in H. rewrite Rlt_bool_false in H by exact B.
        destruct H as [H SG]. assert (f_sub d inc = f_inf false) as ->; [| split; [now right | reflexivity]].
        apply B2SF_inj. rewrite H. assert (Bsign d = false) as ->; [| reflexivity].
        destruct d as [s | s | | s m e b]; try discriminate. destruct s; [| reflexivity].
        exfalso. unfold val, B2R, F2R in DP; cbn [Fnum Fexp] in DP. cbn [cond_Zopp] in DP. pose proof (bpow_gt_0 radix2 e). pose proof (Pos2Z.neg_is_neg m) as Q. apply IZR_lt in Q. change (Z.neg m) with (- Z.pos m)%Z in Q. nra.
    - destruct inc as [s | s | | s m e b]; try discriminate; cbn; auto. }
  destruct K as [K1 K2]. specialize (IH (f_clamp (f_add v step) f_zero f_one) step (f_sub d inc) K1 K2). destruct (fade_loop n _ _ _ _). exact IH.
Qed.

(** ** The output itself *)
Lemma in_unit_iff v : in_unit v = true <-> unit_value v.
Proof.
  destruct zero_val as [Z0 ZF]. destruct one_val1 as [O1 OF]. unfold in_unit, unit_value. rewrite andb_true_iff. split.
  - intros [A B]. assert (F : finite v = true) by (destruct v as [s | [] | | s m e b]; try reflexivity; try discriminate A; vm_compute in B; discriminate B).
    split; [exact F |]. apply (le_real f_zero v ZF F) in A. apply (le_real v f_one F OF) in B. rewrite Z0 in A. rewrite O1 in B. lra.
  - intros [F V]. split; [change (f_le f_zero v = true); rewrite (le_val f_zero v ZF F), Z0 | rewrite (le_val v f_one F OF), O1]; apply Rle_bool_true; lra.
Qed.
Lemma last_default {A} (x : A) l d d' : last (x :: l) d = last (x :: l) d'.
Proof. revert x. induction l as [| y l IH]; intros x; [reflexivity |]. exact (IH y). Qed.
Lemma drive_ok dbg vs : forall a, Forall unit_value vs -> drive dbg a vs = Ok (mkAout (last vs (shown a)) (rev vs ++ out a)).
Proof.
  induction vs as [| v vs IH]; intros a H; [destruct a; reflexivity |]. inversion H as [| ? ? V R]; subst. cbn [drive]. unfold base_set, imp_set, sassert.
  apply in_unit_iff in V. rewrite V. cbn [negb andb bind shown out]. destruct dbg; cbn; (rewrite (IH _ R); cbn [shown out rev]; rewrite <- app_assoc; f_equal; f_equal; destruct vs; [reflexivity | apply last_default]).
Qed.
Lemma fade_to_ok dbg fuel a s inc vs : unit_value s -> fade fuel (shown a) s inc = (vs, true) -> fade_to dbg fuel a s inc = Ok (mkAout s (rev vs ++ out a)).
Proof.
  intros S H. unfold fade_to. assert (V := S). apply in_unit_iff in V. rewrite V, H. pose proof (fade_unit fuel (shown a) s inc S) as U. rewrite H in U. cbn [fst] in U.
  rewrite (drive_ok dbg vs a U). unfold sassert. destruct dbg; reflexivity.
Qed.
Lemma base_set_ok dbg a v : unit_value v -> base_set dbg a v = Ok (mkAout v (v :: out a)).
Proof. intros V. apply in_unit_iff in V. unfold base_set, imp_set. rewrite V. destruct dbg; reflexivity. Qed.

Lemma path_last a b : a <> b -> exists l, path a b = l ++ [b].
Proof.
  intros N. unfold path. destruct (Z.to_nat (Z.abs (b - a))) as [| n] eqn:E; [lia |]. rewrite seq_S, map_app. cbn [List.map]. eexists. f_equal. f_equal.
  cbn [plus]. destruct (Z.ltb_spec b a); lia.
Qed.
Lemma forall2_last {A B} (P : A -> B -> Prop) vs l b : Forall2 P vs (l ++ [b]) -> exists ws w, vs = ws ++ [w] /\ P w b.
Proof.
  intros H. apply Forall2_app_inv_r in H as (ws & r & _ & R & ->). inversion R as [| w ? ? ? W R']; subst. inversion R'; subst. now exists ws, w.
Qed.
Lemma grid_run dbg fuel e os : (0 <= e <= 20)%Z -> (Z.to_nat (2 ^ e) <= fuel)%nat -> forall ks a k0, Forall2 (grid_op e) os ks -> is_step e (shown a) k0 -> (0 <= k0 <= 2 ^ e)%Z ->
  exists a', arun dbg fuel a os = Ok a' /\ is_step e (shown a') (last ks k0) /\
    (os <> [] -> exists w r, out a' = w :: r /\ is_step e w (last ks k0)).
Proof.
  intros E FU. induction os as [| o os IH]; intros ks a k0 G S K; inversion G as [| ? k ? ks' O G']; subst.
  - exists a. cbn. repeat split; try apply S. intros []; reflexivity.
  - assert (L : last (k :: ks') k0 = last ks' k) by (destruct ks' as [| k' ks']; [reflexivity |]; exact (last_default k' ks' k0 k)). rewrite L.
    assert (ST : exists a1 w r, astep dbg fuel a o = Ok a1 /\ is_step e (shown a1) k /\ out a1 = w :: r /\ is_step e w k /\ (0 <= k <= 2 ^ e)%Z).
    { inversion O as [v k' V B | s i k' V B I]; subst.
      - exists (mkAout v (v :: out a)), v, (out a). cbn [astep]. rewrite base_set_ok; [auto |]. apply (steps_unit e v k); [lia | apply is_step_steps; [lia | exact V] | exact B].
      - destruct (fade_steps e (shown a) s i k0 k fuel E S V I K B ltac:(lia)) as (vs & F & P).
        assert (U : unit_value s) by (apply (steps_unit e s k); [lia | apply is_step_steps; [lia | exact V] | exact B]).
        assert (exists l, (if (k0 =? k)%Z then [k] else path k0 k) = l ++ [k]) as [l Q] by (destruct (Z.eqb_spec k0 k); [now exists [] | now apply path_last]).
        rewrite Q in P. destruct (forall2_last _ _ _ _ P) as (ws & w & -> & W). cbn [astep]. rewrite (fade_to_ok dbg fuel a s i _ U F).
        exists (mkAout s (rev (ws ++ [w]) ++ out a)), w, (rev ws ++ out a). rewrite rev_app_distr. cbn. auto. }
    destruct ST as (a1 & w & r & A1 & S1 & O1 & W & B1). cbn [arun]. rewrite A1. cbn [bind]. destruct (IH ks' a1 k G' S1 B1) as (a' & R & S' & T).
    exists a'. split; [exact R |]. split; [exact S' |]. intros _. destruct os as [| o' os]; [| apply T; discriminate].
    inversion G'; subst. cbn in R. injection R as <-. exists w, r. auto.
Qed.

(** ** Duty cycles and readings *)
Lemma f_trunc_floor x : finite x = true -> 0 <= val x -> f_trunc x = Some (Zfloor (val x)).
Proof.
  destruct x as [s | s | | s m e b]; intros F V; try discriminate.
  - unfold val; cbn. f_equal. symmetry. apply Zfloor_IZR.
  - assert (s = false) as ->.
    { destruct s; [| reflexivity]. exfalso. unfold val, B2R, F2R in V; cbn [Fnum Fexp cond_Zopp] in V. pose proof (bpow_gt_0 radix2 e). pose proof (Pos2Z.neg_is_neg m) as Q. apply IZR_lt in Q. change (- Z.pos m)%Z with (Z.neg m) in V. nra. }
    unfold f_trunc. f_equal. unfold val, B2R, F2R; cbn [Fnum Fexp cond_Zopp]. destruct (Z.leb_spec 0 e) as [E | E].
    + rewrite <- IZR_Zpower by exact E. rewrite <- mult_IZR. symmetry. apply Zfloor_IZR.
    + replace e with (- - e)%Z at 2 by lia. rewrite bpow_opp. rewrite <- IZR_Zpower by lia. change (Zpower radix2 (- e)) with (2 ^ (- e))%Z. symmetry. apply Zfloor_div. assert (0 < 2 ^ (- e))%Z by (apply Z.pow_pos_nonneg; lia). lia.
Qed.
Lemma duty_floor res v : (0 <= res <= 100)%Z -> unit_value v -> duty false res v = Some (Zfloor (val v * IZR (2 ^ res))).
Proof.
  intros R [F V]. unfold duty. destruct (mk_exact 1 res) as [MV MF]; [now vm_compute | lia |]. rewrite Rmult_1_l in MV.
  assert (fmt (val v * bpow radix2 res)) as G by (apply Mult_error.mult_bpow_pos_exact_FLT; [apply val_fmt | lia]).
  pose proof (bpow_gt_0 radix2 res) as P. destruct (mul_val v _ F MF) as [A B].
  { rewrite MV, rnd_id by exact G. rewrite Rabs_pos_eq by nra. apply Rle_lt_trans with (bpow radix2 res); [nra | apply bpow_lt; lia]. }
  rewrite MV, rnd_id in A by exact G. rewrite f_trunc_floor; [| exact B | rewrite A; nra]. rewrite A. do 3 f_equal. symmetry. change (2 ^ res)%Z with (Zpower radix2 res). apply IZR_Zpower. lia.
Qed.
Lemma flip_unit v : unit_value v -> unit_value (f_sub f_one v) /\ val (f_sub f_one v) = rnd (1 - val v).
Proof.
  intros [F V]. destruct one_val1 as [O1 OF]. destruct (sub_val f_one v OF F) as [A B].
  { rewrite O1. apply (rnd_small _ 0); [lia |]. cbn [bpow]. rewrite Rabs_pos_eq; lra. }
  rewrite O1 in A. split; [split; [exact B |]; rewrite A | exact A]. split; [apply rnd_nonneg; lra |].
  apply Rle_trans with (rnd 1); [apply rnd_le; lra |]. rewrite rnd_id; [lra |]. change 1 with (bpow radix2 0). apply fmt_bpow. lia.
Qed.
Lemma duty_low res v : duty true res v = duty false res (f_sub f_one v). Proof. reflexivity. Qed.
Lemma floor_range res x : (0 <= res)%Z -> 0 <= x <= 1 -> (0 <= Zfloor (x * IZR (2 ^ res)) <= 2 ^ res)%Z /\ ((Zfloor (x * IZR (2 ^ res)) < 2 ^ res)%Z <-> x < 1).
Proof.
  intros R X. assert (P : 0 < IZR (2 ^ res)) by (apply IZR_lt, Z.pow_pos_nonneg; lia). split; [split |].
  - apply Zfloor_lub. nra.
  - apply Z.le_trans with (Zfloor (IZR (2 ^ res))); [apply Zfloor_le; nra | rewrite Zfloor_IZR; lia].
  - split; intros H.
    + destruct (Rle_lt_or_eq_dec x 1 (proj2 X)) as [L | ->]; [exact L |]. rewrite Rmult_1_l, Zfloor_IZR in H. lia.
    + apply lt_IZR. apply Rle_lt_trans with (x * IZR (2 ^ res)); [apply Zfloor_lb | nra].
Qed.
Lemma duty_range low res v : (0 <= res <= 100)%Z -> unit_value v -> exists d, duty low res v = Some d /\ (0 <= d <= 2 ^ res)%Z.
Proof.
  intros R V. destruct low; [rewrite duty_low; apply flip_unit in V; destruct V as [V _] |]; rewrite duty_floor by assumption; eexists; (split; [reflexivity |]); apply floor_range; try lia; apply V.
Qed.
Lemma duty_mono low res v w d e : (0 <= res <= 100)%Z -> unit_value v -> unit_value w -> val v <= val w -> duty low res v = Some d -> duty low res w = Some e ->
  if low then (e <= d)%Z else (d <= e)%Z.
Proof.
  intros R V W L. assert (P : 0 < IZR (2 ^ res)) by (apply IZR_lt, Z.pow_pos_nonneg; lia).
  assert (K : forall x y d e, unit_value x -> unit_value y -> val x <= val y -> duty false res x = Some d -> duty false res y = Some e -> (d <= e)%Z).
  { intros x y d0 e0 X Y XY. rewrite !duty_floor by assumption. intros H1 H2. injection H1 as <-. injection H2 as <-. apply Zfloor_le. apply Rmult_le_compat_r; lra. }
  destruct low; [| now apply K]. rewrite !duty_low. destruct (flip_unit v V) as [V' Ev]. destruct (flip_unit w W) as [W' Ew]. intros H1 H2.
  apply (K (f_sub f_one w) (f_sub f_one v) e d W' V'); [rewrite Ev, Ew; apply rnd_le; lra | exact H2 | exact H1].
Qed.
Lemma read_value raw : (0 <= raw <= 2 ^ 24)%Z -> finite (analogue_read raw) = true /\ val (analogue_read raw) = IZR raw / 1024.
Proof.
  intros H. unfold analogue_read. destruct (ofZ_exact raw) as [A F]; [lia |]. destruct (ofZ_exact 1024) as [B G]; [vm_compute; discriminate |].
  assert (E : IZR raw / 1024 = IZR raw * bpow radix2 (-10)) by reflexivity. assert (Q : fmt (IZR raw / 1024)) by (rewrite E; apply fmt_grid; lia).
  destruct (div_val _ _ F G) as [C D]; [rewrite B; lra | | rewrite A, B, rnd_id in C by exact Q; auto].
  rewrite A, B, rnd_id by exact Q. destruct H as [H1 H2]. apply IZR_le in H1, H2. rewrite Rabs_pos_eq by lra.
  apply Rle_lt_trans with (bpow radix2 24); [change (bpow radix2 24) with (IZR (2 ^ 24)); lra | apply bpow_lt; lia].
Qed.
