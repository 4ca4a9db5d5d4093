(** Lemmas for property C117: rounding errors of lengths. *)
From Coq Require Import ZArith Bool Reals Lra Lia Psatz.
From Flocq Require Import Core IEEE754.BinarySingleNaN Plus_error Relative.
From Verif Require Import Base FloatModel FloatFacts UnitProofs FpointModel FpointSpec.
Open Scope R_scope.

Notation dfin := (@is_finite 53 1024).
Definition dv (x : double) : R := B2R x.
Definition drnd := round radix2 (FLT_exp (-1074) 53) ZnearestE.
Definition dfmt := generic_format radix2 (FLT_exp (-1074) 53).
#[global] Instance dexp_valid : Valid_exp (FLT_exp (-1074) 53). Proof. apply FLT_exp_valid. reflexivity. Qed.
Lemma drnd_id x : dfmt x -> drnd x = x. Proof. apply round_generic. typeclasses eauto. Qed.
Lemma dv_fmt x : dfmt (dv x). Proof. apply (generic_format_B2R 53 1024 x). Qed.
Lemma dfmt_bpow e : (-1074 <= e)%Z -> dfmt (bpow radix2 e). Proof. intros H. apply generic_format_bpow. unfold FLT_exp. lia. Qed.
Lemma drnd_bound x e : (-1074 <= e)%Z -> Rabs x <= bpow radix2 e -> Rabs (drnd x) <= bpow radix2 e.
Proof. intros He H. apply abs_round_le_generic; try typeclasses eauto; [now apply dfmt_bpow|exact H]. Qed.
Lemma drnd_small x e : (-1074 <= e < 1024)%Z -> Rabs x <= bpow radix2 e -> Rabs (drnd x) < bpow radix2 1024.
Proof. intros He H. eapply Rle_lt_trans; [apply (drnd_bound x e); auto; lia|]. apply bpow_lt. lia. Qed.

Lemma dfmt_FLT m e : (Z.abs m < 2 ^ 53)%Z -> (-1074 <= e)%Z -> dfmt (IZR m * bpow radix2 e).
Proof. intros M E. apply generic_format_FLT. apply (FLT_spec _ _ _ _ (Float radix2 m e)); cbn [Fnum Fexp]; [reflexivity|exact M|exact E]. Qed.
Lemma float_parts (x : float) : exists m e, val x = IZR m * bpow radix2 e /\ (Z.abs m < 2 ^ 24)%Z /\ (-149 <= e)%Z.
Proof.
  pose proof (val_fmt x) as F. apply FLT_format_generic in F; [|typeclasses eauto]. destruct F as [[m e] E M X]. cbn [Fnum Fexp] in *. exists m, e. auto.
Qed.
Lemma val_big (x : float) : finite x = true -> Rabs (val x) <= bpow radix2 128.
Proof. intros _. apply Rlt_le, (abs_B2R_lt_emax 24 128). Qed.

Lemma to_double_val x : finite x = true -> dv (to_double x) = val x /\ dfin (to_double x) = true.
Proof.
  intros F. destruct x as [s|s| |s m e B]; try discriminate; [split; reflexivity|].
  set (x := B754_finite s m e B). unfold to_double, x.
  pose proof (binary_normalize_correct 53 1024 _ _ mode_NE (cond_Zopp s (Zpos m)) e s) as H. cbv zeta in H.
  change (F2R (Float radix2 (cond_Zopp s (Z.pos m)) e)) with (val x) in H.
  assert (R : round radix2 (SpecFloat.fexp 53 1024) (round_mode mode_NE) (val x) = val x).
  { change (drnd (val x) = val x). apply drnd_id. destruct (float_parts x) as (m' & e' & -> & M & E'). apply dfmt_FLT; lia. }
  rewrite R in H. rewrite Rlt_bool_true in H.
  - destruct H as (H1 & H2 & _). split; assumption.
  - eapply Rle_lt_trans; [apply (val_big x); reflexivity|]. apply bpow_lt. lia.
Qed.
Lemma to_float_val (d : double) : dfin d = true -> Rabs (rnd (dv d)) < big -> val (to_float d) = rnd (dv d) /\ finite (to_float d) = true.
Proof.
  intros F G. destruct d as [s|s| |s m e B]; try discriminate; [split; [cbn; symmetry; apply rnd_0|reflexivity]|].
  set (x := B754_finite s m e B) in *. unfold to_float, x.
  pose proof (binary_normalize_correct 24 128 _ _ mode_NE (cond_Zopp s (Zpos m)) e s) as H. cbv zeta in H.
  change (F2R (Float radix2 (cond_Zopp s (Z.pos m)) e)) with (dv x) in H.
  change (round radix2 (SpecFloat.fexp 24 128) (round_mode mode_NE) (dv x)) with (rnd (dv x)) in H.
  rewrite Rlt_bool_true in H by exact G. destruct H as (H1 & H2 & _). split; assumption.
Qed.
Lemma square_fmt x : dfmt (val x * val x).
Proof.
  destruct (float_parts x) as (m & e & -> & M & E).
  replace (IZR m * bpow radix2 e * (IZR m * bpow radix2 e)) with (IZR (m * m) * bpow radix2 (e + e)) by (rewrite mult_IZR, bpow_plus; ring).
  apply dfmt_FLT; [|lia]. rewrite Z.abs_mul. nia.
Qed.
Lemma square_val x : finite x = true -> dv (square x) = val x * val x /\ dfin (square x) = true.
Proof.
  intros F. destruct (to_double_val x F) as [V D]. unfold square, d_mul.
  pose proof (Bmult_correct 53 1024 _ _ mode_NE (to_double x) (to_double x)) as H.
  change (B2R (to_double x)) with (dv (to_double x)) in H. rewrite V in H.
  change (round radix2 (SpecFloat.fexp 53 1024) (round_mode mode_NE) (val x * val x)) with (drnd (val x * val x)) in H.
  rewrite (drnd_id _ (square_fmt x)) in H. rewrite Rlt_bool_true in H.
  - destruct H as (H1 & H2 & _). split; [exact H1|]. now rewrite H2, D.
  - rewrite Rabs_mult. apply Rle_lt_trans with (bpow radix2 128 * bpow radix2 128).
    + apply Rmult_le_compat; try apply Rabs_pos; now apply val_big.
    + rewrite <- bpow_plus. apply bpow_lt. lia.
Qed.

Definition v53 : R := bpow radix2 (-53).
Lemma v53_range : 0 < v53 <= / 1000000000000000. Proof. unfold v53. cbn. lra. Qed.
Lemma u_ro_53 : u_ro radix2 53 = v53. Proof. unfold u_ro, v53. cbn. lra. Qed.
Lemma shrink e v : 0 < v -> Rabs e <= v / (1 + v) -> Rabs e <= v.
Proof. intros V H. apply Rle_trans with (1 := H). apply Rmult_le_reg_r with (1 + v); [lra|]. unfold Rdiv. rewrite Rmult_assoc, Rinv_l by lra. nra. Qed.
Lemma d_plus_near x y : dfin x = true -> dfin y = true -> 0 <= dv x <= bpow radix2 1000 -> 0 <= dv y <= bpow radix2 1000 ->
  exists e, Rabs e <= v53 /\ dv (d_add x y) = (dv x + dv y) * (1 + e) /\ dfin (d_add x y) = true.
Proof.
  intros X Y BX BY. pose proof (Bplus_correct 53 1024 _ _ mode_NE x y X Y) as H.
  change (round radix2 (SpecFloat.fexp 53 1024) (round_mode mode_NE) (B2R x + B2R y)) with (drnd (dv x + dv y)) in H.
  rewrite Rlt_bool_true in H.
  - destruct H as (H1 & H2 & _).
    destruct (FLT_plus_error_N_ex radix2 (-1074) 53 (fun z => negb (Z.even z)) (dv x) (dv y) (dv_fmt x) (dv_fmt y)) as (e & B & E).
    exists e. rewrite u_ro_53 in B. pose proof v53_range. split; [apply shrink; [lra|exact B]|]. split; [|exact H2].
    unfold d_add, dv at 1. rewrite H1. exact E.
  - apply (drnd_small _ 1001); [lia|]. rewrite Rabs_pos_eq by lra. change 1001%Z with (1 + 1000)%Z. rewrite bpow_plus. change (bpow radix2 1) with 2. lra.
Qed.
Lemma d_sqrt_near x : dfin x = true -> bpow radix2 (-400) <= dv x -> exists e, Rabs e <= v53 /\ dv (d_sqrt x) = sqrt (dv x) * (1 + e) /\ dfin (d_sqrt x) = true.
Proof.
  intros X B. pose proof (Bsqrt_correct 53 1024 _ _ mode_NE x) as (H1 & H2 & _).
  assert (P : 0 < dv x) by (eapply Rlt_le_trans; [apply bpow_gt_0|exact B]).
  assert (F : dfin (d_sqrt x) = true).
  { unfold d_sqrt. rewrite H2. destruct x as [s|s| |s m e Bx]; try discriminate; [reflexivity|]. destruct s; [|reflexivity]. exfalso.
    unfold dv in P. cbn in P. assert (N : F2R (Float radix2 (Z.neg m) e) < 0) by (apply F2R_lt_0; reflexivity). lra. }
  destruct (relative_error_N_FLT_ex radix2 (-1074) 53 eq_refl (fun z => negb (Z.even z)) (sqrt (dv x))) as (e & A & E).
  - assert (S2 : bpow radix2 (-200) <= sqrt (dv x)).
    { rewrite <- (sqrt_square (bpow radix2 (-200))) by apply bpow_ge_0. rewrite <- bpow_plus. apply sqrt_le_1_alt. exact B. }
    rewrite Rabs_pos_eq by apply sqrt_pos. apply Rle_trans with (2 := S2). apply bpow_le. lia.
  - exists e. split; [apply Rle_trans with (1 := A); unfold v53; cbn; lra|]. split; [|exact F].
    unfold d_sqrt, dv at 1. rewrite H1. exact E.
Qed.

(** The length before it is cut to float: within 3 units of double *)
Lemma root_near S s q : 0 <= S -> s = S * q -> 0 <= q -> sqrt s = sqrt S * sqrt q.
Proof. intros H -> Q. apply sqrt_mult; assumption. Qed.
Lemma sqrt_near1 e : Rabs e <= / 2 -> exists d, Rabs d <= Rabs e /\ sqrt (1 + e) = 1 + d.
Proof.
  intros H. apply Rabs_le_inv in H. exists (sqrt (1 + e) - 1). split; [|ring].
  pose proof (sqrt_sqrt (1 + e) ltac:(lra)) as Q. pose proof (sqrt_pos (1 + e)). set (r := sqrt (1 + e)) in *.
  unfold Rabs. destruct (Rcase_abs (r - 1)), (Rcase_abs e); nra.
Qed.
Lemma length3 p : all_finite p -> bpow radix2 (-160) <= len p -> exists e, Rabs e <= 5 * v53 /\
  dv (d_sqrt (d_add (d_add (square (fx p)) (square (fy p))) (square (fz p)))) = len p * (1 + e) /\
  dfin (d_sqrt (d_add (d_add (square (fx p)) (square (fy p))) (square (fz p)))) = true.
Proof.
  intros (X & Y & Z) L. destruct (square_val _ X) as [VX FX]. destruct (square_val _ Y) as [VY FY]. destruct (square_val _ Z) as [VZ FZ].
  assert (Q : forall a : float, 0 <= val a * val a <= bpow radix2 256).
  { intros a. split; [nra|]. replace (val a * val a) with (Rabs (val a) * Rabs (val a)) by (rewrite <- Rabs_mult; apply Rabs_pos_eq; nra).
    change 256%Z with (128 + 128)%Z. rewrite bpow_plus. pose proof (Rlt_le _ _ (abs_B2R_lt_emax 24 128 a)). apply Rmult_le_compat; try apply Rabs_pos; assumption. }
  assert (M : bpow radix2 256 * 4 <= bpow radix2 1000).
  { change 4 with (bpow radix2 2). rewrite <- bpow_plus. apply bpow_le. lia. }
  pose proof (Q (fx p)). pose proof (Q (fy p)). pose proof (Q (fz p)). pose proof v53_range as V.
  destruct (d_plus_near (square (fx p)) (square (fy p)) FX FY) as (e1 & E1 & S1 & F1); [lra..|].
  rewrite VX, VY in S1. apply Rabs_le_inv in E1.
  destruct (d_plus_near (d_add (square (fx p)) (square (fy p))) (square (fz p)) F1 FZ) as (e2 & E2 & S2 & F2); [rewrite S1; nra|lra|].
  rewrite S1, VZ in S2. apply Rabs_le_inv in E2.
  set (a := val (fx p) * val (fx p)) in *. set (b := val (fy p) * val (fy p)) in *. set (c := val (fz p) * val (fz p)) in *.
  assert (LL : len p * len p = a + b + c) by (unfold len; apply sqrt_sqrt; fold a b c; lra).
  assert (LP : 0 < len p) by (eapply Rlt_le_trans; [apply bpow_gt_0|exact L]).
  (* the sum as a + b + c times a factor *)
  assert (T : exists g, Rabs g <= 3 * v53 /\ dv (d_add (d_add (square (fx p)) (square (fy p))) (square (fz p))) = (a + b + c) * (1 + g)).
  { assert (P : 0 < a + b + c) by nra. exists (((a + b) * (1 + e1) + c) * (1 + e2) / (a + b + c) - 1). split; [|rewrite S2; field; lra].
    replace (((a + b) * (1 + e1) + c) * (1 + e2) / (a + b + c) - 1) with ((a + b) / (a + b + c) * (e1 * (1 + e2)) + e2) by (field; lra).
    assert (D : 0 <= (a + b) / (a + b + c) <= 1).
    { split; [apply Rmult_le_pos; [lra|left; now apply Rinv_0_lt_compat]|]. apply Rmult_le_reg_r with (a + b + c); [lra|]. unfold Rdiv. rewrite Rmult_assoc, Rinv_l by lra. lra. }
    set (d := (a + b) / (a + b + c)) in *. apply Rabs_le. assert (Rabs (e1 * (1 + e2)) <= 2 * v53) as K by (apply Rabs_le; nra). apply Rabs_le_inv in K. nra. }
  destruct T as (g & G & ST). apply Rabs_le_inv in G.
  destruct (d_sqrt_near _ F2) as (e3 & E3 & S3 & F3).
  { rewrite ST, <- LL. apply Rle_trans with (bpow radix2 (-160) * bpow radix2 (-160) * / 2); [|].
    - rewrite <- bpow_plus. change (/ 2) with (bpow radix2 (-1)). rewrite <- bpow_plus. apply bpow_le. lia.
    - pose proof (bpow_gt_0 radix2 (-160)). apply Rmult_le_compat; nra. }
  destruct (sqrt_near1 g) as (h & Hh & SQ); [apply Rabs_le; lra|].
  assert (Hg : Rabs h <= 3 * v53) by (apply Rle_trans with (1 := Hh), Rabs_le; lra). 
  assert (LS : sqrt (a + b + c) = len p) by reflexivity.
  rewrite ST, sqrt_mult, SQ, LS in S3 by nra.
  exists (h + e3 + h * e3). split; [|split; [rewrite S3; ring|exact F3]].
  assert (K : Rabs (h * e3) <= 3 * v53 * v53) by (rewrite Rabs_mult; apply Rmult_le_compat; try apply Rabs_pos; assumption).
  apply Rabs_le_inv in Hg. apply Rabs_le_inv in E3. apply Rabs_le_inv in K. apply Rabs_le. nra.
Qed.

Lemma v53_u : v53 = u * bpow radix2 (-29). Proof. unfold v53, u. rewrite <- bpow_plus. reflexivity. Qed.
Lemma u16 : u * 16777216 = 1. Proof. rewrite u_val. change (2 ^ 24)%Z with 16777216%Z. lra. Qed.
Lemma p50 : bpow radix2 (-50) = 8 * v53. Proof. unfold v53. change 8 with (bpow radix2 3). rewrite <- bpow_plus. reflexivity. Qed.
Lemma p45 : bpow radix2 (-45) = 256 * v53. Proof. unfold v53. change 256 with (bpow radix2 8). rewrite <- bpow_plus. reflexivity. Qed.
Lemma v53_small : v53 * 536870912 = u.
Proof. rewrite v53_u. change 536870912 with (bpow radix2 29). rewrite Rmult_assoc, <- bpow_plus. change (bpow radix2 (-29 + 29)) with 1. ring. Qed.

Lemma mag_near p : ordinary p -> exists f, Rabs f <= u + bpow radix2 (-50) /\ val (fmag p) = len p * (1 + f) /\ finite (fmag p) = true.
Proof.
  intros [F [L1 L2]]. assert (LP : 0 < len p) by (eapply Rlt_le_trans; [apply bpow_gt_0|exact L1]).
  destruct (length3 p F) as (e & E & D & DF); [apply Rle_trans with (2 := L1); apply bpow_le; lia|].
  pose proof v53_range as V. pose proof u_range as U. pose proof v53_small as VS. pose proof u16 as U16. apply Rabs_le_inv in E.
  set (d := d_sqrt _) in *. change (fmag p) with (to_float d).
  assert (B : bpow radix2 (-126) <= Rabs (dv d)).
  { rewrite D, Rabs_pos_eq by nra. replace (bpow radix2 (-125)) with (2 * bpow radix2 (-126)) in L1 by (change 2 with (bpow radix2 1); now rewrite <- bpow_plus). nra. }
  destruct (rnd_error _ B) as (g & G & RG). change (Rabs g <= u) in G. apply Rabs_le_inv in G.
  assert (Q : val (to_float d) = rnd (dv d) /\ finite (to_float d) = true).
  { apply to_float_val; [exact DF|]. rewrite RG, D. rewrite Rabs_pos_eq by (apply Rmult_le_pos; nra).
    unfold big. change 128%Z with (1 + 127)%Z. rewrite bpow_plus. change (bpow radix2 1) with 2.
    assert ((1 + e) * (1 + g) < 2) by nra. nra. }
  destruct Q as [Q1 Q2]. exists (e + g + e * g). split; [|split; [rewrite Q1, RG, D; ring|exact Q2]].
  rewrite p50. assert (K : Rabs (e * g) <= 5 * v53 * u) by (rewrite Rabs_mult; apply Rmult_le_compat; try apply Rabs_pos; apply Rabs_le; lra).
  apply Rabs_le_inv in K. apply Rabs_le. nra.
Qed.
Lemma mag_right p : ordinary p -> finite (fmag p) = true /\ Rabs (val (fmag p) - len p) <= (bpow radix2 (-24) + bpow radix2 (-50)) * len p.
Proof.
  intros O. destruct (mag_near p O) as (f & F & V & Fin). split; [exact Fin|]. rewrite V. replace (len p * (1 + f) - len p) with (f * len p) by ring.
  rewrite Rabs_mult, (Rabs_pos_eq (len p)) by apply sqrt_pos. apply Rmult_le_compat_r; [apply sqrt_pos|exact F].
Qed.

Lemma rnd_both x : exists e h, Rabs e <= u /\ Rabs h <= tiny /\ rnd x = x * (1 + e) + h.
Proof.
  destruct (error_N_FLT radix2 (-149) 24 eq_refl (fun z => negb (Z.even z)) x) as (e & h & E & H & _ & R).
  exists e, h. split; [apply Rle_trans with (1 := E); unfold u; cbn; lra|]. split; [apply Rle_trans with (1 := H)|exact R].
  unfold tiny. change (/ 2) with (bpow radix2 (-1)). rewrite <- bpow_plus. apply Rle_refl.
Qed.
Lemma div_near (x m : float) L f : finite x = true -> finite m = true -> 0 < L -> Rabs (val x) <= L -> Rabs f <= u + bpow radix2 (-50) -> val m = L * (1 + f) ->
  finite (f_div x m) = true /\ Rabs (val (f_div x m) - val x / L) <= (bpow radix2 (-23) + bpow radix2 (-45)) * Rabs (val x / L) + tiny.
Proof.
  intros X M LP XL F VM. pose proof v53_range as V. pose proof u_range as U. pose proof v53_small as VS. pose proof u16 as U16. rewrite p50 in F. apply Rabs_le_inv in F.
  assert (MP : 0 < val m) by (rewrite VM; nra).
  set (t := val x / L). assert (T : Rabs t <= 1).
  { unfold t, Rdiv. rewrite Rabs_mult, (Rabs_pos_eq (/ L)) by (left; now apply Rinv_0_lt_compat). apply Rmult_le_reg_r with L; [exact LP|]. rewrite Rmult_assoc, Rinv_l by lra. lra. }
  assert (TM : val x / val m = t * / (1 + f)) by (rewrite VM; unfold t; field; split; lra).
  set (i := / (1 + f)) in *. assert (I : i * (1 + f) = 1) by (unfold i; apply Rinv_l; lra). assert (IP : 0 < i) by (unfold i; apply Rinv_0_lt_compat; lra).
  assert (I2 : i < 2) by nra. assert (I3 : i <= 1 + 2.1 * u) by nra.
  assert (UU : u * u = 32 * v53) by (unfold u, v53; change 32 with (bpow radix2 5); rewrite <- !bpow_plus; reflexivity).
  assert (KF : Rabs (i * f) <= (1 + 2.1 * u) * (u + 8 * v53)) by (rewrite Rabs_mult; apply Rmult_le_compat; try apply Rabs_pos; apply Rabs_le; lra).
  assert (IB : Rabs (i - 1) <= u + 80 * v53) by (replace (i - 1) with (- (i * f)) by lra; rewrite Rabs_Ropp; apply Rle_trans with (1 := KF); nra).
  apply Rabs_le_inv in IB.
  assert (B : Rabs (val x / val m) <= bpow radix2 1).
  { rewrite TM, Rabs_mult, (Rabs_pos_eq i) by lra. change (bpow radix2 1) with 2. pose proof (Rabs_pos t). nra. }
  destruct (div_val x m X M ltac:(lra) (rnd_small _ 1 ltac:(lia) B)) as [D1 D2]. split; [exact D2|].
  destruct (rnd_both (val x / val m)) as (e & h & E & H & R). rewrite D1, R, TM. fold t.
  replace (t * i * (1 + e) + h - t) with (t * (i - 1 + i * e) + h) by ring.
  apply Rle_trans with (1 := Rabs_triang _ _). apply Rplus_le_compat; [|exact H]. rewrite Rabs_mult, Rmult_comm. apply Rmult_le_compat_r; [apply Rabs_pos|].
  apply Rabs_le_inv in E. assert (P23 : bpow radix2 (-23) = 2 * u) by (unfold u; change 2 with (bpow radix2 1); now rewrite <- bpow_plus).
  rewrite P23, p45. assert (K : Rabs (i * e) <= (1 + 2.1 * u) * u) by (rewrite Rabs_mult; apply Rmult_le_compat; try apply Rabs_pos; apply Rabs_le; lra).
  apply Rabs_le_inv in K. apply Rabs_le. nra.
Qed.

Lemma comp_le p : Rabs (val (fx p)) <= len p /\ Rabs (val (fy p)) <= len p /\ Rabs (val (fz p)) <= len p.
Proof.
  unfold len. set (a := val (fx p)). set (b := val (fy p)). set (c := val (fz p)).
  repeat split; (rewrite <- sqrt_Rsqr_abs; apply sqrt_le_1_alt; unfold Rsqr; nra).
Qed.
Lemma len_sq p : len p * len p = val (fx p) * val (fx p) + val (fy p) * val (fy p) + val (fz p) * val (fz p).
Proof. unfold len. apply sqrt_sqrt. nra. Qed.
Lemma tiny_small : 0 < tiny /\ tiny <= v53 * v53.
Proof. unfold tiny, v53. split; [apply bpow_gt_0|]. rewrite <- bpow_plus. apply bpow_le. lia. Qed.
Lemma off_sq t r a : 0 <= a <= / 1000000 -> Rabs t <= 1 -> Rabs (r - t) <= a * Rabs t + tiny -> Rabs (r * r - t * t) <= (2 * a + a * a) * (t * t) + 5 * tiny.
Proof.
  intros A T H. pose proof tiny_small as [T1 T2]. pose proof v53_range.
  replace (r * r - t * t) with ((r - t) * (2 * t + (r - t))) by ring. rewrite Rabs_mult.
  assert (Q : Rabs (2 * t + (r - t)) <= 2 * Rabs t + (a * Rabs t + tiny)).
  { apply Rle_trans with (1 := Rabs_triang _ _). rewrite Rabs_mult, (Rabs_pos_eq 2) by lra. lra. }
  assert (TT : t * t = Rabs t * Rabs t) by (rewrite <- Rabs_mult, Rabs_pos_eq; nra). rewrite TT. pose proof (Rabs_pos t) as P.
  set (s := Rabs t) in *. clearbody s.
  apply Rle_trans with ((a * s + tiny) * (2 * s + (a * s + tiny))); [apply Rmult_le_compat; try apply Rabs_pos; assumption|].
  replace ((a * s + tiny) * (2 * s + (a * s + tiny))) with ((2 * a + a * a) * (s * s) + tiny * (2 * (a * s) + 2 * s + tiny)) by ring.
  apply Rplus_le_compat_l. rewrite (Rmult_comm 5). apply Rmult_le_compat_l; [lra|]. assert (a * s <= 1 * 1) by (apply Rmult_le_compat; lra). nra.
Qed.
Lemma root_off l k : 0 <= l -> 0 <= k <= / 1000 -> - (5 * k) <= l * l - 1 <= 5 * k -> Rabs (l - 1) <= 4 * k.
Proof. intros L K H. assert (/ 2 <= l) by nra. apply Rabs_le. split; nra. Qed.
Lemma normalize_right p : ordinary p -> let r := fnormalize p in all_finite r /\
  Rabs (val (fx r) - val (fx p) / len p) <= unit_error * Rabs (val (fx p) / len p) + tiny /\
  Rabs (val (fy r) - val (fy p) / len p) <= unit_error * Rabs (val (fy p) / len p) + tiny /\
  Rabs (val (fz r) - val (fz p) / len p) <= unit_error * Rabs (val (fz p) / len p) + tiny /\
  Rabs (len r - 1) <= bpow radix2 (-22).
Proof.
  intros O r. destruct (mag_near p O) as (f & F & V & MF). destruct O as [(X & Y & Z) [L1 _]].
  assert (LP : 0 < len p) by (eapply Rlt_le_trans; [apply bpow_gt_0|exact L1]). destruct (comp_le p) as (CX & CY & CZ).
  destruct (div_near _ _ _ _ X MF LP CX F V) as [FX EX]. destruct (div_near _ _ _ _ Y MF LP CY F V) as [FY EY]. destruct (div_near _ _ _ _ Z MF LP CZ F V) as [FZ EZ].
  fold unit_error in EX, EY, EZ. split; [split; [|split]; assumption|]. split; [exact EX|]. split; [exact EY|]. split; [exact EZ|].
  set (a := val (fx p) / len p) in *. set (b := val (fy p) / len p) in *. set (c := val (fz p) / len p) in *.
  change (val (f_div (fx p) (fmag p))) with (val (fx r)) in EX. change (val (f_div (fy p) (fmag p))) with (val (fy r)) in EY. change (val (f_div (fz p) (fmag p))) with (val (fz r)) in EZ.
  assert (ONE : a * a + b * b + c * c = 1).
  { unfold a, b, c. replace (val (fx p) / len p * (val (fx p) / len p) + val (fy p) / len p * (val (fy p) / len p) + val (fz p) / len p * (val (fz p) / len p))
      with ((val (fx p) * val (fx p) + val (fy p) * val (fy p) + val (fz p) * val (fz p)) / (len p * len p)) by (field; lra).
    rewrite <- len_sq. field. lra. }
  assert (A : Rabs a <= 1 /\ Rabs b <= 1 /\ Rabs c <= 1) by (repeat split; apply Rabs_le; nra). destruct A as (A1 & A2 & A3).
  pose proof v53_range as V5. pose proof u_range as U. pose proof v53_small as VS. pose proof u16 as U16. pose proof tiny_small as [T1 T2].
  assert (P23 : bpow radix2 (-23) = 2 * u) by (unfold u; change 2 with (bpow radix2 1); now rewrite <- bpow_plus).
  assert (P22 : bpow radix2 (-22) = 4 * u) by (unfold u; change 4 with (bpow radix2 2); now rewrite <- bpow_plus).
  assert (UE : 0 <= unit_error <= / 1000000) by (unfold unit_error; rewrite P23, p45; lra).
  pose proof (off_sq _ _ _ UE A1 EX) as SX. pose proof (off_sq _ _ _ UE A2 EY) as SY. pose proof (off_sq _ _ _ UE A3 EZ) as SZ.
  apply Rabs_le_inv in SX. apply Rabs_le_inv in SY. apply Rabs_le_inv in SZ.
  assert (LR : Rabs (len r * len r - 1) <= 2 * unit_error + unit_error * unit_error + 15 * tiny).
  { rewrite len_sq. apply Rabs_le. set (k := 2 * unit_error + unit_error * unit_error) in *.
    assert (k * (a * a) + k * (b * b) + k * (c * c) = k) by (replace (k * (a * a) + k * (b * b) + k * (c * c)) with (k * (a * a + b * b + c * c)) by ring; rewrite ONE; ring). lra. }
  assert (B5 : 2 * unit_error + unit_error * unit_error + 15 * tiny <= 5 * u) by (unfold unit_error; rewrite P23, p45; nra).
  apply Rabs_le_inv in LR. rewrite P22. pose proof (sqrt_pos (val (fx r) * val (fx r) + val (fy r) * val (fy r) + val (fz r) * val (fz r))) as LPos. change (0 <= len r) in LPos.
  apply root_off; lra.
Qed.

(** Zero *)
Lemma nonzero_ge (x : float) : val x <> 0 -> bpow radix2 (-149) <= Rabs (val x).
Proof.
  intros N. destruct (float_parts x) as (m & e & V & M & E). rewrite V in *. assert (m <> 0%Z) by (intros ->; apply N; ring).
  rewrite Rabs_mult, (Rabs_pos_eq (bpow radix2 e)) by apply bpow_ge_0. rewrite <- abs_IZR.
  assert (1 <= IZR (Z.abs m)) by (apply IZR_le; lia). pose proof (bpow_le radix2 (-149) e E). pose proof (bpow_gt_0 radix2 (-149)). nra.
Qed.
Lemma mag_zero p : all_finite p -> zero_point p -> f_eq (fmag p) f_zero = true.
Proof.
  intros (X & Y & Z) (A & B & C). destruct p as [x y z]. cbn [fx fy fz] in *.
  assert (K : forall w : float, finite w = true -> val w = 0 -> exists s, w = B754_zero s).
  { intros w F W. destruct w as [s|s| |s m e H]; try discriminate; [eauto|]. exfalso. unfold val in W. cbn in W.
    apply eq_0_F2R in W. destruct s; discriminate. }
  destruct (K _ X A) as [sx ->]. destruct (K _ Y B) as [sy ->]. destruct (K _ Z C) as [sz ->]. destruct sx, sy, sz; reflexivity.
Qed.
Lemma mag_nonzero p : all_finite p -> len p <= bpow radix2 127 -> ~ zero_point p -> finite (fmag p) = true /\ 0 < val (fmag p).
Proof.
  intros F L2 NZ. assert (L1 : bpow radix2 (-149) <= len p).
  { destruct (comp_le p) as (CX & CY & CZ). destruct (Req_dec (val (fx p)) 0) as [A|A]; [|pose proof (nonzero_ge _ A); lra].
    destruct (Req_dec (val (fy p)) 0) as [B|B]; [|pose proof (nonzero_ge _ B); lra].
    destruct (Req_dec (val (fz p)) 0) as [C|C]; [|pose proof (nonzero_ge _ C); lra]. exfalso. apply NZ. repeat split; assumption. }
  assert (LP : 0 < len p) by (eapply Rlt_le_trans; [apply bpow_gt_0|exact L1]).
  destruct (length3 p F) as (e & E & D & DF); [apply Rle_trans with (2 := L1); apply bpow_le; lia|].
  pose proof v53_range as V. pose proof u_range as U. pose proof v53_small as VS. pose proof u16 as U16. apply Rabs_le_inv in E.
  set (d := d_sqrt _) in *. change (fmag p) with (to_float d).
  destruct (rnd_both (dv d)) as (g & h & G & H & R). apply Rabs_le_inv in G. apply Rabs_le_inv in H.
  assert (T : bpow radix2 (-149) = 2 * tiny) by (unfold tiny; change 2 with (bpow radix2 1); now rewrite <- bpow_plus). pose proof tiny_small as [T1 T2].
  assert (DB : tiny * 1.5 <= dv d) by (rewrite D; nra).
  assert (RP : 0 < rnd (dv d)) by (rewrite R; nra).
  assert (B1 : 1 <= bpow radix2 127) by (change 1 with (bpow radix2 0); apply bpow_le; lia).
  destruct (to_float_val d DF) as [Q1 Q2]; [|split; [exact Q2|rewrite Q1; exact RP]].
  rewrite Rabs_pos_eq by lra. unfold big. change 128%Z with (1 + 127)%Z. rewrite bpow_plus. change (bpow radix2 1) with 2. rewrite R, D.
  assert (tiny <= / 1000000) by nra. assert (len p * (1 + e) <= bpow radix2 127 * 1.001) by nra. nra.
Qed.
Lemma normalize_zero p : all_finite p -> zero_point p -> fx (fnormalize p) = B754_nan /\ fy (fnormalize p) = B754_nan /\ fz (fnormalize p) = B754_nan.
Proof.
  intros (X & Y & Z) (A & B & C). destruct p as [x y z]. cbn [fx fy fz] in *.
  assert (K : forall w : float, finite w = true -> val w = 0 -> exists s, w = B754_zero s).
  { intros w F W. destruct w as [s|s| |s m e H]; try discriminate; [eauto|]. exfalso. unfold val in W. cbn in W.
    apply eq_0_F2R in W. destruct s; discriminate. }
  destruct (K _ X A) as [sx ->]. destruct (K _ Y B) as [sy ->]. destruct (K _ Z C) as [sz ->]. destruct sx, sy, sz; repeat split; reflexivity.
Qed.

(** The plane *)
Lemma square_sign x : finite x = true -> Bsign (square x) = false.
Proof.
  intros F. destruct (square_val x F) as [_ D]. unfold square, d_mul in *. pose proof (Bmult_correct 53 1024 _ _ mode_NE (to_double x) (to_double x)) as H.
  destruct (Rlt_bool _ _) in H; [destruct H as (_ & _ & H); rewrite H; [apply xorb_nilpotent|]|].
  - now destruct (Bmult mode_NE (to_double x) (to_double x)).
  - exfalso. rewrite xorb_nilpotent in H. cbn in H. destruct (Bmult mode_NE (to_double x) (to_double x)); discriminate.
Qed.
Lemma plane x y : finite x = true -> finite y = true -> fmag2 x y = fmag (mkF x y f_zero).
Proof.
  intros X Y. unfold fmag2, fmag. cbn [fx fy fz]. change (square f_zero) with (B754_zero false : double). do 2 f_equal.
  destruct (square_val x X) as [VX FX]. destruct (square_val y Y) as [VY FY].
  assert (G : Bsign (d_add (square x) (square y)) = false).
  { assert (Q : forall a : float, 0 <= val a * val a <= bpow radix2 256).
    { intros a. split; [nra|]. replace (val a * val a) with (Rabs (val a) * Rabs (val a)) by (rewrite <- Rabs_mult; apply Rabs_pos_eq; nra).
      change 256%Z with (128 + 128)%Z. rewrite bpow_plus. pose proof (Rlt_le _ _ (abs_B2R_lt_emax 24 128 a)). apply Rmult_le_compat; try apply Rabs_pos; assumption. }
    pose proof (Q x). pose proof (Q y).
    unfold d_add. pose proof (Bplus_correct 53 1024 _ _ mode_NE (square x) (square y) FX FY) as H1. rewrite Rlt_bool_true in H1.
    - destruct H1 as (_ & _ & H1). rewrite H1. change (B2R (square x)) with (dv (square x)). change (B2R (square y)) with (dv (square y)). rewrite VX, VY.
      destruct (Rcompare_spec (val x * val x + val y * val y) 0); [lra| |reflexivity]. now rewrite (square_sign x X).
    - change (Rabs (drnd (dv (square x) + dv (square y))) < bpow radix2 1024). rewrite VX, VY. apply (drnd_small _ 257); [lia|].
      rewrite Rabs_pos_eq by lra. change 257%Z with (1 + 256)%Z. rewrite bpow_plus. change (bpow radix2 1) with 2. lra. }
  destruct (d_add (square x) (square y)) as [s|s| |s m e B]; cbn in G |- *; try reflexivity. subst s. reflexivity.
Qed.
Lemma plane_normalize x y : finite x = true -> finite y = true -> fnormalize2 x y = (fx (fnormalize (mkF x y f_zero)), fy (fnormalize (mkF x y f_zero))).
Proof. intros X Y. unfold fnormalize2. rewrite plane by assumption. reflexivity. Qed.

(** ** Component by component *)
Definition u24 : R := bpow radix2 (-24).
Lemma u_ro_24 : u_ro radix2 24 = u24. Proof. unfold u_ro, u24. cbn. lra. Qed.
Lemma u24_range : 0 < u24 <= / 1000000. Proof. unfold u24. cbn. lra. Qed.
Lemma rnd_sum x y : fmt x -> fmt y -> Rabs (rnd (x + y) - (x + y)) <= u24 * Rabs (x + y) + 0.
Proof.
  intros X Y. destruct (FLT_plus_error_N_ex radix2 (-149) 24 (fun z => negb (Z.even z)) x y X Y) as (e & B & E).
  rewrite u_ro_24 in B. pose proof u24_range. apply shrink in B; [|lra]. change (rnd (x + y) = (x + y) * (1 + e)) in E. rewrite E.
  replace ((x + y) * (1 + e) - (x + y)) with (e * (x + y)) by ring. rewrite Rabs_mult, Rplus_0_r. apply Rmult_le_compat_r; [apply Rabs_pos|exact B].
Qed.
Lemma rnd_any x : Rabs (rnd x - x) <= u24 * Rabs x + tiny.
Proof.
  destruct (rnd_both x) as (e & h & B & Hh & E). rewrite E. replace (x * (1 + e) + h - x) with (e * x + h) by ring.
  eapply Rle_trans; [apply Rabs_triang|]. rewrite Rabs_mult. apply Rplus_le_compat; [apply Rmult_le_compat_r; [apply Rabs_pos|exact B]|exact Hh].
Qed.
Lemma add_one x y : finite x = true -> finite y = true -> Rabs (val x + val y) <= bpow radix2 127 ->
  finite (f_add x y) = true /\ Rabs (val (f_add x y) - (val x + val y)) <= bpow radix2 (-24) * Rabs (val x + val y) + 0.
Proof. intros X Y B. destruct (add_val x y X Y) as [E F]; [apply (rnd_small _ 127); [lia|exact B]|]. split; [exact F|]. rewrite E. apply rnd_sum; apply val_fmt. Qed.
Lemma sub_one x y : finite x = true -> finite y = true -> Rabs (val x - val y) <= bpow radix2 127 ->
  finite (f_sub x y) = true /\ Rabs (val (f_sub x y) - (val x - val y)) <= bpow radix2 (-24) * Rabs (val x - val y) + 0.
Proof.
  intros X Y B. destruct (sub_val x y X Y) as [E F]; [apply (rnd_small _ 127); [lia|exact B]|]. split; [exact F|]. rewrite E.
  apply (rnd_sum (val x) (- val y)); [apply val_fmt|apply fmt_opp, val_fmt].
Qed.
Lemma mul_one x y : finite x = true -> finite y = true -> Rabs (val x * val y) <= bpow radix2 127 ->
  finite (f_mul x y) = true /\ Rabs (val (f_mul x y) - val x * val y) <= bpow radix2 (-24) * Rabs (val x * val y) + tiny.
Proof. intros X Y B. destruct (mul_val x y X Y) as [E F]; [apply (rnd_small _ 127); [lia|exact B]|]. split; [exact F|]. rewrite E. apply rnd_any. Qed.
Lemma div_one x y : finite x = true -> finite y = true -> val y <> 0 -> Rabs (val x / val y) <= bpow radix2 127 ->
  finite (f_div x y) = true /\ Rabs (val (f_div x y) - val x / val y) <= bpow radix2 (-24) * Rabs (val x / val y) + tiny.
Proof. intros X Y N B. destruct (div_val x y X Y N) as [E F]; [apply (rnd_small _ 127); [lia|exact B]|]. split; [exact F|]. rewrite E. apply rnd_any. Qed.
Lemma sums p q : all_finite p -> all_finite q -> within_range Rplus p q -> componentwise 0 Rplus p q (fadd p q).
Proof.
  intros (Px & Py & Pz) (Qx & Qy & Qz) (X & Y & Z). destruct (add_one _ _ Px Qx X), (add_one _ _ Py Qy Y), (add_one _ _ Pz Qz Z). repeat split; assumption.
Qed.
Lemma differences p q : all_finite p -> all_finite q -> within_range Rminus p q -> componentwise 0 Rminus p q (fsub p q).
Proof.
  intros (Px & Py & Pz) (Qx & Qy & Qz) (X & Y & Z). destruct (sub_one _ _ Px Qx X), (sub_one _ _ Py Qy Y), (sub_one _ _ Pz Qz Z). repeat split; assumption.
Qed.
Lemma products p q : all_finite p -> all_finite q -> within_range Rmult p q -> componentwise tiny Rmult p q (fmulp p q).
Proof.
  intros (Px & Py & Pz) (Qx & Qy & Qz) (X & Y & Z). destruct (mul_one _ _ Px Qx X), (mul_one _ _ Py Qy Y), (mul_one _ _ Pz Qz Z). repeat split; assumption.
Qed.
Lemma quotients p q : all_finite p -> all_finite q -> val (fx q) <> 0 -> val (fy q) <> 0 -> val (fz q) <> 0 -> within_range Rdiv p q ->
  componentwise tiny Rdiv p q (fdivp p q).
Proof.
  intros (Px & Py & Pz) (Qx & Qy & Qz) Nx Ny Nz (X & Y & Z). destruct (div_one _ _ Px Qx Nx X), (div_one _ _ Py Qy Ny Y), (div_one _ _ Pz Qz Nz Z). repeat split; assumption.
Qed.
Lemma scaled s p : all_finite p -> finite s = true -> within_range Rmult p (mkF s s s) -> componentwise tiny Rmult p (mkF s s s) (fscale s p).
Proof. intros P F H. apply (products p (mkF s s s)); [exact P|repeat split; exact F|exact H]. Qed.
