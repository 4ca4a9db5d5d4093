(** Lemmas for property C140. *)
From Coq Require Import ZArith Lia Reals Lra Bool List.
From Flocq Require Import Core IEEE754.BinarySingleNaN Plus_error.
From Verif Require Import Base KTimeModel KTimeProofs FloatModel FloatFacts PidModel PidProofs TunerModel TunerSpec TunerProofs GainSpec.
Import ListNotations.
Open Scope R_scope.

(** ** Signs through single precision *)
Definition good (x : float) : Prop := is_nan x = false /\ Bsign x = false.
Definition posfin (x : float) : Prop := finite x = true /\ 0 < val x.
(** Above zero, perhaps infinite *)
Definition pos (x : float) : Prop := posfin x \/ x = B754_infinity false.
Lemma posfin_form x : posfin x -> exists m e H, x = B754_finite false m e H.
Proof.
  intros [F P]. destruct x as [s| | |s m e H]; try discriminate F; [unfold val in P; cbn in P; lra|]. destruct s; [|eauto]. exfalso.
  unfold val, B2R in P. apply Rlt_not_le in P. apply P. apply F2R_le_0. cbn. lia.
Qed.
Lemma posfin_good x : posfin x -> good x.
Proof. intros H. destruct (posfin_form x H) as (m & e & B & ->). split; reflexivity. Qed.
Lemma good_ge x : good x -> f_ge x f_zero = true.
Proof. intros [N S1]. destruct x as [s|s| |s m e H]; try discriminate N; cbn in S1; subst s; reflexivity. Qed.
Lemma good_val x : good x -> finite x = true -> 0 <= val x.
Proof. intros [N S1] F. destruct x as [s|s| |s m e H]; try discriminate; unfold val; cbn in S1 |- *; [lra|]. subst s. apply F2R_ge_0. cbn. lia. Qed.
Lemma sf_inf (z : float) : B2SF z = SpecFloat.S754_infinity false -> z = B754_infinity false.
Proof. intros H. apply B2SF_inj. exact H. Qed.
Lemma good_inf : good (B754_infinity false). Proof. split; reflexivity. Qed.

Lemma good_mul x y : good x -> posfin y -> good (f_mul x y).
Proof.
  intros [N Sx] Py. destruct (posfin_form y Py) as (m & e & B & Ey). destruct x as [s|s| |s mx ex Bx]; try discriminate N; cbn [Bsign] in Sx; subst s; [subst y; split; reflexivity|subst y; split; reflexivity|].
  unfold f_mul. pose proof (Bmult_correct 24 128 _ _ mode_NE (B754_finite false mx ex Bx) y) as H. assert (Sy : Bsign y = false) by (subst y; reflexivity). assert (Fy : is_finite y = true) by (subst y; reflexivity).
  destruct (Rlt_bool _ _).
  - destruct H as (_ & F & Sg). cbn [is_finite andb] in F. rewrite Fy in F. assert (Nn : is_nan (Bmult mode_NE (B754_finite false mx ex Bx) y) = false) by (destruct (Bmult mode_NE (B754_finite false mx ex Bx) y); (reflexivity || discriminate F)).
    split; [exact Nn|]. refine (eq_trans (Sg Nn) _). rewrite Sy. reflexivity.
  - rewrite Sy in H. rewrite (sf_inf _ H). exact good_inf.
Qed.
Lemma good_mul_l x y : posfin x -> good y -> good (f_mul x y).
Proof.
  intros Px [N Sy]. destruct (posfin_form x Px) as (m & e & B & Ex). destruct y as [s|s| |s my ey By]; try discriminate N; cbn [Bsign] in Sy; subst s; [subst x; split; reflexivity|subst x; split; reflexivity|].
  unfold f_mul. pose proof (Bmult_correct 24 128 _ _ mode_NE x (B754_finite false my ey By)) as H. assert (Sx : Bsign x = false) by (subst x; reflexivity). assert (Fx : is_finite x = true) by (subst x; reflexivity).
  destruct (Rlt_bool _ _).
  - destruct H as (_ & F & Sg). rewrite Fx in F. cbn [is_finite andb] in F. assert (Nn : is_nan (Bmult mode_NE x (B754_finite false my ey By)) = false) by (destruct (Bmult mode_NE x (B754_finite false my ey By)); (reflexivity || discriminate F)).
    split; [exact Nn|]. refine (eq_trans (Sg Nn) _). rewrite Sx. reflexivity.
  - rewrite Sx in H. rewrite (sf_inf _ H). exact good_inf.
Qed.
Lemma good_div x y : good x -> posfin y -> good (f_div x y).
Proof.
  intros [N Sx] Py. destruct (posfin_form y Py) as (m & e & B & Ey). destruct x as [s|s| |s mx ex Bx]; try discriminate N; cbn [Bsign] in Sx; subst s; [subst y; split; reflexivity|subst y; split; reflexivity|].
  unfold f_div. assert (Nz : B2R y <> 0) by (destruct Py as [_ P]; unfold val in P; lra). pose proof (Bdiv_correct 24 128 _ _ mode_NE (B754_finite false mx ex Bx) y Nz) as H. assert (Sy : Bsign y = false) by (subst y; reflexivity).
  destruct (Rlt_bool _ _).
  - destruct H as (_ & F & Sg). cbn [is_finite] in F. assert (Nn : is_nan (Bdiv mode_NE (B754_finite false mx ex Bx) y) = false) by (destruct (Bdiv mode_NE (B754_finite false mx ex Bx) y); (reflexivity || discriminate F)).
    split; [exact Nn|]. refine (eq_trans (Sg Nn) _). rewrite Sy. reflexivity.
  - rewrite Sy in H. rewrite (sf_inf _ H). exact good_inf.
Qed.
Lemma good_div_pos x y : good x -> finite x = true -> pos y -> good (f_div x y).
Proof.
  intros G F [P| ->]; [apply good_div; assumption|]. destruct G as [N Sx]. destruct x as [s|s| |s mx ex Bx]; try discriminate; cbn [Bsign] in Sx; subst s; split; reflexivity.
Qed.
Lemma good_add x y : good x -> good y -> good (f_add x y).
Proof.
  intros Gx Gy. destruct (finite x) eqn:Fx.
  - destruct (finite y) eqn:Fy.
    + unfold f_add. pose proof (Bplus_correct 24 128 _ _ mode_NE x y Fx Fy) as H. pose proof (good_val x Gx Fx) as Vx. pose proof (good_val y Gy Fy) as Vy. unfold val in Vx, Vy. destruct (Rlt_bool _ _).
      * destruct H as (_ & F & Sg). split; [destruct (Bplus mode_NE x y); (reflexivity || discriminate F)|]. rewrite Sg. destruct (Rcompare_spec (B2R x + B2R y) 0); [lra| |reflexivity]. rewrite (proj2 Gx). reflexivity.
      * destruct H as [H _]. rewrite (proj2 Gx) in H. rewrite (sf_inf _ H). exact good_inf.
    + destruct Gy as [Ny Sy]. destruct y as [s|s| |s my ey By]; try discriminate; cbn [Bsign] in Sy; subst s. destruct x as [s|s| |s mx ex Bx]; try discriminate; split; reflexivity.
  - destruct Gx as [Nx Sx]. destruct x as [s|s| |s mx ex Bx]; try discriminate; cbn [Bsign] in Sx; subst s. destruct Gy as [Ny Sy]. destruct y as [s|s| |s my ey By]; try discriminate; cbn [Bsign] in Sy; subst s; split; reflexivity.
Qed.
Lemma sub_pos x y : finite x = true -> finite y = true -> val y < val x -> pos (f_sub x y).
Proof.
  intros Fx Fy L. unfold f_sub. pose proof (Bminus_correct 24 128 _ _ mode_NE x y Fx Fy) as H. unfold val in L. destruct (Rlt_bool _ _).
  - destruct H as (E & F & _). left. split; [exact F|]. unfold val. rewrite E.
    assert (G : 0 <= rnd (B2R x - B2R y)) by (rewrite <- rnd_0; apply rnd_le; lra).
    assert (Nz : rnd (B2R x + - B2R y) <> 0). { apply round_plus_neq_0; try typeclasses eauto; [apply (val_fmt x)|apply fmt_opp, (val_fmt y)|lra]. }
    replace (B2R x + - B2R y) with (B2R x - B2R y) in Nz by ring. change (0 < rnd (B2R x - B2R y)). lra.
  - right. destruct H as [H Hs]. assert (Sx : Bsign x = false).
    { destruct (Bsign x) eqn:Sx; [exfalso|reflexivity]. assert (Sy : Bsign y = false) by (destruct (Bsign y); [discriminate Hs|reflexivity]).
      assert (Gy : good y) by (split; [destruct y; (reflexivity || discriminate Fy)|exact Sy]). pose proof (good_val y Gy Fy) as Vy. unfold val in Vy.
      destruct x as [s|s| |s mx ex Bx]; try discriminate; cbn [Bsign] in Sx; subst s; [cbn [B2R] in L; lra|]. assert (B2R (B754_finite true mx ex Bx) <= 0) by (cbn [B2R]; apply F2R_le_0; cbn; lia). unfold val in *. lra. }
    rewrite Sx in H. exact (sf_inf _ H).
Qed.
Lemma pi_val : finite f_pi = true /\ 2 <= val f_pi.
Proof.
  assert (F : finite f_pi = true) by (vm_compute; reflexivity). split; [exact F|]. destruct (ofZ_exact 2) as [E2 F2]; [lia|].
  assert (H : f_le (f_ofZ 2) f_pi = true) by (vm_compute; reflexivity). rewrite le_val in H by assumption. rewrite E2 in H. revert H. case Rle_bool_spec; [auto|discriminate].
Qed.
Lemma half_inf : f_div (B754_infinity false) (f_ofZ 2) = B754_infinity false.
Proof. apply B2SF_inj. vm_compute. reflexivity. Qed.
Lemma pi_pos r : pos r -> pos (f_div (f_mul f_pi r) (f_ofZ 2)).
Proof.
  destruct pi_val as [Fp Vp]. destruct (ofZ_exact 2) as [E2 F2]; [lia|]. intros [[F P]| ->].
  - assert (L : bpow radix2 (-149) <= val r). { apply (generic_format_ge_bpow radix2 (FLT_exp (-149) 24)); [intros e; unfold FLT_exp; lia|exact P|apply val_fmt]. }
    assert (Em : bpow radix2 (-148) = 2 * bpow radix2 (-149)) by (change (-148)%Z with (1 + -149)%Z; rewrite bpow_plus; reflexivity).
    assert (Lm : bpow radix2 (-148) <= rnd (val f_pi * val r)). { rewrite <- (rnd_id (bpow radix2 (-148))) by (apply fmt_bpow; lia). apply rnd_le. rewrite Em. assert (0 < bpow radix2 (-149)) by apply bpow_gt_0. nra. }
    destruct (Rlt_or_le (Rabs (rnd (val f_pi * val r))) big) as [S1|S1].
    + destruct (mul_val f_pi r Fp F S1) as [Ev Fv]. assert (B0 : 0 < bpow radix2 (-149)) by apply bpow_gt_0.
      assert (S2 : Rabs (rnd (val (f_mul f_pi r) / val (f_ofZ 2))) < big).
      { rewrite E2. assert (Hx : 0 <= val (f_mul f_pi r)) by (rewrite Ev; lra). assert (Hy : rnd (val (f_mul f_pi r) / 2) <= val (f_mul f_pi r)) by (rewrite <- (rnd_id (val (f_mul f_pi r))) at 2 by apply val_fmt; apply rnd_le; lra).
        assert (Hz : 0 <= rnd (val (f_mul f_pi r) / 2)) by (rewrite <- rnd_0; apply rnd_le; lra). rewrite Rabs_pos_eq by exact Hz. rewrite <- Ev in S1. rewrite Rabs_pos_eq in S1 by exact Hx. lra. }
      destruct (div_val _ _ Fv F2 ltac:(rewrite E2; lra) S2) as [Ed Fd]. left. split; [exact Fd|]. rewrite Ed, E2.
      apply Rlt_le_trans with (bpow radix2 (-149)); [exact B0|]. rewrite <- (rnd_id (bpow radix2 (-149))) by (apply fmt_bpow; lia). apply rnd_le. rewrite Ev. lra.
    + right. unfold f_mul. pose proof (Bmult_correct 24 128 _ _ mode_NE f_pi r) as H. rewrite Rlt_bool_false in H by exact S1.
      rewrite (proj2 (posfin_good f_pi ltac:(split; [exact Fp|lra]))), (proj2 (posfin_good r (conj F P))) in H. rewrite (sf_inf _ H). exact half_inf.
  - right. destruct (posfin_form f_pi ltac:(split; [exact Fp|lra])) as (m & e & B & E). assert (f_mul f_pi (B754_infinity false) = B754_infinity false) as -> by (rewrite E; reflexivity). exact half_inf.
Qed.
Lemma ofZ_pos z : (1 <= z <= 2 ^ 64)%Z -> posfin (f_ofZ z).
Proof.
  intros H. destruct (ofZ_val z) as [E F]; [lia|]. split; [exact F|]. rewrite E. apply Rlt_le_trans with 1; [lra|]. rewrite <- (rnd_id 1) by (apply (fmt_Z 1); lia). apply rnd_le. apply IZR_le. lia.
Qed.
Lemma test_pos x : finite x = true -> f_lt f_zero x = true -> posfin x.
Proof. intros F H. split; [exact F|]. rewrite lt_val in H by (exact F || reflexivity). revert H. change (val f_zero) with 0. case Rlt_bool_spec; [auto|discriminate]. Qed.

Section Tuned.
Variable c : tuner_config.
Hypothesis Hc : sensible c.
Lemma limits_range : good (f_mul (f_ofZ 4) (f_div (f_sub (t_max c) (t_min c)) (f_ofZ 2))) /\ finite (f_mul (f_ofZ 4) (f_div (f_sub (t_max c) (t_min c)) (f_ofZ 2))) = true.
Proof.
  destruct (sensible_limits c Hc) as ([Fl Bl] & [Fh Bh] & L). rewrite lt_val in L by assumption. assert (L' : val (t_min c) < val (t_max c)) by (revert L; case Rlt_bool_spec; [auto|discriminate]). clear L.
  fold (val (t_min c)) in Bl. fold (val (t_max c)) in Bh. destruct (ofZ_exact 2) as [E2 F2]; [lia|]. destruct (ofZ_exact 4) as [E4 F4]; [lia|].
  assert (D : Rabs (val (t_max c) - val (t_min c)) <= bpow radix2 121). { apply Rabs_le_inv in Bl, Bh. change 121%Z with (120 + 1)%Z. rewrite bpow_plus. change (bpow radix2 1) with 2. apply Rabs_le. lra. }
  destruct (sub_val _ _ Fh Fl) as [Es Fs]; [apply (rnd_small _ 121); [lia|exact D]|].
  assert (Ps : posfin (f_sub (t_max c) (t_min c))). { destruct (sub_pos _ _ Fh Fl L') as [P|P]; [exact P|]. rewrite P in Fs. discriminate. }
  assert (Bs : Rabs (val (f_sub (t_max c) (t_min c))) <= bpow radix2 121) by (rewrite Es; apply rnd_bound; [lia|exact D]).
  assert (Dd : Rabs (val (f_sub (t_max c) (t_min c)) / val (f_ofZ 2)) <= bpow radix2 121). { rewrite E2. unfold Rdiv. rewrite Rabs_mult, (Rabs_pos_eq (/ 2)) by lra. assert (0 <= Rabs (val (f_sub (t_max c) (t_min c)))) by apply Rabs_pos. lra. }
  destruct (div_val _ _ Fs F2 ltac:(rewrite E2; lra) ltac:(apply (rnd_small _ 121); [lia|exact Dd])) as [Ed Fd].
  assert (Bd : Rabs (val (f_div (f_sub (t_max c) (t_min c)) (f_ofZ 2))) <= bpow radix2 121) by (rewrite Ed; apply rnd_bound; [lia|exact Dd]).
  assert (Dm : Rabs (val (f_ofZ 4) * val (f_div (f_sub (t_max c) (t_min c)) (f_ofZ 2))) <= bpow radix2 123). { rewrite E4, Rabs_mult, (Rabs_pos_eq 4) by lra. change 123%Z with (2 + 121)%Z. rewrite bpow_plus. change (bpow radix2 2) with 4. lra. }
  destruct (mul_val _ _ F4 Fd ltac:(apply (rnd_small _ 123); [lia|exact Dm])) as [_ Fm]. split; [|exact Fm].
  apply good_mul_l; [split; [exact F4|rewrite E4; lra]|]. apply good_div; [apply posfin_good; exact Ps|split; [exact F2|rewrite E2; lra]].
Qed.
Definition goods (g : float * float * float) : Prop := good (fst (fst g)) /\ good (snd (fst g)) /\ good (snd g).
Lemma half_val : val (f_lit 5 10) = bpow radix2 (-1) /\ finite (f_lit 5 10) = true.
Proof.
  assert (f_lit 5 10 = f_div (f_ofZ 1) (f_ofZ 2)) as -> by (apply B2SF_inj; vm_compute; reflexivity). destruct (ofZ_exact 1) as [E1 F1]; [lia|]. destruct (ofZ_exact 2) as [E2 F2]; [lia|].
  assert (Eb : val (f_ofZ 1) / val (f_ofZ 2) = bpow radix2 (-1)) by (rewrite E1, E2; change (bpow radix2 (-1)) with (/ 2); lra).
  destruct (div_val _ _ F1 F2 ltac:(rewrite E2; lra)) as [V F]; [rewrite Eb; apply (rnd_small _ (-1)); [lia|rewrite Rabs_pos_eq by apply bpow_ge_0; apply Rle_refl]|].
  split; [|exact F]. rewrite V, Eb. apply rnd_id, fmt_bpow. lia.
Qed.
Lemma constants_pos : let '(a, b, d) := constants c in posfin a /\ b = f_lit 5 10 /\ posfin d.
Proof. unfold constants. destruct (t_mode c); (split; [apply test_pos; vm_compute; reflexivity|split; [reflexivity|apply test_pos; vm_compute; reflexivity]]). Qed.
Lemma half_pos z : (1 <= z <= 2 ^ 64)%Z -> posfin (f_mul (f_lit 5 10) (f_ofZ z)).
Proof.
  intros H. destruct half_val as [Eh Fh]. destruct (ofZ_val z) as [E F]; [lia|]. change (bpow radix2 (-1)) with (/ 2) in Eh.
  assert (V1 : 1 <= val (f_ofZ z)) by (rewrite E, <- (rnd_id 1) by (apply (fmt_Z 1); lia); apply rnd_le, IZR_le; lia).
  assert (V2 : val (f_ofZ z) <= bpow radix2 64). { rewrite E, <- (rnd_id (bpow radix2 64)) by (apply fmt_bpow; lia). apply rnd_le. change (bpow radix2 64) with (IZR (2 ^ 64)). apply IZR_le. lia. }
  assert (D : Rabs (val (f_lit 5 10) * val (f_ofZ z)) <= bpow radix2 64). { rewrite Eh, Rabs_pos_eq by lra. lra. }
  destruct (mul_val _ _ Fh F) as [Em Fm]; [apply (rnd_small _ 64); [lia|exact D]|]. split; [exact Fm|]. rewrite Em.
  apply Rlt_le_trans with (bpow radix2 (-1)); [apply bpow_gt_0|]. rewrite <- (rnd_id (bpow radix2 (-1))) by (apply fmt_bpow; lia). apply rnd_le. rewrite Eh. change (bpow radix2 (-1)) with (/ 2). lra.
Qed.
Lemma gains_good a b l h : finite a = true -> finite b = true -> val b < val a -> (0 < l <= 2 ^ 62)%Z -> (0 <= h <= 2 ^ 62)%Z -> goods (gains c a b l h).
Proof.
  intros Fa Fb L Hl Hh. unfold gains. pose proof constants_pos as Cp. destruct (constants c) as [[kpc tic] tdc]. destruct Cp as (Cp & -> & Cd).
  destruct limits_range as [Gn Fn]. pose proof (good_div_pos _ _ Gn Fn (pi_pos _ (sub_pos _ _ Fa Fb L))) as Gu. pose proof (sensible_interval c Hc) as Hi.
  assert (Pi : posfin (f_ofZ (t_interval c))) by (apply ofZ_pos; lia). assert (Pt : posfin (f_ofZ (l + h))) by (apply ofZ_pos; lia).
  pose proof (good_mul_l _ _ Cp Gu) as Gk. unfold goods. cbn [fst snd]. split; [exact Gk|]. split.
  - apply good_mul; [|exact Pi]. apply good_div; [exact Gk|apply half_pos; lia].
  - apply good_div; [|exact Pi]. apply good_mul; [|exact Pt]. apply good_mul_l; assumption.
Qed.

(** ** The tuner *)
Record tuned (now : Z) (t : tuner) : Prop := {
  tu_finite : finite (mx t) = true /\ finite (mn t) = true;
  tu_off : on t = false -> val (t_target c) <= val (mx t);
  tu_times : (0 <= t1 t <= now /\ 0 <= t2 t <= now)%Z;
  tu_high : on t = false -> (1 <= cycle t -> 0 <= thigh t <= 2 ^ 62)%Z;
  tu_sums : goods (psum t, isum t, dsum t);
  tu_end : is_finished c t = true -> goods (gp t, gi t, gd t);
  tu_cycle : (0 <= cycle t)%Z }.
Lemma levels : finite (f_sub (t_target c) (t_hyst c)) = true /\ finite (f_add (t_target c) (t_hyst c)) = true /\
  val (f_sub (t_target c) (t_hyst c)) <= val (t_target c) <= val (f_add (t_target c) (t_hyst c)).
Proof.
  destruct (sensible_target c Hc) as ([Ft Bt] & [Fh Bh] & L). destruct (ofZ_exact 0) as [E0 F0]; [lia|]. rewrite le_val, E0 in L by assumption. assert (H : 0 <= val (t_hyst c)) by (revert L; case Rle_bool_spec; [auto|discriminate]).
  fold (val (t_target c)) in Bt. fold (val (t_hyst c)) in Bh. apply Rabs_le_inv in Bt, Bh.
  assert (P : bpow radix2 121 = 2 * bpow radix2 120) by (change 121%Z with (1 + 120)%Z; rewrite bpow_plus; reflexivity).
  destruct (sub_val _ _ Ft Fh) as [Es Fs]; [apply (rnd_small _ 121); [lia|apply Rabs_le; lra]|]. destruct (add_val _ _ Ft Fh) as [Ea Fa]; [apply (rnd_small _ 121); [lia|apply Rabs_le; lra]|].
  split; [exact Fs|]. split; [exact Fa|]. rewrite Es, Ea. split; rewrite <- (rnd_id (val (t_target c))) at 1 2 by apply val_fmt; rewrite ?(rnd_id (val (t_target c))) by apply val_fmt.
  - rewrite <- (rnd_id (val (t_target c))) at 2 by apply val_fmt. apply rnd_le. lra.
  - rewrite <- (rnd_id (val (t_target c))) at 1 by apply val_fmt. apply rnd_le. lra.
Qed.
Lemma lt_real x y : finite x = true -> finite y = true -> f_lt x y = true -> val x < val y.
Proof. intros Fx Fy H. rewrite lt_val in H by assumption. revert H. case Rlt_bool_spec; [auto|discriminate]. Qed.
Lemma nlt_real x y : finite x = true -> finite y = true -> f_lt x y = false -> val y <= val x.
Proof. intros Fx Fy H. rewrite lt_val in H by assumption. revert H. case Rlt_bool_spec; [discriminate|auto]. Qed.
Lemma extremes_ok x now t : finite x = true -> tuned now t -> is_finished c t = false ->
  let u := extremes x t in tuned now u /\ is_finished c u = false /\ on u = on t /\ cycle u = cycle t /\ val (mn u) <= val x.
Proof.
  intros Fx [[F1 F2] O T H Sm En Cy] Nf. cbn zeta. assert (Nu : is_finished c (extremes x t) = false) by exact Nf.
  assert (M1 : finite (mx (extremes x t)) = true /\ val (mx t) <= val (mx (extremes x t))).
  { cbn [extremes mx]. destruct (f_gt (mx t) x) eqn:E; [split; [exact F1|lra]|]. split; [exact Fx|]. apply (nlt_real x (mx t) Fx F1 E). }
  assert (M2 : finite (mn (extremes x t)) = true /\ val (mn (extremes x t)) <= val x).
  { cbn [extremes mn]. destruct (f_lt (mn t) x) eqn:E; [split; [exact F2|]; left; apply (lt_real _ _ F2 Fx E)|split; [exact Fx|lra]]. }
  split; [|split; [exact Nu|split; [reflexivity|split; [reflexivity|apply M2]]]]. constructor.
  - split; [apply M1|apply M2].
  - intros Ho. specialize (O Ho). destruct M1 as [_ M1]. lra.
  - exact T.
  - exact H.
  - exact Sm.
  - intros E. rewrite Nu in E. discriminate.
  - exact Cy.
Qed.
Lemma minus_below now now' t : (0 <= t <= now)%Z -> (now < (now' - now) * 2 ^ 24)%Z -> (0 < ksub MS MS now' t <= now')%Z.
Proof.
  intros H A. unfold ksub. rewrite from_other_same. pose proof (near24_error now) as E. pose proof (near24_mono t now ltac:(lia)) as M. pose proof (near24_mono 0 t ltac:(lia)) as M0. rewrite near24_0 in M0. lia.
Qed.
Lemma step_ok x now now' t : finite x = true -> tuned now t -> is_finished c t = false -> (0 <= now)%Z -> (now < (now' - now) * 2 ^ 24 \/ cycle t = 0 /\ on t = true /\ now <= now')%Z -> (now' <= 2 ^ 62)%Z -> tuned now' (snd (do_autotune c x now' t)).
Proof.
  intros Fx T0 N0 Hz Ht Hm. destruct (extremes_ok x now t Fx T0 N0) as (T & Nf & Eo & Ec & Hx). unfold do_autotune. cbn [snd]. revert T Nf Eo Ec Hx. generalize (extremes x t). intros u T Nf Eo Ec Hx.
  destruct T as [[F1 F2] O [Ta Tb] H Sm En Cy]. destruct levels as (Fl & Fh & Lv). destruct (sensible_target c Hc) as ([Ft _] & _ & _). pose proof (sensible_cycles c Hc) as Hcy.
  assert (Nn : (now <= now')%Z) by lia.
  unfold turn_off. destruct (on u && f_gt x (f_add (t_target c) (t_hyst c))) eqn:Off.
  - (* switched off: no cycle ends *)
    apply andb_prop in Off. destruct Off as [_ Off]. pose proof (lt_real _ _ Fh Fx Off) as Hhi.
    unfold turn_on, ends_cycle. cbn [on negb andb]. destruct (f_lt x (f_sub (t_target c) (t_hyst c))) eqn:L; [pose proof (lt_real _ _ Fx Fl L); lra|].
    unfold finish, is_finished. cbn [cycle]. fold (is_finished c u). rewrite Nf. constructor; cbn [on mx mn t1 t2 thigh psum isum dsum gp gi gd cycle].
    + split; assumption.
    + intros _. lra.
    + lia.
    + intros _ H1. assert (A : (now < (now' - now) * 2 ^ 24)%Z) by lia. pose proof (minus_below now now' (t2 u) Tb A). lia.
    + exact Sm.
    + unfold is_finished. cbn [cycle]. fold (is_finished c u). rewrite Nf. discriminate.
    + exact Cy.
  - unfold turn_on. destruct (ends_cycle c x u) eqn:Ends.
    + unfold ends_cycle in Ends. apply andb_prop in Ends. destruct Ends as [Eoff L]. apply negb_true_iff in Eoff. pose proof (lt_real _ _ Fx Fl L) as Hlo. specialize (O Eoff). specialize (H Eoff).
      assert (A : (now < (now' - now) * 2 ^ 24)%Z). { destruct Ht as [Ht|(_ & Ht & _)]; [exact Ht|]. rewrite Eo in Eoff. congruence. }
      pose proof (minus_below now now' (t1 u) Ta A) as Hl.
      assert (G : (1 < cycle u)%Z -> goods (gains c (mx u) (mn u) (ksub MS MS now' (t1 u)) (thigh u))) by (intros H1; apply gains_good; [assumption|assumption|lra|lia|apply H; lia]).
      destruct (gains c (mx u) (mn u) (ksub MS MS now' (t1 u)) (thigh u)) as [[kp ki] kd]. destruct Sm as (S1 & S2 & S3). cbn [fst snd] in *.
      set (t' := mkT _ _ _ _ _ _ _ _ _ _ _ _ _ _ _).
      assert (Sm' : goods (psum t', isum t', dsum t')). { unfold goods, t'. cbn [fst snd psum isum dsum]. destruct (Z.ltb_spec 1 (cycle u)) as [H1|H1]; [destruct (G H1) as (G1 & G2 & G3); split; [|split]; apply good_add; assumption|split; [|split]; assumption]. }
      unfold finish. destruct (is_finished c t') eqn:Fin.
      * assert (Ec' : cycle t' = t_cycles c). { unfold is_finished in Fin, Nf. apply Z.leb_le in Fin. apply Z.leb_gt in Nf. unfold t' in *. cbn [cycle] in *. lia. }
        assert (Pn : posfin (f_ofZ (cycle t' - 1))) by (apply ofZ_pos; lia).
        constructor; cbn [on mx mn t1 t2 thigh psum isum dsum gp gi gd cycle]; unfold t'; cbn [on mx mn t1 t2 thigh psum isum dsum gp gi gd cycle].
        -- split; assumption.
        -- intros _. exact O.
        -- lia.
        -- intros _ _. apply H. unfold t' in Ec'. cbn [cycle] in Ec'. lia.
        -- exact Sm'.
        -- intros _. destruct Sm' as (A1 & B & D). cbn [fst snd] in *. unfold goods. cbn [fst snd]. split; [|split]; apply good_div; assumption.
        -- lia.
      * constructor; unfold t'; cbn [on mx mn t1 t2 thigh psum isum dsum gp gi gd cycle].
        -- split; assumption.
        -- discriminate.
        -- lia.
        -- discriminate.
        -- exact Sm'.
        -- fold t'. rewrite Fin. discriminate.
        -- lia.
    + unfold finish. rewrite Nf. constructor; auto. lia.
Qed.
Lemma loop_ok : forall ms now t os t', tuned now t -> (0 <= now)%Z -> Forall (fun m => finite (fst m) = true) ms -> apart now (map snd ms) -> Forall (fun m => (snd m <= 2 ^ 62)%Z) ms ->
  autotune_loop c ms t = Some (os, t') -> goods (gp t', gi t', gd t').
Proof.
  induction ms as [|[x n] ms IH]; intros now t os t' T H0 Fm Lt Lm E; cbn [autotune_loop] in E; destruct (is_finished c t) eqn:Fin.
  - assert (t' = t) as -> by congruence. apply T. exact Fin.
  - discriminate.
  - assert (t' = t) as -> by congruence. apply T. exact Fin.
  - inversion Fm as [|? ? Fx Fm']; subst. inversion Lm as [|? ? Lx Lm']; subst. cbn [map apart fst snd] in *. destruct Lt as [Ln Lt].
    pose proof (step_ok x now n t Fx T Fin H0 ltac:(left; exact Ln) Lx) as T'. destruct (do_autotune c x n t) as [o u]. cbn [snd] in T'. destruct (autotune_loop c ms u) as [[os' t2']|] eqn:Er; [|discriminate].
    assert (t' = t2') as -> by congruence. apply (IH n u os' t2' T'); auto. lia.
Qed.
Lemma start_tuned t0 : (0 <= t0)%Z -> tuned t0 (start c t0).
Proof.
  intros H. pose proof (sensible_cycles c Hc) as Hcy. assert (G : good f_zero) by (split; reflexivity). constructor; cbn [start on mx mn t1 t2 thigh psum isum dsum gp gi gd cycle].
  - split; vm_compute; reflexivity.
  - discriminate.
  - lia.
  - discriminate.
  - repeat split.
  - intros _. repeat split.
  - lia.
Qed.
Lemma loop_good t0 ms os t : (0 <= t0)%Z -> Forall (fun m => finite (fst m) = true) ms -> match ms with [] => True | m :: _ => (t0 <= snd m)%Z end -> well_apart (map snd ms) -> Forall (fun m => (snd m <= 2 ^ 62)%Z) ms ->
  autotune_loop c ms (start c t0) = Some (os, t) -> goods (gp t, gi t, gd t).
Proof.
  intros H0 Fm Ln Lt Lm E.
destruct ms as [|[x n] ms].
    - apply (loop_ok [] t0 (start c t0) os t (start_tuned t0 H0) H0 Fm Logic.I Lm E).
    - cbn [autotune_loop] in E. pose proof (sensible_cycles c Hc) as Hcy. assert (Fin : is_finished c (start c t0) = false) by (unfold is_finished; cbn [start cycle]; apply Z.leb_gt; lia). rewrite Fin in E.
      inversion Fm as [|? ? Fx Fm']; subst. inversion Lm as [|? ? Lx Lm']; subst. cbn [fst snd] in *. cbn [map well_apart] in Lt.
      pose proof (step_ok x t0 n (start c t0) Fx (start_tuned t0 H0) Fin H0 ltac:(right; split; [reflexivity|split; [reflexivity|lia]]) Lx) as T'.
      destruct (do_autotune c x n (start c t0)) as [o u]. cbn [snd] in T'. destruct (autotune_loop c ms u) as [[os' t2']|] eqn:Er; [|discriminate]. assert (t = t2') as -> by congruence.
      apply (loop_ok ms n u os' t2' T'); auto. lia.
Qed.
Lemma gains_nonneg t0 ms os t : (0 <= t0)%Z -> Forall (fun m => finite (fst m) = true) ms -> match ms with [] => True | m :: _ => (t0 <= snd m)%Z end -> well_apart (map snd ms) -> Forall (fun m => (snd m <= 2 ^ 62)%Z) ms ->
  autotune_loop c ms (start c t0) = Some (os, t) -> f_ge (gp t) f_zero = true /\ f_ge (gi t) f_zero = true /\ f_ge (gd t) f_zero = true.
Proof. intros H0 Fm Ln Lt Lm E. destruct (loop_good t0 ms os t H0 Fm Ln Lt Lm E) as (G1 & G2 & G3). split; [|split]; apply good_ge; assumption. Qed.
Lemma gains_set t0 ms os t p : (0 <= t0)%Z -> Forall (fun m => finite (fst m) = true) ms -> match ms with [] => True | m :: _ => (t0 <= snd m)%Z end -> well_apart (map snd ms) -> Forall (fun m => (snd m <= 2 ^ 62)%Z) ms ->
  autotune_loop c ms (start c t0) = Some (os, t) -> forall dbg k, (0 < sampling k)%Z -> exists k', set_tunings dbg (gp t) (gi t) (gd t) p k = Ok k'.
Proof.
  intros H0 Fm Ln Lt Lm E dbg k Hk.
  destruct (gains_nonneg t0 ms os t H0 Fm Ln Lt Lm E) as (G1 & G2 & G3).
unfold set_tunings. rewrite G1, G2, G3. cbn [andb].
  assert (Kg : kgt MS MS (sampling k) 0 = true). { unfold kgt. rewrite from_other_same. rewrite near24_id by lia. apply Z.ltb_lt. lia. }
  rewrite Kg. replace (sassert dbg true) with (Ok tt) by (destruct dbg; reflexivity). cbn [bind]. eauto.
Qed.
End Tuned.
Lemma later_apart : forall l t, (0 <= t)%Z -> later t l -> Forall (fun n => (n <= 2 ^ 24)%Z) l -> apart t l.
Proof. induction l as [|n l IH]; intros t H0 L B; [exact Logic.I|]. destruct L as [L1 L2]. inversion B; subst. split; [lia|]. apply IH; auto. lia. Qed.
Lemma later_well_apart t0 ms : (0 <= t0)%Z -> match ms with [] => True | m :: ms' => (t0 <= snd m)%Z /\ later (snd m) (map (@snd float Z) ms') end -> Forall (fun m => (snd m <= 2 ^ 24)%Z) ms -> well_apart (map snd ms).
Proof.
  destruct ms as [|m ms]; intros H0 L B; [exact Logic.I|]. cbn [map well_apart]. destruct L as [L1 L2]. inversion B; subst. apply later_apart; [lia|exact L2|]. apply Forall_map. assumption.
Qed.
