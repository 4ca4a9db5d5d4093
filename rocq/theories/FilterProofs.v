From Coq Require Import ZArith Lia Reals Lra Bool List.
From Flocq Require Import Core IEEE754.BinarySingleNaN.
Require Import Flocq.Prop.Plus_error.
From Verif Require Import Base FloatModel FloatFacts PidProofs FilterModel FilterSpec.
Import ListNotations.
Open Scope R_scope.

(** ** Rounding *)
Lemma rnd_nonneg x : 0 <= x -> 0 <= rnd x.
Proof. intros H. rewrite <- rnd_0. now apply rnd_le. Qed.
Lemma sub_fmt_small a b : fmt a -> fmt b -> Rabs (a - b) <= bpow radix2 (-125) -> fmt (a - b).
Proof.
  intros Ha Hb H. change (fmt (a + - b)). unfold fmt in *.
  apply (FLT_format_plus_small radix2 (-149) 24); auto. now apply generic_format_opp.
Qed.
(** Half of a rounded difference, rounded, is not above the difference *)
Lemma half_step a b : fmt a -> fmt b -> b <= a -> rnd (rnd (a - b) / 2) <= a - b.
Proof.
  intros Ha Hb Hab. set (x := a - b). assert (Hx : 0 <= x) by (unfold x; lra).
  assert (Hy := rnd_nonneg x Hx).
  destruct (Rle_or_lt (rnd x) x) as [H|H].
  - apply Rle_trans with (rnd x); [|exact H]. rewrite <- (rnd_id (rnd x)) at 2 by apply rnd_fmt. apply rnd_le. lra.
  - assert (Hbig : bpow radix2 (-125) < x).
    { apply Rnot_le_lt. intros Hs. apply (Rlt_irrefl x). rewrite <- (rnd_id x) at 2; [exact H|].
      apply sub_fmt_small; auto. fold x. now rewrite Rabs_pos_eq. }
    set (d := round radix2 (FLT_exp (-149) 24) Zfloor x).
    assert (Hd : fmt d) by (apply generic_format_round; typeclasses eauto).
    assert (Hdx : d <= x) by (apply round_DN_pt; typeclasses eauto).
    assert (Hd0 : bpow radix2 (-125) <= d).
    { apply round_ge_generic; [typeclasses eauto|typeclasses eauto|apply fmt_bpow; lia|lra]. }
    assert (Hp : 0 < bpow radix2 (-125)) by apply bpow_gt_0.
    assert (Hu : rnd x <= d + d).
    { apply Rle_trans with (round radix2 (FLT_exp (-149) 24) Zceil x).
      - apply round_le_generic; [typeclasses eauto|typeclasses eauto|apply generic_format_round; typeclasses eauto|]. apply round_UP_pt. typeclasses eauto.
      - rewrite round_UP_DN_ulp.
        + fold d. apply Rplus_le_compat_l. rewrite <- ulp_DN by (try typeclasses eauto; exact Hx). fold d. apply ulp_le_id; [lra|exact Hd].
        + intros E. apply (Rlt_irrefl x). now rewrite <- (rnd_id x E) at 2. }
    apply Rle_trans with d; [|exact Hdx]. rewrite <- (rnd_id d Hd). apply rnd_le. lra.
Qed.
(** A step of an average towards [s] *)
Lemma step_up v s m : fmt v -> fmt s -> v <= s -> 2 <= m -> v <= rnd (v + rnd (rnd (s - v) / m)) <= s.
Proof.
  intros Hv Hs H Hm. assert (Hr : 0 <= rnd (s - v)) by (apply rnd_nonneg; lra).
  assert (H2 : rnd (rnd (s - v) / m) <= s - v).
  { apply Rle_trans with (rnd (rnd (s - v) / 2)); [|now apply half_step]. apply rnd_le. apply Rmult_le_compat_l; [exact Hr|]. apply Rinv_le; lra. }
  assert (H0 : 0 <= rnd (rnd (s - v) / m)) by (apply rnd_nonneg, Rmult_le_pos; [exact Hr|]; left; apply Rinv_0_lt_compat; lra).
  split.
  - rewrite <- (rnd_id v Hv) at 1. apply rnd_le. lra.
  - rewrite <- (rnd_id s Hs) at 2. apply rnd_le. lra.
Qed.
Lemma step_down v s m : fmt v -> fmt s -> s <= v -> 2 <= m -> s <= rnd (v + rnd (rnd (s - v) / m)) <= v.
Proof.
  intros Hv Hs H Hm. assert (U := step_up (- v) (- s) m (fmt_opp _ Hv) (fmt_opp _ Hs) ltac:(lra) Hm).
  replace (- s - - v) with (- (s - v)) in U by ring. rewrite rnd_opp in U. replace (- rnd (s - v) / m) with (- (rnd (s - v) / m)) in U by (unfold Rdiv; ring).
  rewrite rnd_opp in U. replace (- v + - rnd (rnd (s - v) / m)) with (- (v + rnd (rnd (s - v) / m))) in U by ring. rewrite rnd_opp in U. lra.
Qed.

(** ** EWMA *)
Definition small (x : float) : Prop := finite x = true /\ Rabs (val x) <= bpow radix2 126.
Lemma bpow_double e : bpow radix2 e + bpow radix2 e = bpow radix2 (e + 1).
Proof. rewrite bpow_plus. change (bpow radix2 1) with 2. ring. Qed.
Lemma ewma_step_real v s m : small v -> small s -> finite m = true -> 2 <= val m ->
  let w := f_add v (f_div (f_sub s v) m) in
  finite w = true /\ ((val v <= val w <= val s) \/ (val s <= val w <= val v)).
Proof.
  intros [Fv Bv] [Fs Bs] Fm Hm. cbn zeta.
  assert (D : Rabs (val s - val v) <= bpow radix2 127).
  { eapply Rle_trans; [apply Rabs_triang|]. rewrite Rabs_Ropp. change 127%Z with (126 + 1)%Z. rewrite <- bpow_double. lra. }
  destruct (sub_val s v Fs Fv) as [E1 F1]. { apply (rnd_small _ 127); [lia|exact D]. }
  assert (Q : Rabs (val (f_sub s v) / val m) <= bpow radix2 127).
  { unfold Rdiv. rewrite Rabs_mult, (Rabs_pos_eq (/ val m)) by (left; apply Rinv_0_lt_compat; lra).
    assert (R1 : Rabs (val (f_sub s v)) <= bpow radix2 127) by (rewrite E1; apply rnd_bound; [lia|exact D]).
    assert (R2 : / val m <= 1) by (rewrite <- Rinv_1; apply Rinv_le; lra). assert (0 < / val m) by (apply Rinv_0_lt_compat; lra).
    assert (0 <= Rabs (val (f_sub s v))) by apply Rabs_pos. nra. }
  destruct (div_val (f_sub s v) m F1 Fm) as [E2 F2]. { lra. } { apply (rnd_small _ 127); [lia|exact Q]. }
  assert (B : (val v <= rnd (val v + rnd (rnd (val s - val v) / val m)) <= val s) \/ (val s <= rnd (val v + rnd (rnd (val s - val v) / val m)) <= val v)).
  { destruct (Rle_or_lt (val v) (val s)); [left; apply step_up|right; apply step_down]; auto using val_fmt; lra. }
  rewrite <- E1, <- E2 in B.
  destruct (add_val v (f_div (f_sub s v) m) Fv F2) as [E3 F3].
  { apply Rabs_le_inv in Bv, Bs. apply Rle_lt_trans with (bpow radix2 126); [|apply bpow_lt; lia]. apply Rabs_le. lra. }
  rewrite E3. split; [exact F3|exact B].
Qed.

Definition count (n : float) : Prop := finite n = true /\ 1 <= val n <= IZR (2 ^ 24).
Lemma one_val : val (f_ofZ 1) = 1 /\ finite (f_ofZ 1) = true. Proof. apply ofZ_exact. now vm_compute. Qed.
Lemma count_1 : count (f_add f_zero (f_ofZ 1)).
Proof.
  destruct one_val as [E F]. destruct (add_val f_zero (f_ofZ 1) eq_refl F) as [E1 F1].
  - change (val f_zero) with 0. rewrite E. apply (rnd_small _ 1); [lia|]. rewrite Rabs_pos_eq by lra. change (bpow radix2 1) with 2. lra.
  - split; [exact F1|]. rewrite E1. change (val f_zero) with 0. rewrite E, rnd_id; [|replace (0 + 1) with (IZR 1) by ring; now apply fmt_Z]. split; [lra|]. change (IZR (2 ^ 24)) with 16777216. lra.
Qed.
Lemma top_count : rnd (IZR (2 ^ 24) + 1) = IZR (2 ^ 24).
Proof.
  destruct (ofZ_exact (2 ^ 24)) as [E F]; [now vm_compute|]. destruct one_val as [E1 F1].
  destruct (add_val (f_ofZ (2 ^ 24)) (f_ofZ 1) F F1) as [E2 F2].
  - rewrite E, E1. apply (rnd_small _ 25); [lia|]. change (bpow radix2 25) with 33554432. change (IZR (2 ^ 24)) with 16777216. rewrite Rabs_pos_eq; lra.
  - rewrite E, E1 in E2. rewrite <- E2, <- E.
    assert (Q : f_eq (f_add (f_ofZ (2 ^ 24)) (f_ofZ 1)) (f_ofZ (2 ^ 24)) = true) by (vm_compute; reflexivity).
    rewrite eq_val in Q by assumption. revert Q. case Req_bool_spec; auto; discriminate.
Qed.
Lemma count_next n : count n -> count (f_add n (f_ofZ 1)) /\ 2 <= val (f_add n (f_ofZ 1)).
Proof.
  intros [F [H1 H2]]. destruct one_val as [E1 F1]. change (IZR (2 ^ 24)) with 16777216 in H2.
  destruct (add_val n (f_ofZ 1) F F1) as [E2 F2].
  - rewrite E1. apply (rnd_small _ 25); [lia|]. change (bpow radix2 25) with 33554432. rewrite Rabs_pos_eq; lra.
  - rewrite E1 in E2. assert (L : 2 <= rnd (val n + 1)). { rewrite <- (rnd_id 2) by now apply (fmt_Z 2). apply rnd_le. lra. }
    assert (U : rnd (val n + 1) <= IZR (2 ^ 24)). { rewrite <- top_count. apply rnd_le. change (IZR (2 ^ 24)) with 16777216. lra. }
    rewrite <- E2 in L, U. repeat split; auto; lra.
Qed.
Lemma le_two_val x : f_le (f_ofZ 2) x = true -> finite x = true -> 2 <= val x.
Proof.
  intros H F. destruct (ofZ_exact 2) as [E F2]; [now vm_compute|]. rewrite le_val in H by assumption. rewrite E in H. revert H. case Rle_bool_spec; auto; discriminate.
Qed.
Lemma min_ok n k : finite n = true -> 2 <= val n -> f_le (f_ofZ 2) k = true -> finite (f_min n k) = true /\ 2 <= val (f_min n k).
Proof.
  intros F H K. unfold f_min. destruct (f_lt k n) eqn:E; [|auto].
  assert (Fk : finite k = true). { clear H. destruct k as [s|[|]| |]; try reflexivity; [discriminate K| |discriminate K]. destruct n; try discriminate; destruct s; discriminate E. }
  split; [exact Fk|now apply le_two_val].
Qed.
Lemma count_nonzero n : count n -> f_eq n (f_ofZ 0) = false.
Proof. intros [F [H _]]. rewrite eq_val by (auto; reflexivity). change (val (f_ofZ 0)) with 0. case Req_bool_spec; [intros E; lra|reflexivity]. Qed.

(** A list of samples, the outputs *)
Fixpoint ewma_run (xs : list float) (f : ewma) : list float :=
  match xs with [] => [] | x :: xs' => let (y, f') := ewma_value x f in y :: ewma_run xs' f' end.
Definition ew_ok (seen : list float) (f : ewma) : Prop :=
  f_le (f_ofZ 2) (ew_k f) = true /\ count (ew_n f) /\ small (ew_value f) /\
  exists a b, In a seen /\ In b seen /\ val a <= val (ew_value f) <= val b.
Lemma ewma_step seen f x : Forall small seen -> ew_ok seen f -> small x ->
  let r := ewma_value x f in ew_ok (x :: seen) (snd r) /\ fst r = ew_value (snd r).
Proof.
  intros HS (K & N & V & a & b & Ha & Hb & Hab) X. unfold ewma_value. rewrite (count_nonzero _ N). cbn zeta. cbn [fst snd ew_value]. split; [|reflexivity].
  destruct (count_next _ N) as [N' N2]. destruct (min_ok _ (ew_k f) (proj1 N') N2 K) as [M1 M2].
  destruct (ewma_step_real (ew_value f) x _ V X M1 M2) as [F B].
  unfold ew_ok. cbn [ew_k ew_n ew_value]. split; [exact K|]. split; [exact N'|]. split.
  - split; [exact F|]. destruct V as [_ V], X as [_ X]. apply Rabs_le_inv in V, X. apply Rabs_le. lra.
  - destruct B as [B|B].
    + exists a, x. cbn [In]. repeat split; auto; lra.
    + exists x, b. cbn [In]. repeat split; auto; lra.
Qed.
Lemma small_le a b : finite a = true -> finite b = true -> val a <= val b -> f_le a b = true.
Proof. intros. rewrite le_val by assumption. apply Rle_bool_true. assumption. Qed.
Lemma ewma_run_ok : forall xs seen f, Forall small seen -> Forall small xs -> ew_ok seen f ->
  forall i y, nth_error (ewma_run xs f) i = Some y -> between (rev (firstn (S i) xs) ++ seen) y.
Proof.
  induction xs as [|x xs IH]; intros seen f HS HX Hf i y; cbn [ewma_run].
  - destruct i; discriminate.
  - inversion HX as [|? ? X1 X2]; subst. destruct (ewma_step seen f x HS Hf X1) as [O E]. destruct (ewma_value x f) as [z f']. cbn [fst snd] in *.
    destruct i as [|i]; cbn [nth_error firstn].
    + intros H. assert (y = z) by congruence. subst. cbn [rev app]. destruct O as (_ & _ & [F _] & a & b & Ha & Hb & Hab). exists a, b.
      assert (Sm : Forall small (x :: seen)) by (constructor; assumption). rewrite Forall_forall in Sm.
      repeat split; auto; apply small_le; auto; try apply Sm; auto; lra.
    + intros H. cbn [rev]. rewrite <- app_assoc. cbn [app]. apply (IH (x :: seen) f'); auto.
Qed.
Theorem ewma_thm k xs : f_le (f_ofZ 2) k = true -> Forall small xs ->
  forall i y, nth_error (ewma_run xs (ewma_new k)) i = Some y -> between (firstn (S i) xs) y.
Proof.
  intros K HX i y H. destruct xs as [|x xs]; [destruct i; discriminate|]. inversion HX as [|? ? X1 X2]; subst.
  cbn [ewma_run ewma_new ewma_value ew_n] in H. unfold ewma_value in H. cbn [ewma_new ew_n ew_k] in H. change (f_eq f_zero (f_ofZ 0)) with true in H. cbv iota in H.
  assert (Hx : f_le x x = true) by (apply small_le; try apply X1; lra).
  destruct i as [|i]; cbn [nth_error] in H.
  - assert (y = x) by congruence. subst. exists x, x. cbn. auto.
  - assert (O : ew_ok [x] (mkEw k (f_add f_zero (f_ofZ 1)) x)).
    { repeat split; cbn [ew_k ew_n ew_value]; auto; try apply count_1; try apply X1. exists x, x. cbn. repeat split; auto; lra. }
    destruct (ewma_run_ok xs [x] _ ltac:(constructor; [exact X1|constructor]) X2 O i y H) as (a & b & Ha & Hb & Hab).
    exists a, b. change (firstn (S (S i)) (x :: xs)) with (x :: firstn (S i) xs). cbn [In].
    rewrite in_app_iff, <- in_rev in Ha, Hb. cbn [In] in Ha, Hb. intuition auto.
Qed.
(** Constant input *)
Lemma between_const c n y : between (firstn n (repeat c n)) y -> f_le c y = true /\ f_le y c = true.
Proof.
  intros (a & b & Ha & Hb & H1 & H2).
  assert (forall z, In z (firstn n (repeat c n)) -> z = c) as R. { intros z Hz. apply (repeat_spec n c). rewrite <- (firstn_skipn n (repeat c n)). apply in_app_iff. auto. }
  rewrite (R a Ha) in H1. rewrite (R b Hb) in H2. auto.
Qed.
Lemma ewma_run_length : forall xs f, length (ewma_run xs f) = length xs.
Proof. induction xs as [|x xs IH]; intros f; cbn [ewma_run]; [reflexivity|]. destruct (ewma_value x f). cbn [length]. now rewrite IH. Qed.
Theorem ewma_const_thm k c n : f_le (f_ofZ 2) k = true -> small c -> Forall (fun y => f_eq y c = true) (ewma_run (repeat c n) (ewma_new k)).
Proof.
  intros K C. apply Forall_forall. intros y Hy. apply In_nth_error in Hy. destruct Hy as [i Hi].
  assert (L : (i < n)%nat). { rewrite <- (repeat_length c n), <- (ewma_run_length _ (ewma_new k)). apply nth_error_Some. congruence. }
  assert (B := ewma_thm k (repeat c n) K ltac:(apply Forall_forall; intros z Hz; apply repeat_spec in Hz; now subst) i y Hi).
  assert (E : firstn (S i) (repeat c n) = firstn (S i) (repeat c (S i))).
  { replace n with (S i + (n - S i))%nat by lia. rewrite repeat_app, firstn_app, repeat_length, Nat.sub_diag, firstn_O, app_nil_r. reflexivity. }
  rewrite E in B. apply between_const in B. destruct B as [B1 B2].
  revert B1 B2. rewrite !le_cmp. unfold f_eq, Beqb, SpecFloat.SFeqb. change (SpecFloat.SFcompare (B2SF y) (B2SF c)) with (Bcompare y c).
  rewrite (Bcompare_swap 24 128 y c). destruct (Bcompare y c) as [[| |]|]; cbn; auto; discriminate.
Qed.

(** ** BandPass *)
Open Scope Z_scope.
Fixpoint bp_run (xs : list float) (f : bandpass) : outcome (list float) :=
  match xs with [] => Ok [] | x :: xs' => '(y, f') <- bp_step x f ;; ys <- bp_run xs' f' ;; Ok (y :: ys) end.
Definition in_band (c : bp_config) (v x : float) : bool :=
  let m := match bc_mode c with RELATIVE => f_add v (bc_offset c) | ABSOLUTE => bc_offset c end in
  f_le (f_sub m (bc_width c)) x && f_le x (f_add m (bc_width c)).
Definition of_option {A} (o : option A) : outcome A := match o with Some a => Ok a | None => Halt end.
Definition bp_inv (f : bandpass) : Prop :=
  bc_mode (bp_cfg f) = ABSOLUTE ->
  bp_lower f = f_sub (bc_offset (bp_cfg f)) (bc_width (bp_cfg f)) /\ bp_upper f = f_add (bc_offset (bp_cfg f)) (bc_width (bp_cfg f)).
Lemma bp_new_inv c : bp_inv (bp_new c).
Proof. intros H. cbn [bp_new bp_limits bp_cfg bp_lower bp_upper] in *. unfold bp_mid. cbn [bp_cfg bp_value bp_limits bp_new] in H. rewrite H. auto. Qed.
Lemma bp_step_eq x f : bp_inv f -> f_eq (bp_value f) bp_default = false ->
  exists f1, bp_cfg f1 = bp_cfg f /\ bp_inv f1 /\
  bp_step x f =
    (if in_band (bp_cfg f) (bp_value f) x then Ok (x, mkBP (bp_cfg f) x (bp_lower f1) (bp_upper f1) 0)
     else if bc_limit (bp_cfg f) <? bp_rejections f + 1 then
       if bc_throw (bp_cfg f) then Halt else Ok (x, mkBP (bp_cfg f) x (bp_lower f1) (bp_upper f1) (bp_rejections f + 1))
     else Ok (bp_value f, mkBP (bp_cfg f) (bp_value f) (bp_lower f1) (bp_upper f1) (bp_rejections f + 1))).
Proof.
  intros I N. unfold bp_step, bp_sample. rewrite N. unfold in_band. destruct (bc_mode (bp_cfg f)) eqn:M.
  - exists (bp_limits f). split; [reflexivity|]. split; [intros H; cbn [bp_limits bp_cfg] in H; congruence|].
    change (bp_cfg (bp_limits f)) with (bp_cfg f). change (bp_value (bp_limits f)) with (bp_value f). change (bp_rejections (bp_limits f)) with (bp_rejections f).
    change (bp_lower (bp_limits f)) with (f_sub (bp_mid (bp_cfg f) (bp_value f)) (bc_width (bp_cfg f))).
    change (bp_upper (bp_limits f)) with (f_add (bp_mid (bp_cfg f) (bp_value f)) (bc_width (bp_cfg f))).
    unfold bp_mid. rewrite M. unfold f_ge. change (Bleb (f_sub (f_add (bp_value f) (bc_offset (bp_cfg f))) (bc_width (bp_cfg f))) x) with (f_le (f_sub (f_add (bp_value f) (bc_offset (bp_cfg f))) (bc_width (bp_cfg f))) x).
    destruct (f_le _ x && f_le x _); [reflexivity|]. destruct (bc_limit (bp_cfg f) <? bp_rejections f + 1); [destruct (bc_throw (bp_cfg f))|]; reflexivity.
  - exists f. split; [reflexivity|]. split; [exact I|]. destruct (I M) as [L U]. rewrite <- L, <- U. unfold f_ge.
    change (Bleb (bp_lower f) x) with (f_le (bp_lower f) x).
    destruct (f_le _ x && f_le x _); [reflexivity|]. destruct (bc_limit (bp_cfg f) <? bp_rejections f + 1); [destruct (bc_throw (bp_cfg f))|]; reflexivity.
Qed.
Lemma bp_run_eq : forall xs f, bp_inv f -> f_eq (bp_value f) bp_default = false -> Forall (fun x => f_eq x bp_default = false) xs ->
  bp_run xs f = of_option (band (in_band (bp_cfg f)) (bc_limit (bp_cfg f)) (bc_throw (bp_cfg f)) (bp_value f) (bp_rejections f) xs).
Proof.
  induction xs as [|x xs IH]; intros f I N HX; [reflexivity|]. inversion HX as [|? ? X1 X2]; subst. cbn [bp_run band].
  destruct (bp_step_eq x f I N) as (f1 & C & I1 & ->).
  assert (T : forall v r, f_eq v bp_default = false ->
    (' (y, f') <- Ok (v, mkBP (bp_cfg f) v (bp_lower f1) (bp_upper f1) r) ;; ys <- bp_run xs f' ;; Ok (y :: ys)) =
    of_option (match band (in_band (bp_cfg f)) (bc_limit (bp_cfg f)) (bc_throw (bp_cfg f)) v r xs with Some ys => Some (v :: ys) | None => None end)).
  { intros v r Hv. cbn [bind]. rewrite IH; [|intros M; cbn [bp_cfg bp_lower bp_upper] in *; rewrite <- C in M |- *; exact (I1 M)|exact Hv|exact X2].
    cbn [bp_cfg bp_value bp_rejections]. destruct (band _ _ _ _ _ _); reflexivity. }
  destruct (in_band (bp_cfg f) (bp_value f) x); [apply T, X1|].
  destruct (Z.ltb_spec (bc_limit (bp_cfg f)) (bp_rejections f + 1)), (Z_lt_dec (bc_limit (bp_cfg f)) (bp_rejections f + 1)); try lia.
  - destruct (bc_throw (bp_cfg f)); [reflexivity|apply T, X1].
  - apply T, N.
Qed.
(** The first sample becomes the output, in band or not *)
Theorem bp_thm c x xs : Forall (fun x => f_eq x bp_default = false) (x :: xs) -> 0 < bc_limit c ->
  bp_run (x :: xs) (bp_new c) =
  of_option (match band (in_band c) (bc_limit c) (bc_throw c) x (if in_band c x x then 0 else 1) xs with Some ys => Some (x :: ys) | None => None end).
Proof.
  intros HX HL. inversion HX as [|? ? X1 X2]; subst.
  assert (E : bp_run (x :: xs) (bp_new c) = bp_run (x :: xs) (bp_reset x (bp_new c))).
  { cbn [bp_run]. unfold bp_step at 1, bp_sample at 1. change (bp_value (bp_new c)) with bp_default. replace (f_eq bp_default bp_default) with true by (vm_compute; reflexivity).
    unfold bp_step at 1, bp_sample at 1. change (bp_value (bp_reset x (bp_new c))) with x. rewrite X1. reflexivity. }
  rewrite E, bp_run_eq; [|exact (bp_new_inv c)|exact X1|exact HX]. cbn [bp_reset bp_new bp_limits bp_cfg bp_value bp_rejections band].
  destruct (in_band c x x); [reflexivity|]. destruct (Z_lt_dec (bc_limit c) (0 + 1)); [lia|]. reflexivity.
Qed.
(** With the exception, every output after the first sample is the last sample in band *)
Lemma band_throw inband limit : forall xs v r ys, band inband limit true v r xs = Some ys ->
  forall i y, nth_error ys i = Some y ->
    y = v \/ exists j u x, (j <= i)%nat /\ nth_error xs j = Some x /\ y = x /\ inband u x = true /\ u = match j with O => v | S j' => nth j' ys v end.
Proof.
  induction xs as [|x xs IH]; intros v r ys; cbn [band].
  - intros H. assert (ys = []) by congruence. subst. intros [|i] y; discriminate.
  - destruct (inband v x) eqn:Eb.
    + destruct (band inband limit true x 0 xs) as [zs|] eqn:E; [|discriminate]. intros H i y Hi. assert (ys = x :: zs) by congruence. subst ys.
      destruct i as [|i]; cbn [nth_error] in Hi.
      * right. exists 0%nat, v, x. assert (y = x) by congruence. repeat split; auto.
      * destruct (IH _ _ _ E i y Hi) as [->|(j & u & z & H1 & H2 & H3 & H4 & H5)].
        -- right. exists 0%nat, v, x. split; [lia|]. repeat split; auto.
        -- right. exists (S j), u, z. split; [lia|]. repeat (split; [assumption|]). rewrite H5. destruct j as [|j]; [reflexivity|]. cbn [nth]. destruct (Nat.lt_ge_cases j (length zs)); [apply nth_indep; auto|].
           exfalso. assert (nth_error zs i <> None) by congruence. apply nth_error_Some in H6. lia.
    + destruct (Z_lt_dec limit (r + 1)); [discriminate|].
      destruct (band inband limit true v (r + 1) xs) as [zs|] eqn:E; [|discriminate]. intros H i y Hi. assert (ys = v :: zs) by congruence. subst ys.
      destruct i as [|i]; cbn [nth_error] in Hi; [left; congruence|].
      destruct (IH _ _ _ E i y Hi) as [->|(j & u & z & H1 & H2 & H3 & H4 & H5)]; [left; reflexivity|].
      right. exists (S j), u, z. split; [lia|]. repeat (split; [assumption|]). rewrite H5. destruct j as [|j]; reflexivity.
Qed.
Theorem bp_throw_thm c x xs y ys : Forall (fun x => f_eq x bp_default = false) (x :: xs) -> 0 < bc_limit c -> bc_throw c = true ->
  bp_run (x :: xs) (bp_new c) = Ok (y :: ys) ->
  y = x /\ forall i z, nth_error ys i = Some z ->
    z = x \/ exists j u, (j <= i)%nat /\ nth_error xs j = Some z /\ nth_error (x :: ys) j = Some u /\ in_band c u z = true.
Proof.
  intros HX HL HT H. rewrite bp_thm, HT in H by assumption.
  destruct (band (in_band c) (bc_limit c) true x (if in_band c x x then 0 else 1) xs) as [zs|] eqn:E; [|discriminate]. cbn [of_option] in H.
  assert (y = x) by congruence. assert (ys = zs) by congruence. subst. split; [reflexivity|]. intros i z Hz.
  destruct (band_throw _ _ _ _ _ _ E i z Hz) as [->|(j & u & w & H1 & H2 & -> & H4 & H5)]; [left; reflexivity|]. right. exists j, u.
  repeat split; auto. destruct j as [|j]; cbn [nth_error]; [congruence|]. rewrite H5. apply nth_error_nth'.
  assert (nth_error zs i <> None) by congruence. apply nth_error_Some in H0. lia.
Qed.

(** ** MappedRange *)
Open Scope R_scope.
Definition bounded (e : Z) (x : float) : Prop := finite x = true /\ Rabs (val x) <= bpow radix2 e.
Definition mr_ok (f : mapped) : Prop :=
  bounded 125 (mr_ilo f) /\ bounded 125 (mr_ihi f) /\ bounded 125 (mr_olo f) /\ bounded 125 (mr_ohi f) /\
  f_lt (mr_ilo f) (mr_ihi f) = true /\ f_le (mr_olo f) (mr_ohi f) = true.
Lemma le_real x y : finite x = true -> finite y = true -> f_le x y = true -> val x <= val y.
Proof. intros Fx Fy H. rewrite le_val in H by assumption. revert H. case Rle_bool_spec; auto; discriminate. Qed.
Lemma lt_real x y : finite x = true -> finite y = true -> f_lt x y = true -> val x < val y.
Proof. intros Fx Fy H. rewrite lt_val in H by assumption. revert H. case Rlt_bool_spec; auto; discriminate. Qed.
Lemma diff_bound a b e : Rabs a <= bpow radix2 e -> Rabs b <= bpow radix2 e -> Rabs (a - b) <= bpow radix2 (e + 1).
Proof. intros Ha Hb. eapply Rle_trans; [apply Rabs_triang|]. rewrite Rabs_Ropp, <- bpow_double. lra. Qed.
Lemma sub_bounded x y e : (-149 <= e < 126)%Z -> bounded e x -> bounded e y -> val (f_sub x y) = rnd (val x - val y) /\ finite (f_sub x y) = true /\ Rabs (val (f_sub x y)) <= bpow radix2 (e + 1).
Proof.
  intros He [Fx Bx] [Fy By]. assert (D := diff_bound _ _ _ Bx By).
  destruct (sub_val x y Fx Fy) as [E F]; [apply (rnd_small _ (e + 1)); [lia|exact D]|]. split; [exact E|]. split; [exact F|]. rewrite E. apply rnd_bound; [lia|exact D].
Qed.
Lemma rnd_sub_pos a b : fmt a -> fmt b -> b < a -> 0 < rnd (a - b).
Proof.
  intros Ha Hb H. assert (0 <= rnd (a - b)) by (apply rnd_nonneg; lra).
  assert (rnd (a + - b) <> 0).
  { apply (round_plus_neq_0 radix2 (FLT_exp (-149) 24) ZnearestE); [exact Ha|now apply fmt_opp|lra]. }
  change (a + - b) with (a - b) in H1. lra.
Qed.
Definition line (il ih ol oh s : R) : R := rnd (ol + rnd (rnd (rnd (s - il) / rnd (ih - il)) * rnd (oh - ol))).
Lemma frac_bounds il ih s : fmt il -> fmt ih -> il < ih -> il <= s <= ih -> 0 <= rnd (rnd (s - il) / rnd (ih - il)) <= 1.
Proof.
  intros Fl Fh H Hs. assert (D := rnd_sub_pos ih il Fh Fl H). assert (P0 : 0 <= rnd (s - il)) by (apply rnd_nonneg; lra).
  assert (P1 : rnd (s - il) <= rnd (ih - il)) by (apply rnd_le; lra). assert (I := Rinv_0_lt_compat _ D). split.
  - apply rnd_nonneg. unfold Rdiv. nra.
  - rewrite <- (rnd_id 1) by now apply (fmt_Z 1). apply rnd_le. unfold Rdiv. apply (Rmult_le_reg_r (rnd (ih - il))); [exact D|]. rewrite Rmult_assoc, Rinv_l by lra. lra.
Qed.
Lemma frac_mono il ih s t : fmt il -> fmt ih -> il < ih -> s <= t -> rnd (rnd (s - il) / rnd (ih - il)) <= rnd (rnd (t - il) / rnd (ih - il)).
Proof.
  intros Fl Fh H Hs. assert (D := rnd_sub_pos ih il Fh Fl H). assert (I := Rinv_0_lt_compat _ D). apply rnd_le. unfold Rdiv. apply Rmult_le_compat_r; [lra|]. apply rnd_le. lra.
Qed.
Lemma line_mono il ih ol oh s t : fmt il -> fmt ih -> il < ih -> ol <= oh -> s <= t -> line il ih ol oh s <= line il ih ol oh t.
Proof.
  intros Fl Fh H Ho Hs. assert (W : 0 <= rnd (oh - ol)) by (apply rnd_nonneg; lra). unfold line. apply rnd_le, Rplus_le_compat_l, rnd_le, Rmult_le_compat_r; [exact W|]. now apply frac_mono.
Qed.
Lemma line_lo il ih ol oh : fmt ol -> line il ih ol oh il = ol.
Proof. intros Fo. unfold line. rewrite Rminus_diag_eq by reflexivity. unfold Rdiv. rewrite rnd_0, Rmult_0_l, rnd_0, Rmult_0_l, rnd_0, Rplus_0_r. now apply rnd_id. Qed.
Lemma line_hi il ih ol oh : fmt il -> fmt ih -> il < ih -> line il ih ol oh ih = rnd (ol + rnd (oh - ol)).
Proof.
  intros Fl Fh H. assert (D := rnd_sub_pos ih il Fh Fl H). unfold line. unfold Rdiv. rewrite Rinv_r by lra. rewrite (rnd_id 1) by now apply (fmt_Z 1). rewrite Rmult_1_l, (rnd_id (rnd (oh - ol))) by apply rnd_fmt. reflexivity.
Qed.
Lemma map_line_val f s : mr_ok f -> finite s = true -> val (mr_ilo f) <= val s <= val (mr_ihi f) ->
  val (map_line f s) = line (val (mr_ilo f)) (val (mr_ihi f)) (val (mr_olo f)) (val (mr_ohi f)) (val s) /\ finite (map_line f s) = true.
Proof.
  intros (Hil & Hih & Hol & Hoh & HI & HO) Fs Hs. unfold map_line, line.
  assert (Bs : bounded 125 s). { split; [exact Fs|]. destruct Hil as [_ A], Hih as [_ B]. apply Rabs_le_inv in A, B. apply Rabs_le. lra. }
  apply lt_real in HI; [|apply Hil|apply Hih]. apply le_real in HO; [|apply Hol|apply Hoh].
  destruct (sub_bounded s (mr_ilo f) 125 ltac:(lia) Bs Hil) as (E1 & F1 & _).
  destruct (sub_bounded (mr_ihi f) (mr_ilo f) 125 ltac:(lia) Hih Hil) as (E2 & F2 & _).
  destruct (sub_bounded (mr_ohi f) (mr_olo f) 125 ltac:(lia) Hoh Hol) as (E3 & F3 & B3).
  assert (D := rnd_sub_pos _ _ (val_fmt (mr_ihi f)) (val_fmt (mr_ilo f)) HI).
  assert (Q := frac_bounds _ _ _ (val_fmt (mr_ilo f)) (val_fmt (mr_ihi f)) HI Hs).
  destruct (div_val (f_sub s (mr_ilo f)) (f_sub (mr_ihi f) (mr_ilo f)) F1 F2) as [E4 F4]. { rewrite E2. lra. }
  { rewrite E1, E2. apply Rle_lt_trans with (bpow radix2 0); [|apply bpow_lt; lia]. apply Rabs_le. change (bpow radix2 0) with 1. lra. }
  rewrite E1, E2 in E4.
  assert (W : 0 <= rnd (val (mr_ohi f) - val (mr_olo f))) by (apply rnd_nonneg; lra).
  rewrite E3 in B3. rewrite Rabs_pos_eq in B3 by exact W. change (125 + 1)%Z with 126%Z in B3.
  set (q := rnd (rnd (val s - val (mr_ilo f)) / rnd (val (mr_ihi f) - val (mr_ilo f)))) in *. set (w := rnd (val (mr_ohi f) - val (mr_olo f))) in *.
  assert (Pq : 0 <= q * w <= bpow radix2 126) by (split; nra).
  destruct (mul_val _ _ F4 F3) as [E5 F5]. { rewrite E4, E3. apply (rnd_small _ 126); [lia|]. rewrite Rabs_pos_eq; lra. }
  rewrite E4, E3 in E5.
  assert (Bt : Rabs (rnd (q * w)) <= bpow radix2 126) by (apply rnd_bound; [lia|]; rewrite Rabs_pos_eq; lra).
  destruct (add_val (mr_olo f) _ (proj1 Hol) F5) as [E6 F6].
  { rewrite E5. apply (rnd_small _ 127); [lia|]. eapply Rle_trans; [apply Rabs_triang|]. destruct Hol as [_ A].
    assert (bpow radix2 125 <= bpow radix2 126) by (apply bpow_le; lia). change 127%Z with (126 + 1)%Z. rewrite <- bpow_double. lra. }
  rewrite E5 in E6. auto.
Qed.
(** The sample after clamping *)
Definition eff (f : mapped) (s : float) : float := if f_lt s (mr_ilo f) || f_gt s (mr_ihi f) then std_clamp s (mr_ilo f) (mr_ihi f) else s.
Lemma mapped_value_eff s f : mr_throw f = false -> exists f', mapped_value s f = Ok (map_line f (eff f s), f').
Proof. intros H. unfold mapped_value. rewrite H, andb_false_r. eexists. reflexivity. Qed.
(** All non-NaN floats as reals in the same order *)
Definition key (x : float) : R := match x with B754_infinity s => if s then - bpow radix2 129 else bpow radix2 129 | _ => val x end.
Lemma key_fin x : finite x = true -> key x = val x. Proof. destruct x; try reflexivity; discriminate. Qed.
Lemma val_big x : Rabs (val x) < bpow radix2 129.
Proof. eapply Rlt_trans; [apply abs_B2R_lt_emax|apply bpow_lt; lia]. Qed.
Lemma key_lt x y : f_isnan x = false -> f_isnan y = false -> (f_lt x y = true <-> key x < key y).
Proof.
  intros Nx Ny. assert (P := bpow_gt_0 radix2 129).
  destruct (finite x) eqn:Fx, (finite y) eqn:Fy.
  - rewrite lt_val, !key_fin by assumption. case Rlt_bool_spec; intros; split; auto; try discriminate; lra.
  - rewrite (key_fin x Fx). assert (B := val_big x). apply Rabs_lt_inv in B. destruct y as [|b| |]; try discriminate.
    assert (E : f_lt x (B754_infinity b) = negb b) by (destruct b, x as [[|]| | |[|]]; try discriminate; reflexivity).
    rewrite E. destruct b; cbn [key negb]; split; intros; try discriminate; try reflexivity; lra.
  - rewrite (key_fin y Fy). assert (B := val_big y). apply Rabs_lt_inv in B. destruct x as [|b| |]; try discriminate.
    assert (E : f_lt (B754_infinity b) y = b) by (destruct b, y as [[|]| | |[|]]; try discriminate; reflexivity).
    rewrite E. destruct b; cbn [key]; split; intros; try discriminate; try reflexivity; lra.
  - destruct x as [|b| |], y as [|b'| |]; try discriminate.
    assert (E : f_lt (B754_infinity b) (B754_infinity b') = b && negb b') by (destruct b, b'; reflexivity).
    rewrite E. destruct b, b'; cbn [key andb negb]; split; intros; try discriminate; try reflexivity; lra.
Qed.
Lemma key_le x y : f_isnan x = false -> f_isnan y = false -> (f_le x y = true <-> key x <= key y).
Proof.
  intros Nx Ny. assert (L := key_lt y x Ny Nx). split; intros H.
  - apply Rnot_lt_le. intros C. apply L in C. revert C H. rewrite lt_cmp, le_cmp. rewrite (Bcompare_swap 24 128 y x). destruct (Bcompare y x) as [[| |]|]; cbn; discriminate.
  - destruct (f_le x y) eqn:E; [reflexivity|]. apply not_le in E; auto. apply L in E. lra.
Qed.
Lemma finite_nan x : finite x = true -> f_isnan x = false. Proof. destruct x; auto; discriminate. Qed.
Lemma key_clamp f s : mr_ok f -> f_isnan s = false ->
  finite (eff f s) = true /\ val (eff f s) = Rmax (val (mr_ilo f)) (Rmin (key s) (val (mr_ihi f))).
Proof.
  intros (Hil & Hih & _ & _ & HI & _) N. apply lt_real in HI; [|apply Hil|apply Hih]. unfold eff, std_clamp. change (f_gt s (mr_ihi f)) with (f_lt (mr_ihi f) s).
  assert (K1 := key_lt s (mr_ilo f) N (finite_nan _ (proj1 Hil))). assert (K2 := key_lt (mr_ihi f) s (finite_nan _ (proj1 Hih)) N).
  rewrite (key_fin _ (proj1 Hil)) in K1. rewrite (key_fin _ (proj1 Hih)) in K2. destruct Hil as [Fl _], Hih as [Fh _].
  destruct (f_lt s (mr_ilo f)) eqn:E1; cbn [orb].
  - split; [exact Fl|]. apply proj1 in K1. specialize (K1 eq_refl). rewrite Rmin_left, Rmax_left; lra.
  - assert (A : val (mr_ilo f) <= key s) by (apply Rnot_lt_le; intros C; apply K1 in C; discriminate).
    destruct (f_lt (mr_ihi f) s) eqn:E2.
    + split; [exact Fh|]. apply proj1 in K2. specialize (K2 eq_refl). rewrite Rmin_right, Rmax_right; lra.
    + assert (B : key s <= val (mr_ihi f)) by (apply Rnot_lt_le; intros C; apply K2 in C; discriminate).
      assert (F : finite s = true). { assert (B1 := val_big (mr_ihi f)). assert (B2 := val_big (mr_ilo f)). apply Rabs_lt_inv in B1, B2. destruct s as [|[|]| |]; try reflexivity; try discriminate N; cbn [key] in *; lra. }
      split; [exact F|]. rewrite <- (key_fin s F). rewrite Rmin_left, Rmax_right; lra.
Qed.
Lemma eff_range f s : mr_ok f -> f_isnan s = false -> val (mr_ilo f) <= val (eff f s) <= val (mr_ihi f).
Proof.
  intros Hf N. destruct (key_clamp f s Hf N) as [_ ->]. destruct Hf as (Hil & Hih & _ & _ & HI & _). apply lt_real in HI; [|apply Hil|apply Hih].
  split; [apply Rmax_l|]. apply Rmax_lub; [lra|apply Rmin_r].
Qed.

Theorem mapped_mono_thm f s t : mr_ok f -> mr_throw f = false -> f_le s t = true ->
  exists y z f1 f2, mapped_value s f = Ok (y, f1) /\ mapped_value t f = Ok (z, f2) /\ f_le y z = true.
Proof.
  intros Hf HT H. destruct (le_nan s t H) as [Ns Nt]. destruct (mapped_value_eff s f HT) as [f1 E1]. destruct (mapped_value_eff t f HT) as [f2 E2].
  exists (map_line f (eff f s)), (map_line f (eff f t)), f1, f2. split; [exact E1|]. split; [exact E2|].
  destruct (key_clamp f s Hf Ns) as [Fs Vs]. destruct (key_clamp f t Hf Nt) as [Ft Vt].
  destruct (map_line_val f _ Hf Fs (eff_range f s Hf Ns)) as [L1 M1]. destruct (map_line_val f _ Hf Ft (eff_range f t Hf Nt)) as [L2 M2].
  apply small_le; auto. rewrite L1, L2. apply key_le in H; auto. destruct Hf as (Hil & Hih & Hol & Hoh & HI & HO). apply lt_real in HI; [|apply Hil|apply Hih]. apply le_real in HO; [|apply Hol|apply Hoh].
  apply line_mono; auto using val_fmt. rewrite Vs, Vt. apply Rle_max_compat_l, Rle_min_compat_r. exact H.
Qed.
Lemma top_val f : mr_ok f -> val (f_add (mr_olo f) (f_sub (mr_ohi f) (mr_olo f))) = rnd (val (mr_olo f) + rnd (val (mr_ohi f) - val (mr_olo f))) /\
  finite (f_add (mr_olo f) (f_sub (mr_ohi f) (mr_olo f))) = true.
Proof.
  intros (_ & _ & Hol & Hoh & _ & _). destruct (sub_bounded (mr_ohi f) (mr_olo f) 125 ltac:(lia) Hoh Hol) as (E3 & F3 & B3).
  destruct (add_val (mr_olo f) _ (proj1 Hol) F3) as [E6 F6].
  { apply (rnd_small _ 127); [lia|]. eapply Rle_trans; [apply Rabs_triang|]. destruct Hol as [_ A].
    assert (bpow radix2 125 <= bpow radix2 126) by (apply bpow_le; lia). change (125 + 1)%Z with 126%Z in B3. change 127%Z with (126 + 1)%Z. rewrite <- bpow_double. lra. }
  rewrite E3 in E6. auto.
Qed.
Theorem mapped_range_thm f s : mr_ok f -> mr_throw f = false -> f_isnan s = false ->
  exists y f', mapped_value s f = Ok (y, f') /\ f_le (mr_olo f) y = true /\ f_le y (f_add (mr_olo f) (f_sub (mr_ohi f) (mr_olo f))) = true /\
    (f_le s (mr_ilo f) = true -> f_eq y (mr_olo f) = true) /\
    (f_le (mr_ihi f) s = true -> f_eq y (f_add (mr_olo f) (f_sub (mr_ohi f) (mr_olo f))) = true).
Proof.
  intros Hf HT N. destruct (mapped_value_eff s f HT) as [f1 E1]. exists (map_line f (eff f s)), f1. split; [exact E1|].
  destruct (key_clamp f s Hf N) as [Fs Vs]. assert (R := eff_range f s Hf N).
  destruct (map_line_val f _ Hf Fs R) as [L1 M1]. destruct (top_val f Hf) as [T1 T2].
  destruct Hf as (Hil & Hih & Hol & Hoh & HI & HO). apply lt_real in HI; [|apply Hil|apply Hih]. apply le_real in HO; [|apply Hol|apply Hoh].
  assert (P1 := line_lo (val (mr_ilo f)) (val (mr_ihi f)) (val (mr_olo f)) (val (mr_ohi f)) (val_fmt _)).
  assert (P2 := line_hi (val (mr_ilo f)) (val (mr_ihi f)) (val (mr_olo f)) (val (mr_ohi f)) (val_fmt _) (val_fmt _) HI).
  split; [|split; [|split]].
  - apply small_le; [apply Hol|exact M1|]. rewrite L1, <- P1 at 1. apply line_mono; auto using val_fmt. lra.
  - apply small_le; auto. rewrite L1, T1, <- P2. apply line_mono; auto using val_fmt. lra.
  - intros H. apply key_le in H; [|exact N|apply finite_nan, Hil]. rewrite (key_fin _ (proj1 Hil)) in H.
    rewrite eq_val; [|exact M1|apply Hol]. apply Req_bool_true. rewrite L1, Vs. rewrite Rmin_left, Rmax_left by lra. exact P1.
  - intros H. apply key_le in H; [|apply finite_nan, Hih|exact N]. rewrite (key_fin _ (proj1 Hih)) in H.
    rewrite eq_val by assumption. apply Req_bool_true. rewrite L1, Vs. rewrite Rmin_right, Rmax_right by lra. rewrite P2. auto.
Qed.
(** In the range when the width of the output range is a float *)
Theorem mapped_inside_thm f s : mr_ok f -> mr_throw f = false -> f_isnan s = false -> fmt (val (mr_ohi f) - val (mr_olo f)) ->
  exists y f', mapped_value s f = Ok (y, f') /\ f_le (mr_olo f) y = true /\ f_le y (mr_ohi f) = true /\
    (f_le s (mr_ilo f) = true -> f_eq y (mr_olo f) = true) /\ (f_le (mr_ihi f) s = true -> f_eq y (mr_ohi f) = true).
Proof.
  intros Hf HT N HW. destruct (mapped_range_thm f s Hf HT N) as (y & f' & E & H1 & H2 & H3 & H4). destruct (top_val f Hf) as [T1 T2].
  rewrite (rnd_id _ HW) in T1. replace (val (mr_olo f) + (val (mr_ohi f) - val (mr_olo f))) with (val (mr_ohi f)) in T1 by ring. rewrite (rnd_id _ (val_fmt _)) in T1.
  assert (Foh : finite (mr_ohi f) = true) by apply Hf.
  destruct (le_nan _ _ H1) as [_ Ny]. assert (Fy : finite y = true).
  { apply key_le in H1, H2; auto; try apply finite_nan; try apply Hf; auto. rewrite key_fin in H1 by apply Hf. rewrite (key_fin _ T2) in H2.
    assert (B1 := val_big (mr_olo f)). assert (B2 := val_big (mr_ohi f)). rewrite T1 in H2. apply Rabs_lt_inv in B1, B2. destruct y as [|[|]| |]; try reflexivity; try discriminate; cbn [key] in *; lra. }
  exists y, f'. split; [exact E|]. split; [exact H1|]. split; [|split; [exact H3|]].
  - rewrite le_val in H2 |- * by assumption. rewrite T1 in H2. exact H2.
  - intros Hs. specialize (H4 Hs). rewrite eq_val in H4 |- * by assumption. rewrite T1 in H4. exact H4.
Qed.
Theorem percentage_thm (g : float -> float -> mapped) (n : Z) il ih s :
  (g = percentage /\ n = 100%Z \/ g = permillage /\ n = 1000%Z) -> bounded 125 il -> bounded 125 ih -> f_lt il ih = true -> f_isnan s = false ->
  exists y f', mapped_value s (g il ih) = Ok (y, f') /\ f_le (f_ofZ 0) y = true /\ f_le y (f_ofZ n) = true /\
    (f_le s il = true -> f_eq y (f_ofZ 0) = true) /\ (f_le ih s = true -> f_eq y (f_ofZ n) = true).
Proof.
  intros HG Hl Hh HI N.
  assert (B0 : forall k, (Z.abs k <= 1000)%Z -> bounded 125 (f_ofZ k) /\ val (f_ofZ k) = IZR k).
  { intros k Hk. destruct (ofZ_exact k) as [E F]; [lia|]. split; [|exact E]. split; [exact F|]. rewrite E, <- abs_IZR. apply Rle_trans with (IZR 1024); [apply IZR_le; lia|]. change (IZR 1024) with (bpow radix2 10). apply bpow_le. lia. }
  destruct (B0 0%Z ltac:(lia)) as [Z1 Z2]. destruct (B0 n) as [N1 N2]. { destruct HG as [[_ ->]|[_ ->]]; lia. }
  assert (HO : f_le (f_ofZ 0) (f_ofZ n) = true) by (destruct HG as [[_ ->]|[_ ->]]; vm_compute; reflexivity).
  assert (W : fmt (val (f_ofZ n) - val (f_ofZ 0))) by (rewrite Z2, Rminus_0_r; apply val_fmt).
  destruct HG as [[-> ->]|[-> ->]].
  - apply (mapped_inside_thm (percentage il ih) s); auto. unfold mr_ok. cbn [percentage mr_ilo mr_ihi mr_olo mr_ohi]. auto 10.
  - apply (mapped_inside_thm (permillage il ih) s); auto. unfold mr_ok. cbn [permillage mr_ilo mr_ihi mr_olo mr_ohi]. auto 10.
Qed.

(** ** Invert *)
Definition invert_twice (dbg : bool) (l u s : float) : outcome (float * float) :=
  '(r, f) <- invert_value dbg s (mkInv l u f_zero) ;; '(y, _) <- invert_value dbg r f ;; Ok (r, y).
Lemma fmt_grid k e : (-149 <= e)%Z -> (Z.abs k <= 2 ^ 24)%Z -> fmt (IZR k * bpow radix2 e).
Proof.
  intros He H. destruct (Z.eq_dec (Z.abs k) (2 ^ 24)) as [E|E].
  - assert (P : fmt (bpow radix2 (24 + e))) by (apply fmt_bpow; lia). rewrite bpow_plus in P. change (bpow radix2 24) with (IZR (2 ^ 24)) in P.
    destruct (Z.abs_spec k) as [[_ A]|[_ A]]; rewrite A in E; [rewrite E; exact P|]. replace k with (- 2 ^ 24)%Z by lia. rewrite opp_IZR, Ropp_mult_distr_l_reverse. apply fmt_opp, P.
  - apply generic_format_FLT. apply (FLT_spec _ _ _ _ (Float radix2 k e)); cbn [Fnum Fexp]; [reflexivity|change (radix2 ^ 24)%Z with (2 ^ 24)%Z; lia|lia].
Qed.
(** [x] is [k] steps of 2^e *)
Definition steps (e : Z) (x : float) (k : Z) : Prop := finite x = true /\ val x = IZR k * bpow radix2 e.
Lemma sub_steps e x y k m : (-149 <= e <= 100)%Z -> (Z.abs (k - m) <= 2 ^ 24)%Z -> steps e x k -> steps e y m -> steps e (f_sub x y) (k - m).
Proof.
  intros He H [Fx Ex] [Fy Ey]. assert (D : val x - val y = IZR (k - m) * bpow radix2 e) by (rewrite Ex, Ey, minus_IZR; ring).
  assert (G := fmt_grid (k - m) e ltac:(lia) H).
  destruct (sub_val x y Fx Fy) as [E F].
  - apply (rnd_small _ 124); [lia|]. rewrite D, Rabs_mult, <- abs_IZR, (Rabs_pos_eq (bpow radix2 e)) by apply bpow_ge_0.
    apply Rle_trans with (IZR (2 ^ 24) * bpow radix2 e); [apply Rmult_le_compat_r; [apply bpow_ge_0|apply IZR_le, H]|]. change (IZR (2 ^ 24)) with (bpow radix2 24). rewrite <- bpow_plus. apply bpow_le. lia.
  - split; [exact F|]. rewrite E, D. apply rnd_id, G.
Qed.
Lemma steps_le e x y k m : steps e x k -> steps e y m -> (f_le x y = true <-> (k <= m)%Z).
Proof.
  intros [Fx Ex] [Fy Ey]. rewrite le_val, Ex, Ey by assumption. assert (P := bpow_gt_0 radix2 e). case Rle_bool_spec; intros H; split; intros H'; auto; try discriminate.
  - apply le_IZR. nra.
  - apply IZR_le in H'. nra.
Qed.
Theorem invert_grid_thm dbg e l u s a b c : (-149 <= e <= 100)%Z -> steps e l a -> steps e u b -> steps e s c ->
  (Z.abs a <= 2 ^ 22)%Z -> (Z.abs b <= 2 ^ 22)%Z -> (a <= c <= b)%Z ->
  exists r y, invert_twice dbg l u s = Ok (r, y) /\ f_le l r = true /\ f_le r u = true /\ f_eq y s = true.
Proof.
  intros He Hl Hu Hs Ha Hb Hc. assert (P24 : (2 ^ 24 = 4 * 2 ^ 22)%Z) by reflexivity. unfold invert_twice, invert_value. cbn [in_lo in_hi]. change (f_ge s l) with (f_le l s).
  assert (S1 : f_le l s = true) by (apply (steps_le e l s a c); auto; lia). assert (S2 : f_le s u = true) by (apply (steps_le e s u c b); auto; lia). rewrite S1, S2.
  assert (D1 := sub_steps e s l c a He ltac:(lia) Hs Hl). assert (D2 := sub_steps e u _ b (c - a)%Z He ltac:(lia) Hu D1).
  set (r := f_sub u (f_sub s l)) in *. cbn [andb sassert bind in_lo in_hi]. change (f_ge r l) with (f_le l r).
  assert (S3 : f_le l r = true) by (apply (steps_le e l r a _ Hl D2); lia). assert (S4 : f_le r u = true) by (apply (steps_le e r u _ b D2 Hu); lia).
  rewrite S3, S4. cbn [andb sassert bind]. exists r, (f_sub u (f_sub r l)). repeat split; auto.
  assert (D3 := sub_steps e r l (b - (c - a))%Z a He ltac:(lia) D2 Hl). assert (D4 := sub_steps e u _ b (b - (c - a) - a)%Z He ltac:(lia) Hu D3).
  destruct D4 as [F4 E4], Hs as [Fs Es]. rewrite eq_val by assumption. apply Req_bool_true. rewrite E4, Es. do 2 f_equal. lia.
Qed.
Lemma invert_ok dbg l u s v : f_le l s = true -> f_le s u = true -> invert_value dbg s (mkInv l u v) = Ok (f_sub u (f_sub s l), mkInv l u (f_sub u (f_sub s l))).
Proof. intros H1 H2. unfold invert_value. cbn [in_lo in_hi]. change (f_ge s l) with (f_le l s). rewrite H1, H2. reflexivity. Qed.
Theorem invert_inside_thm dbg l u s v : bounded 125 l -> bounded 125 u -> fmt (val u - val l) -> f_le l s = true -> f_le s u = true ->
  exists r f, invert_value dbg s (mkInv l u v) = Ok (r, f) /\ f_le l r = true /\ f_le r u = true.
Proof.
  intros Hl Hu HW H1 H2. unfold invert_value. cbn [in_lo in_hi]. change (f_ge s l) with (f_le l s). rewrite H1, H2. cbn [andb sassert bind].
  destruct (le_nan _ _ H1) as [_ Ns]. assert (K1 := proj1 (key_le l s (finite_nan _ (proj1 Hl)) Ns) H1). assert (K2 := proj1 (key_le s u Ns (finite_nan _ (proj1 Hu))) H2).
  rewrite (key_fin l (proj1 Hl)) in K1. rewrite (key_fin u (proj1 Hu)) in K2.
  assert (Fs : finite s = true). { assert (B1 := val_big l). assert (B2 := val_big u). apply Rabs_lt_inv in B1, B2. destruct s as [|[|]| |]; try reflexivity; try discriminate Ns; cbn [key] in *; lra. }
  rewrite (key_fin s Fs) in K1, K2. assert (Bs : bounded 125 s). { split; [exact Fs|]. destruct Hl as [_ A], Hu as [_ B]. apply Rabs_le_inv in A, B. apply Rabs_le. lra. }
  destruct (sub_bounded s l 125 ltac:(lia) Bs Hl) as (E1 & F1 & B1).
  assert (R0 : 0 <= rnd (val s - val l)) by (apply rnd_nonneg; lra).
  assert (R1 : rnd (val s - val l) <= val u - val l) by (rewrite <- (rnd_id _ HW); apply rnd_le; lra).
  assert (Q : val l <= rnd (val u - val (f_sub s l)) <= val u).
  { rewrite E1. split; [rewrite <- (rnd_id (val l) (val_fmt l)) at 1|rewrite <- (rnd_id (val u) (val_fmt u)) at 2]; apply rnd_le; lra. }
  destruct (sub_val u (f_sub s l) (proj1 Hu) F1) as [E2 F2].
  { apply Rle_lt_trans with (bpow radix2 125); [|apply bpow_lt; lia]. destruct Hl as [_ A], Hu as [_ B]. apply Rabs_le_inv in A, B. apply Rabs_le. lra. }
  rewrite <- E2 in Q. eexists _, _. split; [reflexivity|]. split; apply small_le; auto; try apply Hl; try apply Hu; lra.
Qed.
(** Error of two inversions in [0, 1] *)
Lemma rnd_abs_error x : Rabs x <= 1 -> Rabs (rnd x - x) <= bpow radix2 (-25).
Proof.
  intros H. destruct (Req_dec (Rabs x) 1) as [E|E].
  - assert (fmt x). { destruct (Rabs_eq_Rabs x 1) as [->| ->]; [rewrite (Rabs_pos_eq 1) by lra; exact E|now apply (fmt_Z 1)|now apply fmt_opp, (fmt_Z 1)]. }
    rewrite rnd_id by assumption. rewrite Rminus_diag_eq, Rabs_R0 by reflexivity. apply bpow_ge_0.
  - eapply Rle_trans; [apply (error_le_half_ulp radix2 (FLT_exp (-149) 24) (fun z => negb (Z.even z)) x)|].
    assert (U : ulp radix2 (FLT_exp (-149) 24) x <= bpow radix2 (-24)).
    { destruct (Req_dec x 0) as [->|Hx].
      - rewrite (ulp_FLT_small radix2 (-149) 24); [apply bpow_le; lia|]. rewrite Rabs_R0. apply bpow_gt_0.
      - rewrite ulp_neq_0 by assumption. apply bpow_le. unfold cexp, FLT_exp. assert (mag radix2 x <= 0)%Z; [|lia].
        apply mag_le_bpow; [exact Hx|]. change (bpow radix2 0) with 1. lra. }
    assert (D := bpow_double (-25)). change (-25 + 1)%Z with (-24)%Z in D. fold rnd. lra.
Qed.
Theorem invert_error_thm dbg s : f_le (f_ofZ 0) s = true -> f_le s (f_ofZ 1) = true ->
  exists r y, invert_twice dbg (f_ofZ 0) (f_ofZ 1) s = Ok (r, y) /\ finite y = true /\ Rabs (val y - val s) <= bpow radix2 (-24).
Proof.
  intros H1 H2. destruct one_val as [E1 F1]. assert (F0 : finite (f_ofZ 0) = true) by reflexivity. assert (E0 : val (f_ofZ 0) = 0) by reflexivity.
  assert (W : fmt (val (f_ofZ 1) - val (f_ofZ 0))) by (rewrite E1, E0, Rminus_0_r; now apply (fmt_Z 1)).
  assert (B0 : bounded 125 (f_ofZ 0)) by (split; [exact F0|]; rewrite E0, Rabs_R0; apply bpow_ge_0).
  assert (B1 : bounded 125 (f_ofZ 1)). { split; [exact F1|]. rewrite E1, Rabs_R1. change 1 with (bpow radix2 0). apply bpow_le. lia. }
  assert (Fin : forall x, f_le (f_ofZ 0) x = true -> f_le x (f_ofZ 1) = true -> finite x = true /\ 0 <= val x <= 1).
  { intros x X1 X2. destruct (le_nan _ _ X1) as [_ Nx]. apply key_le in X1, X2; auto. rewrite (key_fin _ F0), E0 in X1. rewrite (key_fin _ F1), E1 in X2.
    assert (F : finite x = true). { assert (P : 1 < bpow radix2 129) by (change 1 with (bpow radix2 0); apply bpow_lt; lia). destruct x as [|[|]| |]; try reflexivity; try discriminate Nx; cbn [key] in *; lra. }
    rewrite (key_fin x F) in X1, X2. auto. }
  assert (V : forall x, f_le (f_ofZ 0) x = true -> f_le x (f_ofZ 1) = true -> val (f_sub (f_ofZ 1) (f_sub x (f_ofZ 0))) = rnd (1 - val x) /\ finite (f_sub (f_ofZ 1) (f_sub x (f_ofZ 0))) = true).
  { intros x X1 X2. destruct (Fin x X1 X2) as [F X]. destruct (sub_val x (f_ofZ 0) F F0) as [A1 A2].
    - rewrite E0, Rminus_0_r, rnd_id by apply val_fmt. apply Rle_lt_trans with (bpow radix2 0); [|apply bpow_lt; lia]. change (bpow radix2 0) with 1. rewrite Rabs_pos_eq; lra.
    - rewrite E0, Rminus_0_r, rnd_id in A1 by apply val_fmt. destruct (sub_val (f_ofZ 1) (f_sub x (f_ofZ 0)) F1 A2) as [A3 A4].
      + rewrite A1, E1. apply (rnd_small _ 0); [lia|]. change (bpow radix2 0) with 1. rewrite Rabs_pos_eq; lra.
      + rewrite A1, E1 in A3. auto. }
  destruct (invert_inside_thm dbg _ _ s f_zero B0 B1 W H1 H2) as (r & f & Hr & R1 & R2).
  rewrite invert_ok in Hr by assumption. set (w := f_sub (f_ofZ 1) (f_sub s (f_ofZ 0))) in *. assert (r = w) by congruence. subst r. clear Hr f.
  unfold invert_twice. rewrite invert_ok by assumption. cbn [bind]. fold w. rewrite invert_ok by assumption. cbn [bind].
  exists w, (f_sub (f_ofZ 1) (f_sub w (f_ofZ 0))). split; [reflexivity|].
  destruct (V s H1 H2) as [Vs _]. fold w in Vs. destruct (V w R1 R2) as [Vw Fw]. split; [exact Fw|]. rewrite Vw, Vs.
  destruct (Fin s H1 H2) as [_ Is]. destruct (Fin w R1 R2) as [_ Iw]. rewrite Vs in Iw.
  assert (A1 := rnd_abs_error (1 - val s) ltac:(apply Rabs_le; lra)). assert (A2 := rnd_abs_error (1 - rnd (1 - val s)) ltac:(apply Rabs_le; lra)).
  assert (D := bpow_double (-25)). change (-25 + 1)%Z with (-24)%Z in D. apply Rabs_le_inv in A1, A2. apply Rabs_le. lra.
Qed.

(** ** Stack *)
Fixpoint stack_run (dbg : bool) (s : stack) (xs : list float) : outcome (list float) :=
  match xs with [] => Ok [] | x :: xs' => '(y, s') <- stack_value dbg x s ;; ys <- stack_run dbg s' xs' ;; Ok (y :: ys) end.
(** One filter over a list of samples *)
Fixpoint filter_run (f : filter) (xs : list float) : outcome (list float) :=
  match xs with [] => Ok [] | x :: xs' => '(y, f') <- run_filter x f ;; ys <- filter_run f' xs' ;; Ok (y :: ys) end.
(** The list through one filter after the other *)
Fixpoint through (fs : list filter) (xs : list float) : outcome (list float) :=
  match fs with [] => Ok xs | f :: fs' => ys <- filter_run f xs ;; through fs' ys end.
Lemma bind_ok {A B} (o : outcome A) (f : A -> outcome B) b : bind o f = Ok b <-> exists a, o = Ok a /\ f a = Ok b.
Proof. destruct o; cbn; split; try discriminate; try (intros (a' & H & _); discriminate); [intros H; eauto|]. intros (a' & H & H'). congruence. Qed.
Lemma stack_run_nil dbg : forall xs, stack_run dbg [] xs = Ok xs.
Proof. induction xs as [|x xs IH]; [reflexivity|]. cbn [stack_run stack_value bind]. now rewrite IH. Qed.
Lemma stack_run_cons dbg : forall xs f s zs, stack_run dbg (Some f :: s) xs = Ok zs <-> exists ys, filter_run f xs = Ok ys /\ stack_run dbg s ys = Ok zs.
Proof.
  induction xs as [|x xs IH]; intros f s zs.
  - cbn [stack_run filter_run]. split; [intros H; exists []; auto|]. intros (ys & H1 & H2). assert (ys = []) by congruence. subst. exact H2.
  - cbn [stack_run filter_run stack_value]. split.
    + intros H. apply bind_ok in H as ([y s'] & H1 & H2). apply bind_ok in H1 as ([y1 f'] & H3 & H4). apply bind_ok in H4 as ([z s''] & H5 & H6).
      apply ok_pair in H6 as [-> <-]. apply bind_ok in H2 as (ws & H7 & H8). apply IH in H7 as (ys & H9 & H10).
      exists (y1 :: ys). rewrite H3. cbn [bind]. rewrite H9. split; [reflexivity|]. cbn [stack_run]. rewrite H5. cbn [bind]. rewrite H10. exact H8.
    + intros (ys & H1 & H2). apply bind_ok in H1 as ([y1 f'] & H3 & H4). apply bind_ok in H4 as (ys' & H5 & H6). rewrite H3. cbn [bind].
      assert (E : ys = y1 :: ys') by congruence. subst ys. cbn [stack_run] in H2. apply bind_ok in H2 as ([z s''] & H7 & H8). rewrite H7. cbn [bind].
      apply bind_ok in H8 as (ws & H9 & H10). rewrite (proj2 (IH f' s'' ws)); [exact H10|]. exists ys'. auto.
Qed.
Theorem stack_thm dbg : forall fs xs zs, stack_run dbg (map Some fs) xs = Ok zs <-> through fs xs = Ok zs.
Proof.
  induction fs as [|f fs IH]; intros xs zs; cbn [map through].
  - rewrite stack_run_nil. reflexivity.
  - rewrite stack_run_cons, bind_ok. split; intros (ys & H1 & H2); exists ys; split; auto; now apply IH.
Qed.
(** The stack made by attaching the filters one after the other *)
Definition build (fs : list filter) : stack := fold_left (fun s f => attach (Some f) s) fs [].
Lemma build_map fs : build fs = map Some fs.
Proof.
  assert (H : forall fs s, fold_left (fun s f => attach (Some f) s) fs s = s ++ map Some fs); [|exact (H fs [])].
  clear. induction fs as [|f fs IH]; intros s; cbn [fold_left map]; [now rewrite app_nil_r|]. rewrite IH. unfold attach. now rewrite <- app_assoc.
Qed.
Theorem attached_thm dbg fs xs zs : stack_run dbg (build fs) xs = Ok zs <-> through fs xs = Ok zs.
Proof. rewrite build_map. apply stack_thm. Qed.
(** Null pointers are skipped in release *)
Fixpoint present (s : stack) : list filter := match s with [] => [] | Some f :: s' => f :: present s' | None :: s' => present s' end.
Lemma skip_null : forall s x, exists k : outcome (float * stack), stack_value false x s = k /\
  match k with Ok (y, s') => stack_value false x (map Some (present s)) = Ok (y, map Some (present s')) | _ => True end.
Proof.
  induction s as [|[f|] s IH]; intros x; eexists; (split; [reflexivity|]); cbn [stack_value present map].
  - reflexivity.
  - destruct (run_filter x f) as [[y f']| | | |]; cbn [bind]; auto. destruct (IH y) as (k & H1 & H2). rewrite H1. destruct k as [[z s']| | | |]; cbn [bind]; auto. rewrite H2. reflexivity.
  - destruct (IH x) as (k & H1 & H2). rewrite H1. destruct k as [[z s']| | | |]; cbn [bind]; auto.
Qed.
Theorem stack_null_thm : forall xs s zs, stack_run false s xs = Ok zs -> through (present s) xs = Ok zs.
Proof.
  intros xs s zs H. apply (stack_thm false). revert s zs H. induction xs as [|x xs IH]; intros s zs H; [exact H|]. cbn [stack_run] in *.
  apply bind_ok in H as ([y s'] & H1 & H2). destruct (skip_null s x) as (k & K1 & K2). rewrite H1 in K1. subst k. rewrite K2. cbn [bind].
  apply bind_ok in H2 as (ys & H3 & H4). rewrite (IH _ _ H3). exact H4.
Qed.
(** value() after a sample: for filters whose value() is what value(sample) returned last *)
Definition lawful (f : filter) : Prop := forall x s y s', step f x s = Ok (y, s') -> cur f s' = y.
Lemma lawful_ewma f : lawful (of_ewma f).
Proof. intros x s y s' H. cbn [of_ewma step cur] in *. unfold ewma_value in H. destruct (f_eq (ew_n s) (f_ofZ 0)); apply ok_pair in H as [<- <-]; reflexivity. Qed.
Lemma lawful_bandpass f : lawful (of_bandpass f).
Proof. intros x s y s' H. cbn [of_bandpass step cur] in *. unfold bp_step in H. apply bind_ok in H as (f' & _ & H). apply ok_pair in H as [<- <-]. reflexivity. Qed.
Lemma lawful_invert dbg f : lawful (of_invert dbg f).
Proof. intros x s y s' H. cbn [of_invert step cur] in *. unfold invert_value in H. apply bind_ok in H as (u & _ & H). apply ok_pair in H as [<- <-]. reflexivity. Qed.
Lemma lawful_mapped f : lawful (of_mapped f).
Proof. intros x s y s' H. cbn [of_mapped step cur] in *. unfold mapped_value in H. destruct (_ && mr_throw s); [discriminate|]. apply ok_pair in H as [<- <-]. reflexivity. Qed.
Lemma lawful_passthrough v : lawful (passthrough v).
Proof. intros x s y s' H. cbn [passthrough step cur] in *. apply ok_pair in H as [<- <-]. reflexivity. Qed.
Lemma stack_value_last dbg : forall s x y s' f, stack_value dbg x (s ++ [Some f]) = Ok (y, s') -> exists s1 f1 z, s' = s1 ++ [Some f1] /\ run_filter z f = Ok (y, f1).
Proof.
  induction s as [|[g|] s IH]; intros x y s' f H; cbn [app stack_value] in H.
  - apply bind_ok in H as ([y1 f'] & H1 & H2). cbn [bind] in H2. apply ok_pair in H2 as [<- <-]. exists [], f', x. auto.
  - apply bind_ok in H as ([y1 g'] & H1 & H2). apply bind_ok in H2 as ([z s''] & H3 & H4). apply ok_pair in H4 as [<- <-]. destruct (IH _ _ _ _ H3) as (s1 & f1 & w & -> & E). exists (Some g' :: s1), f1, w. auto.
  - destruct dbg; [discriminate|]. apply bind_ok in H as ([z s''] & H3 & H4). apply ok_pair in H4 as [<- <-]. destruct (IH _ _ _ _ H3) as (s1 & f1 & w & -> & E). exists (None :: s1), f1, w. auto.
Qed.
Theorem stack_current_thm dbg s f x y s' : lawful f -> stack_value dbg x (s ++ [Some f]) = Ok (y, s') -> stack_current s' = Ok y.
Proof.
  intros L H. destruct (stack_value_last dbg s x y s' f H) as (s1 & f1 & z & -> & E). unfold run_filter in E. apply bind_ok in E as ([w t] & E1 & E2). apply ok_pair in E2 as [<- <-].
  unfold stack_current. rewrite last_last. destruct (s1 ++ _) eqn:Es; [destruct s1; discriminate|]. unfold filter_value. cbn [cur st]. now rewrite (L _ _ _ _ E1).
Qed.

(** ** The width of the band *)
Lemma wide_band w x : finite w = true -> IZR 300 <= val w <= IZR 1000 -> x = f_ofZ 300 ->
  in_band (mkBC ABSOLUTE w (f_ofZ 0) 10 true) (f_ofZ 0) x = true.
Proof.
  intros F H ->. unfold in_band. cbn [bc_mode bc_offset bc_width]. destruct (ofZ_exact 300) as [E3 F3]; [now vm_compute|].
  assert (B : Rabs (val w) <= bpow radix2 10) by (rewrite Rabs_pos_eq by lra; change (bpow radix2 10) with 1024; lra).
  destruct (sub_val (f_ofZ 0) w eq_refl F) as [E1 F1]; [|destruct (add_val (f_ofZ 0) w eq_refl F) as [E2 F2]].
  - change (val (f_ofZ 0)) with 0. apply (rnd_small _ 10); [lia|]. rewrite Rminus_0_l, Rabs_Ropp. exact B.
  - change (val (f_ofZ 0)) with 0. apply (rnd_small _ 10); [lia|]. rewrite Rplus_0_l. exact B.
  - change (val (f_ofZ 0)) with 0 in E1, E2. rewrite Rminus_0_l, rnd_opp, rnd_id in E1 by apply val_fmt. rewrite Rplus_0_l, rnd_id in E2 by apply val_fmt.
    apply andb_true_intro. split; apply small_le; auto; rewrite ?E1, ?E2, E3; lra.
Qed.
