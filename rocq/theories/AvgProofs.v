(** Lemmas about the numbers that the filters compute. *)
From Coq Require Import ZArith Lia Bool List Reals Lra.
From Flocq Require Import Core IEEE754.BinarySingleNaN Relative.
From Verif Require Import Base FloatModel FloatFacts PidProofs FilterModel FilterSpec FilterProofs AvgSpec.
Import ListNotations.
Open Scope R_scope.

(** ** Rounding errors *)
Definition u24 : R := bpow radix2 (-24).
Definition eta : R := bpow radix2 (-150).
Lemma u24_val : u24 = / 16777216. Proof. reflexivity. Qed.
Lemma eta_pos : 0 < eta. Proof. apply bpow_gt_0. Qed.
Lemma rnd_err x M : Rabs x <= M -> Rabs (rnd x - x) <= u24 * M + eta.
Proof.
  intros H. destruct (error_N_FLT radix2 (-149) 24 ltac:(lia) (fun x => negb (Z.even x)) x) as (e & t & He & Ht & _ & E).
  fold (rnd x) in E. change (round radix2 (FLT_exp (-149) 24) (Znearest (fun x => negb (Z.even x))) x) with (rnd x) in E.
  rewrite E. replace (x * (1 + e) + t - x) with (e * x + t) by ring. apply Rle_trans with (1 := Rabs_triang _ _). rewrite Rabs_mult.
  assert (Rabs e <= u24) as He' by (unfold u24; change (bpow radix2 (- (24) + 1)) with (/ 8388608) in He; change (bpow radix2 (-24)) with (/ 16777216); lra).
  assert (Rabs t <= eta) as Ht' by (unfold eta; change (-150)%Z with (-149 + -1)%Z; rewrite bpow_plus; change (bpow radix2 (-1)) with (/ 2); lra).
  apply Rplus_le_compat; [|exact Ht']. apply Rmult_le_compat; auto using Rabs_pos.
Qed.
Lemma sub_rel a b : fmt a -> fmt b -> exists e, Rabs e <= u24 /\ rnd (a - b) = (a - b) * (1 + e).
Proof.
  intros A B. destruct (Rle_or_lt (Rabs (a - b)) (bpow radix2 (-125))) as [H|H].
  - exists 0. rewrite Rabs_R0. split; [apply bpow_ge_0|]. rewrite rnd_id by (now apply sub_fmt_small). ring.
  - apply rnd_rel. right. apply Rle_trans with (2 := Rlt_le _ _ H). apply bpow_le. lia.
Qed.

(** ** The moving average *)
Lemma decay_app K xs : forall a x, decay K a (xs ++ [x]) = x / K + (1 - / K) * decay K a xs.
Proof. induction xs as [|y xs IH]; intros a x; [reflexivity|]. cbn [app decay]. apply IH. Qed.
Lemma sum_app_R xs x : fold_right Rplus 0 (xs ++ [x]) = fold_right Rplus 0 xs + x.
Proof. induction xs as [|y xs IH]; cbn [app fold_right]; [ring|rewrite IH; ring]. Qed.
Lemma average_next K xs x : 2 <= K -> xs <> [] -> average K (xs ++ [x]) = average K xs + (x - average K xs) / Rmin (INR (S (length xs))) K.
Proof.
  intros HK Hx. unfold average. set (n := Z.to_nat (Zfloor K)).
  assert (2 <= Zfloor K)%Z as Hf by (apply Zfloor_lub; exact HK).
  assert (INR n <= K < INR n + 1) as Hn. { unfold n. rewrite INR_IZR_INZ, Z2Nat.id by lia. split; [apply Zfloor_lb|apply Zfloor_ub]. }
  destruct (Nat.le_gt_cases (S (length xs)) n) as [H|H].
  - rewrite !firstn_all2, !skipn_all2 by (rewrite ?app_length; cbn [length]; lia). cbn [decay]. unfold mean. rewrite sum_app_R, app_length. cbn [length]. rewrite Nat.add_1_r.
    rewrite Rmin_left by (apply Rle_trans with (INR n); [apply le_INR; exact H|lra]).
    assert (0 < INR (length xs)) as L by (apply lt_0_INR; destruct xs; [contradiction|cbn; lia]). rewrite S_INR. field. lra.
  - rewrite firstn_app, skipn_app. replace (n - length xs)%nat with O by lia. rewrite app_nil_r. cbn [skipn]. rewrite decay_app.
    rewrite Rmin_right; [unfold Rdiv; ring|]. apply Rle_trans with (INR n + 1); [lra|]. rewrite <- S_INR. apply le_INR. lia.
Qed.
Lemma average_one K x : 2 <= K -> average K [x] = x.
Proof.
  intros HK. unfold average. assert (2 <= Zfloor K)%Z as Hf by (apply Zfloor_lub; exact HK). destruct (Z.to_nat (Zfloor K)) as [|n] eqn:E; [lia|].
  cbn [firstn skipn decay]. rewrite firstn_nil, skipn_nil. unfold mean. cbn. field.
Qed.
Lemma convex a x m : 1 <= m -> a + (x - a) / m = (1 - / m) * a + / m * x.
Proof. intros H. field. lra. Qed.
Lemma weight m : 1 <= m -> 0 <= / m <= 1.
Proof. intros H. split; [apply Rlt_le, Rinv_0_lt_compat; lra|]. rewrite <- Rinv_1. apply Rinv_le; lra. Qed.
Lemma average_bound K B xs : 2 <= K -> xs <> [] -> Forall (fun x => Rabs x <= B) xs -> Rabs (average K xs) <= B.
Proof.
  intros HK. induction xs as [|x xs IH] using rev_ind; intros Hx F; [contradiction|]. apply Forall_app in F. destruct F as [F Fx]. inversion Fx as [|? ? Bx _]; subst.
  destruct xs as [|y xs].
  - cbn [app]. rewrite average_one by exact HK. exact Bx.
  - rewrite average_next by (exact HK || discriminate). specialize (IH ltac:(discriminate) F). set (a := average K (y :: xs)) in *. set (m := Rmin _ K).
    assert (1 <= m) as Hm. { unfold m. apply Rmin_glb; [|lra]. change 1 with (INR 1). apply le_INR. lia. }
    rewrite convex by exact Hm. destruct (weight m Hm) as [W1 W2]. apply Rabs_le_inv in IH. apply Rabs_le_inv in Bx. apply Rabs_le. nra.
Qed.
Lemma step_err B v s m a E : bpow radix2 (-100) <= B -> Rabs v <= B -> Rabs s <= B -> 2 <= m -> Rabs (v - a) <= E ->
  Rabs (rnd (v + rnd (rnd (s - v) / m)) - (a + (s - a) / m)) <= (1 - / m) * E + bpow radix2 (-22) * B.
Proof.
  intros HB Hv Hs Hm Ha. pose proof eta_pos as Ht. pose proof u24_val as Hu.
  assert (eta <= / 1000 * (u24 * B)) as St. { unfold eta. change (bpow radix2 (-150)) with (bpow radix2 (-50 + -100)). rewrite bpow_plus. apply Rle_trans with (bpow radix2 (-50) * B).
    - apply Rmult_le_compat_l; [apply bpow_ge_0|exact HB]. - rewrite Hu. rewrite <- Rmult_assoc. apply Rmult_le_compat_r; [pose proof (bpow_gt_0 radix2 (-100)); lra|]. change (bpow radix2 (-50)) with (/ 1125899906842624). lra. }
  assert (0 < B) as PB by (pose proof (bpow_gt_0 radix2 (-100)); lra).
  assert (bpow radix2 (-22) * B = 4 * (u24 * B)) as -> by (rewrite Hu; change (bpow radix2 (-22)) with (/ 4194304); lra).
  assert (u24 * (u24 * B) <= / 1000 * (u24 * B)) as Sq by (apply Rmult_le_compat_r; [apply Rmult_le_pos; lra|lra]).
  destruct (weight m ltac:(lra)) as [W1 W2]. assert (/ m <= / 2) as W3 by (apply Rinv_le; lra).
  pose proof (Rabs_le_inv _ _ Hv) as Iv. pose proof (Rabs_le_inv _ _ Hs) as Is.
  assert (Rabs (s - v) <= 2 * B) as D0 by (apply Rabs_le; lra).
  pose proof (rnd_err _ _ D0) as D1. set (d := rnd (s - v)) in *. apply Rabs_le_inv in D1. set (ub := u24 * B) in *.
  replace (u24 * (2 * B)) with (2 * ub) in D1 by (unfold ub; ring).
  assert (ub <= / 1000 * B) as Ub by (unfold ub; apply Rmult_le_compat_r; lra).
  assert (0 <= ub) as P0 by (unfold ub; apply Rmult_le_pos; lra).
  assert (forall z c, Rabs z <= c -> Rabs (z / m) <= c / 2) as Half.
  { intros z c Hz. unfold Rdiv. rewrite Rabs_mult, (Rabs_pos_eq (/ m)) by exact W1. apply Rmult_le_compat; auto using Rabs_pos. }
  assert (Rabs (d / m - (s - v) / m) <= (2 * ub + eta) / 2) as D2 by (replace (d / m - (s - v) / m) with ((d - (s - v)) / m) by (unfold Rdiv; ring); apply Half; apply Rabs_le; lra).
  assert (Rabs (d / m) <= (2 * B + 2 * ub + eta) / 2) as Q0 by (apply Half; apply Rabs_le; apply Rabs_le_inv in D0; lra).
  pose proof (rnd_err _ _ Q0) as Q1. set (q := rnd (d / m)) in *. 
  assert (u24 * ((2 * B + 2 * ub + eta) / 2) <= ub + / 1000 * ub + / 1000 * ub) as Q2.
  { replace (u24 * ((2 * B + 2 * ub + eta) / 2)) with (ub + u24 * ub + u24 * eta / 2) by (unfold ub; field). assert (u24 * eta <= / 1000 * ub) by (apply Rle_trans with eta; [rewrite <- (Rmult_1_l eta) at 2; apply Rmult_le_compat_r; lra|exact St]). lra. }
  assert (Rabs (v + (s - v) / m) <= B) as L0. { rewrite convex by lra. apply Rabs_le. nra. }
  apply Rabs_le_inv in Q1. apply Rabs_le_inv in D2. apply Rabs_le_inv in L0.
  assert (Rabs (v + q) <= 2 * B) as W0 by (apply Rabs_le; lra).
  assert (Rabs (v + q - (v + (s - v) / m)) <= 2 * ub + / 10 * ub) as V0 by (apply Rabs_le; lra).
  apply Rabs_le_inv in V0. assert (Rabs (v + q) <= B + 3 * ub) as W1' by (apply Rabs_le; lra).
  pose proof (rnd_err _ _ W1') as R1. replace (u24 * (B + 3 * ub)) with (ub + 3 * (u24 * ub)) in R1 by (unfold ub; ring).
  apply Rabs_le_inv in R1.
  replace (rnd (v + q) - (a + (s - a) / m)) with ((rnd (v + q) - (v + q)) + (v + q - (v + (s - v) / m)) + (1 - / m) * (v - a)) by (field; lra).
  assert (Rabs ((1 - / m) * (v - a)) <= (1 - / m) * E) as A0. { rewrite Rabs_mult, (Rabs_pos_eq (1 - / m)) by lra. apply Rmult_le_compat_l; lra. }
  apply Rabs_le_inv in A0. apply Rabs_le. lra.
Qed.
Lemma min_val n k : finite n = true -> finite k = true -> val (f_min n k) = Rmin (val n) (val k) /\ finite (f_min n k) = true.
Proof.
  intros F G. unfold f_min. rewrite lt_val by assumption. destruct (Rlt_bool_spec (val k) (val n)); split; auto; unfold Rmin; destruct (Rle_dec (val n) (val k)); auto; lra.
Qed.
(** The number of samples, as far as it goes *)
Definition cnt (n : nat) : R := IZR (Z.min (Z.of_nat n) (2 ^ 24)).
Lemma cnt_next n k : (1 <= n)%nat -> finite k = true -> val k = cnt n -> val (f_add k (f_ofZ 1)) = cnt (S n) /\ finite (f_add k (f_ofZ 1)) = true.
Proof.
  intros Hn F E. assert (count k) as C. { split; [exact F|]. rewrite E. unfold cnt. split; apply IZR_le; lia. }
  destruct (count_next k C) as [[F' _] _]. split; [|exact F']. destruct one_val as [E1 F1].
  destruct (add_val k (f_ofZ 1) F F1) as [V _]. { rewrite E, E1. apply (rnd_small _ 25); [lia|]. change (bpow radix2 25) with (IZR (2 ^ 25)). unfold cnt. rewrite <- plus_IZR, <- abs_IZR. apply IZR_le. lia. }
  rewrite V, E, E1. unfold cnt. destruct (Z.lt_ge_cases (Z.of_nat n) (2 ^ 24)) as [L|L].
  - rewrite Z.min_l by lia. rewrite <- plus_IZR. rewrite rnd_id by (apply fmt_Z; lia). f_equal. lia.
  - rewrite !Z.min_r by lia. apply top_count.
Qed.
Lemma cnt_min n K : K <= IZR (2 ^ 24) -> Rmin (cnt n) K = Rmin (INR n) K.
Proof.
  intros H. unfold cnt. destruct (Z.le_ge_cases (Z.of_nat n) (2 ^ 24)) as [L|L].
  - rewrite Z.min_l by lia. rewrite INR_IZR_INZ. reflexivity.
  - rewrite Z.min_r by lia. rewrite Rmin_right by exact H. rewrite Rmin_right; [reflexivity|]. rewrite INR_IZR_INZ. apply Rle_trans with (1 := H). apply IZR_le. lia.
Qed.
Definition upto (B : R) (x : float) : Prop := finite x = true /\ Rabs (val x) <= B.
Record avg_inv (B : R) (k : float) (seen : list float) (f : ewma) : Prop := {
  ai_k : ew_k f = k; ai_seen : seen <> []; ai_B : Forall (upto B) seen;
  ai_n : finite (ew_n f) = true /\ val (ew_n f) = cnt (length seen);
  ai_v : upto B (ew_value f);
  ai_err : Rabs (val (ew_value f) - average (val k) (map val seen)) <= bpow radix2 (-22) * B * Rmin (INR (length seen)) (val k) }.
Lemma avg_step B k seen f x : bpow radix2 (-100) <= B <= bpow radix2 126 -> finite k = true -> 2 <= val k <= IZR (2 ^ 24) -> avg_inv B k seen f -> upto B x ->
  avg_inv B k (seen ++ [x]) (snd (ewma_value x f)) /\ fst (ewma_value x f) = ew_value (snd (ewma_value x f)).
Proof.
  intros [HB HB'] Fk Hk [Ek Hs HF [Fn En] [Fv Bv] Er] [Fx Bx]. assert (1 <= length seen)%nat as Hl by (destruct seen; [contradiction|cbn; lia]).
  assert (count (ew_n f)) as C. { split; [exact Fn|]. rewrite En. unfold cnt. split; apply IZR_le; lia. }
  unfold ewma_value. rewrite (count_nonzero _ C). cbn zeta. cbn [fst snd ew_value]. split; [|reflexivity].
  destruct (cnt_next _ _ Hl Fn En) as [En' Fn']. rewrite Ek. destruct (min_val _ k Fn' Fk) as [Vm Fm]. rewrite En', cnt_min in Vm by apply Hk. set (m := f_min (f_add (ew_n f) (f_ofZ 1)) k) in *.
  assert (2 <= val m) as Hm. { rewrite Vm. apply Rmin_glb; [|apply Hk]. change 2 with (INR 2). apply le_INR. lia. }
  assert (small (ew_value f)) as Sv by (split; [exact Fv|lra]). assert (small x) as Sx by (split; [exact Fx|lra]).
  pose proof (ewma_step_real _ _ _ Sv Sx Fm Hm) as Bw. cbn zeta in Bw. destruct Bw as [Fw Bw].
  assert (val (f_add (ew_value f) (f_div (f_sub x (ew_value f)) m)) = rnd (val (ew_value f) + rnd (rnd (val x - val (ew_value f)) / val m))) as Vw.
  { assert (D : Rabs (val x - val (ew_value f)) <= bpow radix2 127). { destruct Sv as [_ S1], Sx as [_ S2]. eapply Rle_trans; [apply Rabs_triang|]. rewrite Rabs_Ropp. change 127%Z with (126 + 1)%Z. rewrite <- bpow_double. lra. }
    destruct (sub_val x (ew_value f) Fx Fv) as [E1 F1]. { apply (rnd_small _ 127); [lia|exact D]. }
    assert (Q : Rabs (val (f_sub x (ew_value f)) / val m) <= bpow radix2 127).
    { unfold Rdiv. rewrite Rabs_mult, (Rabs_pos_eq (/ val m)) by (left; apply Rinv_0_lt_compat; lra).
      assert (R1 : Rabs (val (f_sub x (ew_value f))) <= bpow radix2 127) by (rewrite E1; apply rnd_bound; [lia|exact D]).
      destruct (weight (val m)) as [R2 R3]; [lra|]. pose proof (Rabs_pos (val (f_sub x (ew_value f)))). nra. }
    destruct (div_val _ m F1 Fm) as [E2 F2]. { lra. } { apply (rnd_small _ 127); [lia|exact Q]. }
    destruct (add_val (ew_value f) _ Fv F2) as [E3 _]; [|rewrite E3, E2, E1; reflexivity].
    assert (B1 : (val (ew_value f) <= rnd (val (ew_value f) + rnd (rnd (val x - val (ew_value f)) / val m)) <= val x) \/ (val x <= rnd (val (ew_value f) + rnd (rnd (val x - val (ew_value f)) / val m)) <= val (ew_value f))).
    { destruct (Rle_or_lt (val (ew_value f)) (val x)); [left; apply step_up|right; apply step_down]; auto using val_fmt; lra. }
    rewrite E2, E1. destruct Sv as [_ S1], Sx as [_ S2]. apply Rabs_le_inv in S1, S2. apply Rle_lt_trans with (bpow radix2 126); [|apply bpow_lt; lia]. apply Rabs_le. lra. }
  constructor; cbn [ew_k ew_n ew_value].
  - reflexivity.
  - destruct seen; discriminate.
  - apply Forall_app. split; [exact HF|]. constructor; [split; assumption|constructor].
  - rewrite app_length. cbn [length]. rewrite Nat.add_1_r. auto.
  - split; [exact Fw|]. apply Rabs_le_inv in Bv, Bx. apply Rabs_le. lra.
  - rewrite map_app, app_length. cbn [map length]. rewrite Nat.add_1_r.
    rewrite average_next by (try apply Hk; intros E0; apply map_eq_nil in E0; contradiction). rewrite map_length, <- Vm, Vw.
    eapply Rle_trans; [apply (step_err B _ _ _ _ (bpow radix2 (-22) * B * Rmin (INR (length seen)) (val k))); auto|].
    set (c := bpow radix2 (-22) * B). assert (0 <= c) as Pc by (unfold c; apply Rmult_le_pos; [apply bpow_ge_0|pose proof (bpow_gt_0 radix2 (-100)); lra]).
    assert (Rmin (INR (length seen)) (val k) <= Rmin (INR (S (length seen))) (val k)) as M1 by (apply Rle_min_compat_r; apply le_INR; lia).
    assert (Rmin (INR (length seen)) (val k) <= val m - 1 \/ val m = val k) as M2.
    { rewrite Vm. destruct (Rle_or_lt (INR (S (length seen))) (val k)) as [L|L].
      - left. rewrite (Rmin_left (INR (S _))) by exact L. rewrite S_INR. replace (INR (length seen) + 1 - 1) with (INR (length seen)) by ring. apply Rmin_l.
      - right. apply Rmin_right. lra. }
    destruct (weight (val m)) as [W1 W2]; [lra|].
    assert ((1 - / val m) * val m = val m - 1) as Em by (field; lra).
    assert ((1 - / val m) * Rmin (INR (length seen)) (val k) <= val m - 1) as Q.
    { destruct M2 as [M2|M2].
      - apply Rle_trans with (1 * (val m - 1)); [|lra]. assert (0 <= Rmin (INR (length seen)) (val k)) by (apply Rmin_glb; [apply pos_INR|lra]). apply Rmult_le_compat; lra.
      - rewrite <- Em. apply Rmult_le_compat_l; [lra|]. rewrite M2. apply Rmin_r. }
    replace ((1 - / val m) * (c * Rmin (INR (length seen)) (val k)) + c) with (c * ((1 - / val m) * Rmin (INR (length seen)) (val k) + 1)) by ring. apply Rmult_le_compat_l; lra.
Qed.
Lemma avg_run B k : bpow radix2 (-100) <= B <= bpow radix2 126 -> finite k = true -> 2 <= val k <= IZR (2 ^ 24) -> forall xs seen f, avg_inv B k seen f -> Forall (upto B) xs ->
  forall i y, nth_error (ewma_run xs f) i = Some y ->
  Rabs (val y - average (val k) (map val (seen ++ firstn (S i) xs))) <= bpow radix2 (-22) * B * Rmin (INR (length seen + S i)) (val k).
Proof.
  intros HB Fk Hk. induction xs as [|x xs IH]; intros seen f I F i y H; [destruct i; discriminate|]. inversion F as [|? ? X1 X2]; subst.
  destruct (avg_step _ _ _ _ _ HB Fk Hk I X1) as [I' E]. cbn [ewma_run] in H. destruct (ewma_value x f) as [z f'] eqn:Ev. cbn [fst snd] in *. destruct i as [|i]; cbn [nth_error] in H.
  - assert (y = z) by congruence. subst y z. cbn [firstn]. pose proof (ai_err _ _ _ _ I') as A. rewrite app_length in A. cbn [length] in A. exact A.
  - specialize (IH _ _ I' X2 i y H). rewrite app_length, <- app_assoc in IH. cbn [length app] in IH. cbn [firstn]. replace (length seen + S (S i))%nat with (length seen + 1 + S i)%nat by lia. exact IH.
Qed.
Lemma avg_right B k xs : bpow radix2 (-100) <= B <= bpow radix2 126 -> f_le (f_ofZ 2) k = true -> f_le k (f_ofZ (2 ^ 24)) = true ->
  Forall (fun x => finite x = true /\ Rabs (val x) <= B) xs -> forall i y, nth_error (ewma_run xs (ewma_new k)) i = Some y ->
  Rabs (val y - average (val k) (map val (firstn (S i) xs))) <= bpow radix2 (-22) * B * Rmin (INR (S i)) (val k).
Proof.
  intros HB K1 K2 F i y H. destruct (ofZ_exact (2 ^ 24)) as [E F2]; [now vm_compute|].
  assert (finite k = true) as Fk. { clear - K1 K2. destruct k as [s|[|]| |]; try reflexivity; [discriminate K1|discriminate K2|discriminate K1]. }
  pose proof (le_two_val _ K1 Fk) as Hk1. assert (val k <= IZR (2 ^ 24)) as Hk2. { rewrite le_val in K2 by assumption. rewrite E in K2. revert K2. case Rle_bool_spec; auto; discriminate. }
  destruct xs as [|x xs]; [destruct i; discriminate|]. inversion F as [|? ? X1 X2]; subst.
  cbn [ewma_run] in H. unfold ewma_value in H. cbn [ewma_new ew_n ew_k] in H. change (f_eq f_zero (f_ofZ 0)) with true in H. cbv iota in H.
  assert (0 < B) as PB by (pose proof (bpow_gt_0 radix2 (-100)); lra).
  assert (avg_inv B k [x] (mkEw k (f_add f_zero (f_ofZ 1)) x)) as I.
  { constructor; cbn [ew_k ew_n ew_value]; auto; [discriminate| |].
    - split; [vm_compute; reflexivity|]. unfold cnt. cbn [length]. change (IZR (Z.min (Z.of_nat 1) (2 ^ 24))) with 1. destruct one_val as [E1 F1].
      destruct (add_val f_zero (f_ofZ 1) eq_refl F1) as [V _]; [|rewrite V; change (val f_zero) with 0; rewrite E1, Rplus_0_l; apply rnd_id; now apply (fmt_Z 1)].
      change (val f_zero) with 0. rewrite E1. apply (rnd_small _ 1); [lia|]. rewrite Rabs_pos_eq by lra. change (bpow radix2 1) with 2. lra.
    - cbn [map length]. rewrite average_one by exact Hk1. rewrite Rminus_diag_eq by reflexivity. rewrite Rabs_R0. apply Rmult_le_pos; [apply Rmult_le_pos; [apply bpow_ge_0|lra]|]. apply Rmin_glb; [cbn; lra|lra]. }
  destruct i as [|i]; cbn [nth_error] in H.
  - assert (y = x) by congruence. subst y. exact (ai_err _ _ _ _ I).
  - exact (avg_run B k HB Fk (conj Hk1 Hk2) xs [x] _ I X2 i y H).
Qed.
(** Settling *)
Lemma map_repeat (A B : Type) (g : A -> B) x n : map g (repeat x n) = repeat (g x) n.
Proof. induction n as [|n IH]; [reflexivity|]. cbn [repeat map]. rewrite IH. reflexivity. Qed.
Lemma average_settles K xs c m : 2 <= K -> xs <> [] -> Rabs (average K (xs ++ repeat c m) - c) <= (1 - / K) ^ m * Rabs (average K xs - c).
Proof.
  intros HK Hx. induction m as [|m IH]; [cbn [repeat pow]; rewrite app_nil_r; lra|].
  replace (xs ++ repeat c (S m)) with ((xs ++ repeat c m) ++ [c]) by (rewrite <- app_assoc; f_equal; change [c] with (repeat c 1); rewrite <- repeat_app; f_equal; lia).
  rewrite average_next by first [exact HK|destruct xs; [contradiction|discriminate]]. set (a := average K (xs ++ repeat c m)) in *. set (M := Rmin _ K).
  assert (1 <= M) as HM. { unfold M. apply Rmin_glb; [|lra]. change 1 with (INR 1). apply le_INR. lia. }
  replace (a + (c - a) / M - c) with ((1 - / M) * (a - c)) by (field; lra). destruct (weight M HM) as [W1 W2]. destruct (weight K) as [W3 W4]; [lra|].
  assert (/ K <= / M) as W5 by (apply Rinv_le; [lra|apply Rmin_r]).
  rewrite Rabs_mult, (Rabs_pos_eq (1 - / M)) by lra. cbn [pow]. rewrite Rmult_assoc. apply Rmult_le_compat; auto using Rabs_pos; lra.
Qed.
Lemma settles_right B k xs c m y : bpow radix2 (-100) <= B <= bpow radix2 126 -> f_le (f_ofZ 2) k = true -> f_le k (f_ofZ (2 ^ 24)) = true -> xs <> [] ->
  Forall (fun x => finite x = true /\ Rabs (val x) <= B) (c :: xs) -> nth_error (ewma_run (xs ++ repeat c m) (ewma_new k)) (length xs + m - 1) = Some y ->
  Rabs (val y - val c) <= (1 - / val k) ^ m * (2 * B) + bpow radix2 (-22) * B * val k.
Proof.
  intros HB K1 K2 Hx F H. inversion F as [|? ? Fc Fx]; subst.
  assert (Forall (fun x => finite x = true /\ Rabs (val x) <= B) (xs ++ repeat c m)) as Fa. { apply Forall_app. split; [exact Fx|]. apply Forall_forall. intros z Hz. apply repeat_spec in Hz. subst. exact Fc. }
  pose proof (avg_right B k _ HB K1 K2 Fa _ _ H) as A.
  assert (1 <= length xs)%nat as L by (destruct xs; [contradiction|cbn; lia]).
  rewrite firstn_all2 in A by (rewrite app_length, repeat_length; lia). rewrite map_app, map_repeat in A.
  assert (finite k = true) as Fk. { clear - K1 K2. destruct k as [s|[|]| |]; try reflexivity; [discriminate K1|discriminate K2|discriminate K1]. }
  pose proof (le_two_val _ K1 Fk) as Hk. assert (map val xs <> []) as Hn by (intros E; apply map_eq_nil in E; contradiction).
  pose proof (average_settles (val k) (map val xs) (val c) m Hk Hn) as Se.
  assert (Rabs (average (val k) (map val xs)) <= B) as Ab. { apply average_bound; auto. apply Forall_map. eapply Forall_impl; [|exact Fx]. intros z [_ Hz]. exact Hz. }
  assert (Rabs (average (val k) (map val xs) - val c) <= 2 * B) as A2. { destruct Fc as [_ Fc]. apply Rabs_le_inv in Ab, Fc. apply Rabs_le. lra. }
  destruct (weight (val k)) as [W1 W2]; [lra|]. assert (0 <= (1 - / val k) ^ m) as P by (apply pow_le; lra).
  assert (Rabs (average (val k) (map val xs ++ repeat (val c) m) - val c) <= (1 - / val k) ^ m * (2 * B)) as S2 by (eapply Rle_trans; [exact Se|]; apply Rmult_le_compat_l; assumption).
  assert (bpow radix2 (-22) * B * Rmin (INR (S (length xs + m - 1))) (val k) <= bpow radix2 (-22) * B * val k) as M1.
  { apply Rmult_le_compat_l; [apply Rmult_le_pos; [apply bpow_ge_0|pose proof (bpow_gt_0 radix2 (-100)); lra]|apply Rmin_r]. }
  clear - A S2 M1. set (P := (1 - / val k) ^ m * (2 * B)) in *. set (Q := bpow radix2 (-22) * B * val k) in *. set (a := average _ _) in *.
  assert (Rabs (val y - a) <= Q) as A' by (eapply Rle_trans; eassumption). replace (val y - val c) with ((a - val c) + (val y - a)) by ring.
  eapply Rle_trans; [apply Rabs_triang|]. apply Rplus_le_compat; assumption.
Qed.

(** ** The mapped range *)
(** Limits up to 2^125, output range in either direction *)
Definition map_ok (f : mapped) : Prop :=
  bounded 125 (mr_ilo f) /\ bounded 125 (mr_ihi f) /\ bounded 125 (mr_olo f) /\ bounded 125 (mr_ohi f) /\ f_lt (mr_ilo f) (mr_ihi f) = true.
Lemma map_line_val2 f s : map_ok f -> finite s = true -> val (mr_ilo f) <= val s <= val (mr_ihi f) ->
  val (map_line f s) = line (val (mr_ilo f)) (val (mr_ihi f)) (val (mr_olo f)) (val (mr_ohi f)) (val s) /\ finite (map_line f s) = true.
Proof.
  intros (Hil & Hih & Hol & Hoh & HI) Fs Hs. unfold map_line, line.
  assert (Bs : bounded 125 s). { split; [exact Fs|]. destruct Hil as [_ A], Hih as [_ B]. apply Rabs_le_inv in A, B. apply Rabs_le. lra. }
  apply lt_real in HI; [|apply Hil|apply Hih].
  destruct (sub_bounded s (mr_ilo f) 125 ltac:(lia) Bs Hil) as (E1 & F1 & _).
  destruct (sub_bounded (mr_ihi f) (mr_ilo f) 125 ltac:(lia) Hih Hil) as (E2 & F2 & _).
  destruct (sub_bounded (mr_ohi f) (mr_olo f) 125 ltac:(lia) Hoh Hol) as (E3 & F3 & B3).
  assert (D := rnd_sub_pos _ _ (val_fmt (mr_ihi f)) (val_fmt (mr_ilo f)) HI).
  assert (Q := frac_bounds _ _ _ (val_fmt (mr_ilo f)) (val_fmt (mr_ihi f)) HI Hs).
  destruct (div_val (f_sub s (mr_ilo f)) (f_sub (mr_ihi f) (mr_ilo f)) F1 F2) as [E4 F4]. { rewrite E2. lra. }
  { rewrite E1, E2. apply Rle_lt_trans with (bpow radix2 0); [|apply bpow_lt; lia]. apply Rabs_le. change (bpow radix2 0) with 1. lra. }
  rewrite E1, E2 in E4. rewrite E3 in B3. change (125 + 1)%Z with 126%Z in B3.
  set (q := rnd (rnd (val s - val (mr_ilo f)) / rnd (val (mr_ihi f) - val (mr_ilo f)))) in *. set (w := rnd (val (mr_ohi f) - val (mr_olo f))) in *.
  assert (Pq : Rabs (q * w) <= bpow radix2 126). { rewrite Rabs_mult, (Rabs_pos_eq q) by lra. pose proof (Rabs_pos w). nra. }
  destruct (mul_val _ _ F4 F3) as [E5 F5]. { rewrite E4, E3. apply (rnd_small _ 126); [lia|exact Pq]. }
  rewrite E4, E3 in E5.
  assert (Bt : Rabs (rnd (q * w)) <= bpow radix2 126) by (apply rnd_bound; [lia|exact Pq]).
  destruct (add_val (mr_olo f) _ (proj1 Hol) F5) as [E6 F6].
  { rewrite E5. apply (rnd_small _ 127); [lia|]. eapply Rle_trans; [apply Rabs_triang|]. destruct Hol as [_ A].
    assert (bpow radix2 125 <= bpow radix2 126) by (apply bpow_le; lia). change 127%Z with (126 + 1)%Z. rewrite <- bpow_double. lra. }
  rewrite E5 in E6. auto.
Qed.
Lemma line_err M il ih ol oh s : fmt il -> fmt ih -> fmt ol -> fmt oh -> fmt s -> il < ih -> il <= s <= ih -> bpow radix2 (-100) <= M -> Rabs ol <= M -> Rabs oh <= M ->
  Rabs (line il ih ol oh s - (ol + (s - il) / (ih - il) * (oh - ol))) <= bpow radix2 (-20) * M.
Proof.
  intros Fi Fh Fo Fp Fs HI Hs HM Ho Hp. unfold line. pose proof u24_val as Hu. pose proof eta_pos as Ht.
  assert (0 < M) as PM by (pose proof (bpow_gt_0 radix2 (-100)); lra).
  assert (eta <= / 1000 * (u24 * M)) as St. { unfold eta. change (bpow radix2 (-150)) with (bpow radix2 (-50 + -100)). rewrite bpow_plus. apply Rle_trans with (bpow radix2 (-50) * M).
    - apply Rmult_le_compat_l; [apply bpow_ge_0|exact HM]. - rewrite Hu. rewrite <- Rmult_assoc. apply Rmult_le_compat_r; [lra|]. change (bpow radix2 (-50)) with (/ 1125899906842624). lra. }
  assert (bpow radix2 (-20) * M = 16 * (u24 * M)) as -> by (rewrite Hu; change (bpow radix2 (-20)) with (/ 1048576); lra).
  assert (eta <= / 1000 * u24) as Se. { rewrite Hu. apply Rle_trans with (bpow radix2 (-50)); [apply bpow_le; lia|]. change (bpow radix2 (-50)) with (/ 1125899906842624). lra. }
  destruct (sub_rel s il Fs Fi) as (e1 & H1 & E1). destruct (sub_rel ih il Fh Fi) as (e2 & H2 & E2). destruct (sub_rel oh ol Fp Fo) as (e3 & H3 & E3).
  pose proof (frac_bounds il ih s Fi Fh HI Hs) as Q01. set (q := rnd (rnd (s - il) / rnd (ih - il))) in *.
  set (fr := (s - il) / (ih - il)). assert (0 <= fr <= 1) as F01. { unfold fr. split; [apply Rmult_le_pos; [lra|left; apply Rinv_0_lt_compat; lra]|]. apply Rmult_le_reg_r with (ih - il); [lra|]. unfold Rdiv. rewrite Rmult_assoc, Rinv_l by lra. lra. }
  apply Rabs_le_inv in H1, H2, H3.
  assert (Rabs (rnd (s - il) / rnd (ih - il) - fr) <= 3 * u24) as A1.
  { rewrite E1, E2. replace ((s - il) * (1 + e1) / ((ih - il) * (1 + e2)) - fr) with (fr * ((e1 - e2) / (1 + e2))) by (unfold fr; field; split; lra).
    assert (Rabs ((e1 - e2) / (1 + e2)) <= 3 * u24) as A0. { unfold Rdiv. rewrite Rabs_mult. assert (Rabs (/ (1 + e2)) <= 3 / 2) as I2. { rewrite Rabs_pos_eq by (left; apply Rinv_0_lt_compat; lra). replace (3 / 2) with (/ (2 / 3)) by field. apply Rinv_le; lra. }
      replace (3 * u24) with (2 * u24 * (3 / 2)) by field. apply Rmult_le_compat; auto using Rabs_pos. apply Rabs_le. lra. }
    rewrite Rabs_mult, (Rabs_pos_eq fr) by lra. pose proof (Rabs_pos ((e1 - e2) / (1 + e2))). nra. }
  assert (Rabs (q - fr) <= 41 / 10 * u24) as A2.
  { assert (Rabs (rnd (s - il) / rnd (ih - il)) <= 1 + / 1000) as X by (apply Rabs_le_inv in A1; apply Rabs_le; lra). pose proof (rnd_err _ _ X) as Y. fold q in Y. apply Rabs_le_inv in A1, Y. apply Rabs_le. lra. }
  rewrite E3. set (W := oh - ol). assert (Rabs W <= 2 * M) as BW by (unfold W; apply Rabs_le_inv in Ho, Hp; apply Rabs_le; lra).
  set (ub := u24 * M) in *. assert (0 <= ub) as P0 by (unfold ub; apply Rmult_le_pos; lra). assert (ub <= / 1000 * M) as Ub by (unfold ub; apply Rmult_le_compat_r; lra).
  assert (Rabs (W * (1 + e3)) <= 2 * M * (1001 / 1000)) as BW3. { rewrite Rabs_mult. apply Rmult_le_compat; auto using Rabs_pos. apply Rabs_le. lra. }
  assert (Rabs (q * (W * (1 + e3)) - fr * W) <= 41 / 10 * u24 * (2 * M * (1001 / 1000)) + 2 * ub) as A3.
  { replace (q * (W * (1 + e3)) - fr * W) with ((q - fr) * (W * (1 + e3)) + fr * (e3 * W)) by ring. eapply Rle_trans; [apply Rabs_triang|]. apply Rplus_le_compat.
    - rewrite Rabs_mult. apply Rmult_le_compat; auto using Rabs_pos.
    - rewrite !Rabs_mult, (Rabs_pos_eq fr) by lra. assert (Rabs e3 * Rabs W <= 2 * ub) as X. { replace (2 * ub) with (u24 * (2 * M)) by (unfold ub; ring). apply Rmult_le_compat; auto using Rabs_pos. apply Rabs_le. lra. }
      pose proof (Rmult_le_pos _ _ (Rabs_pos e3) (Rabs_pos W)). nra. }
  replace (41 / 10 * u24 * (2 * M * (1001 / 1000))) with (8208200 / 1000000 * ub) in A3 by (unfold ub; field).
  assert (Rabs (q * (W * (1 + e3))) <= 2 * M * (1001 / 1000)) as B4. { rewrite Rabs_mult, (Rabs_pos_eq q) by lra. pose proof (Rabs_pos (W * (1 + e3))). nra. }
  pose proof (rnd_err _ _ B4) as A4. replace (u24 * (2 * M * (1001 / 1000))) with (2002 / 1000 * ub) in A4 by (unfold ub; field). set (p := rnd (q * (W * (1 + e3)))) in *.
  apply Rabs_le_inv in A3, A4.
  assert (Rabs (ol + fr * W) <= M) as L0. { unfold W. replace (ol + fr * (oh - ol)) with ((1 - fr) * ol + fr * oh) by ring. apply Rabs_le_inv in Ho, Hp. apply Rabs_le. nra. }
  apply Rabs_le_inv in L0. assert (Rabs (ol + p) <= 11 / 10 * M) as B5 by (apply Rabs_le; lra).
  pose proof (rnd_err _ _ B5) as A5. replace (u24 * (11 / 10 * M)) with (11 / 10 * ub) in A5 by (unfold ub; field). apply Rabs_le_inv in A5. apply Rabs_le. lra.
Qed.
Lemma eff_val f s : map_ok f -> f_isnan s = false -> finite (eff f s) = true /\ (finite s = true -> val (eff f s) = Rmax (val (mr_ilo f)) (Rmin (val (mr_ihi f)) (val s))) /\
  val (mr_ilo f) <= val (eff f s) <= val (mr_ihi f).
Proof.
  intros (Hil & Hih & _ & _ & HI) Ns. apply lt_real in HI; [|apply Hil|apply Hih].
  pose proof (key_lt s (mr_ilo f) Ns (finite_nan _ (proj1 Hil))) as K1. pose proof (key_lt (mr_ihi f) s (finite_nan _ (proj1 Hih)) Ns) as K2. rewrite (key_fin _ (proj1 Hil)) in K1. rewrite (key_fin _ (proj1 Hih)) in K2.
  unfold eff, std_clamp. change (f_gt s (mr_ihi f)) with (f_lt (mr_ihi f) s). destruct (f_lt s (mr_ilo f)) eqn:C1; cbn [orb].
  - assert (key s < val (mr_ilo f)) as X by (apply K1; reflexivity). split; [apply Hil|]. split; [|lra]. intros Fs. rewrite (key_fin _ Fs) in X. rewrite Rmax_left; [reflexivity|]. eapply Rle_trans; [apply Rmin_r|lra].
  - assert (val (mr_ilo f) <= key s) as X. { destruct (Rle_or_lt (val (mr_ilo f)) (key s)) as [L|L]; [exact L|]. apply K1 in L. discriminate. }
    destruct (f_lt (mr_ihi f) s) eqn:C2.
    + assert (val (mr_ihi f) < key s) as Y by (apply K2; reflexivity). split; [apply Hih|]. split; [|lra]. intros Fs. rewrite (key_fin _ Fs) in Y. rewrite Rmin_left by lra. rewrite Rmax_right by lra. reflexivity.
    + assert (key s <= val (mr_ihi f)) as Y. { destruct (Rle_or_lt (key s) (val (mr_ihi f))) as [L|L]; [exact L|]. apply K2 in L. discriminate. }
      assert (finite s = true) as Fs. { assert (B1 := val_big (mr_ilo f)). assert (B2 := val_big (mr_ihi f)). apply Rabs_lt_inv in B1, B2. destruct s as [|[|]| |]; try reflexivity; try discriminate Ns; cbn [key] in *; lra. }
      rewrite (key_fin _ Fs) in X, Y. split; [exact Fs|]. split; [|lra]. intros _. rewrite Rmin_right by lra. rewrite Rmax_right by lra. reflexivity.
Qed.
Lemma mapped_right M f s : map_ok f -> bpow radix2 (-100) <= M -> Rabs (val (mr_olo f)) <= M -> Rabs (val (mr_ohi f)) <= M -> finite s = true -> mr_throw f = false \/ val (mr_ilo f) <= val s <= val (mr_ihi f) ->
  exists y f', mapped_value s f = Ok (y, f') /\ finite y = true /\
    Rabs (val y - straight (val (mr_ilo f)) (val (mr_ihi f)) (val (mr_olo f)) (val (mr_ohi f)) (val s)) <= bpow radix2 (-20) * M.
Proof.
  intros Ok HM Ho Hh Fs T. assert (exists f', mapped_value s f = Base.Ok (map_line f (eff f s), f')) as [f' E].
  { destruct T as [T|T]; [exact (mapped_value_eff s f T)|]. destruct Ok as (Hil & Hih & _). unfold mapped_value, eff. change (f_gt s (mr_ihi f)) with (f_lt (mr_ihi f) s). rewrite !lt_val by (assumption || apply Hil || apply Hih).
    rewrite !Rlt_bool_false by lra. cbn [orb andb]. eexists. reflexivity. } destruct (eff_val f s Ok (finite_nan _ Fs)) as (Fe & Ve & Re).
  destruct (map_line_val2 f (eff f s) Ok Fe Re) as [V F]. exists (map_line f (eff f s)), f'. split; [exact E|]. split; [exact F|]. rewrite V. unfold straight. rewrite <- (Ve Fs).
  destruct Ok as (Hil & Hih & _ & _ & HI). apply lt_real in HI; [|apply Hil|apply Hih]. apply line_err; auto using val_fmt.
Qed.
(** ** The inversion *)
Lemma invert_right dbg M lo hi v s : bounded 125 lo -> bounded 125 hi -> Rabs (val lo) <= M -> Rabs (val hi) <= M -> f_le lo s = true -> f_le s hi = true ->
  exists y f', invert_value dbg s (mkInv lo hi v) = Ok (y, f') /\ finite y = true /\ Rabs (val y - (val hi + val lo - val s)) <= bpow radix2 (-22) * M.
Proof.
  intros Hl Hu Bl Bu H1 H2. rewrite invert_ok by assumption. exists (f_sub hi (f_sub s lo)), (mkInv lo hi (f_sub hi (f_sub s lo))). split; [reflexivity|].
  destruct (le_nan _ _ H1) as [_ Ns]. assert (K1 := proj1 (key_le lo s (finite_nan _ (proj1 Hl)) Ns) H1). assert (K2 := proj1 (key_le s hi Ns (finite_nan _ (proj1 Hu))) H2).
  rewrite (key_fin lo (proj1 Hl)) in K1. rewrite (key_fin hi (proj1 Hu)) in K2.
  assert (Fs : finite s = true). { assert (B1 := val_big lo). assert (B2 := val_big hi). apply Rabs_lt_inv in B1, B2. destruct s as [|[|]| |]; try reflexivity; try discriminate Ns; cbn [key] in *; lra. }
  rewrite (key_fin s Fs) in K1, K2. assert (Bs : bounded 125 s). { split; [exact Fs|]. destruct Hl as [_ A], Hu as [_ B]. apply Rabs_le_inv in A, B. apply Rabs_le. lra. }
  destruct (sub_bounded s lo 125 ltac:(lia) Bs Hl) as (E1 & F1 & B1). assert (bounded 126 (f_sub s lo)) as Bd by (split; [exact F1|exact B1]).
  assert (bounded 126 hi) as Bh. { destruct Hu as [Fu Bu']. split; [exact Fu|]. eapply Rle_trans; [exact Bu'|]. apply bpow_le. lia. }
  destruct (sub_val hi (f_sub s lo) (proj1 Bh) F1) as [E2 F2].
  { apply (rnd_small _ 127); [lia|]. eapply Rle_trans; [apply Rabs_triang|]. rewrite Rabs_Ropp. change 127%Z with (126 + 1)%Z. rewrite <- bpow_double. pose proof (proj2 Bh). pose proof (proj2 Bd). lra. }
  split; [exact F2|]. rewrite E2.
  destruct (sub_rel (val hi) (val (f_sub s lo)) (val_fmt _) (val_fmt _)) as (e2 & A2 & R2). rewrite R2, E1.
  destruct (sub_rel (val s) (val lo) (val_fmt _) (val_fmt _)) as (e1 & A1 & R1). rewrite R1. pose proof u24_val as Hu24.
  assert (bpow radix2 (-22) * M = 4 * (u24 * M)) as -> by (rewrite Hu24; change (bpow radix2 (-22)) with (/ 4194304); lra).
  assert (0 <= M) as PM by (pose proof (Rabs_pos (val lo)); lra). apply Rabs_le_inv in Bl, Bu.
  assert (Rabs (e1 * (val s - val lo)) <= 2 * (u24 * M)) as X1. { rewrite Rabs_mult. replace (2 * (u24 * M)) with (u24 * (2 * M)) by ring. apply Rmult_le_compat; auto using Rabs_pos. apply Rabs_le. lra. }
  assert (u24 * M <= / 1000 * M) as Ub by (apply Rmult_le_compat_r; lra). apply Rabs_le_inv in X1.
  assert (Rabs (e2 * (val hi - (val s - val lo) * (1 + e1))) <= 11 / 10 * (u24 * M)) as X2.
  { rewrite Rabs_mult. replace (11 / 10 * (u24 * M)) with (u24 * (11 / 10 * M)) by ring. apply Rmult_le_compat; auto using Rabs_pos. apply Rabs_le. lra. }
  apply Rabs_le_inv in X2. apply Rabs_le. lra.
Qed.
