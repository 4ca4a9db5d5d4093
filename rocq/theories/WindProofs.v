(** Lemmas about lasting deviations and limits of the PID controller. *)
From Coq Require Import ZArith Lia Bool List Reals Lra.
From Flocq Require Import Core IEEE754.BinarySingleNaN.
From Verif Require Import Base KTimeModel FloatModel FloatFacts PidModel PidSpec PidProofs LawSpec LawProofs WindSpec.
Import ListNotations.
Open Scope Z_scope.

(** ** On integers *)
Lemma run_wound T p P I D lo hi M ss : (Z.abs P * (2 * M) <= 2 ^ 21) -> (Z.abs I * (2 * M) <= 2 ^ 21) -> (Z.abs D * (2 * M) <= 2 ^ 21) -> (Z.abs lo <= 2 ^ 22) -> (Z.abs hi <= 2 ^ 22) -> (lo <= hi) -> (M <= 2 ^ 22) ->
  Forall (fun q : Z * (Z * Z) => Z.abs (fst (snd q)) <= M /\ Z.abs (snd (snd q)) <= M) ss -> forall i l o lt, lo <= i <= hi -> Z.abs l <= M ->
  Forall (fun r => fst r = true) (runR T p (IZR P) (IZR I) (IZR D) (IZR lo) (IZR hi) (map realsZ ss) (IZR i, IZR l, o, lt)) ->
  map snd (runR T p (IZR P) (IZR I) (IZR D) (IZR lo) (IZR hi) (map realsZ ss) (IZR i, IZR l, o, lt)) = map IZR (lawsZ p P I D lo hi (i, l) (map snd ss)).
Proof.
  intros BP BI BD Bl Bh L BM F. induction F as [|[now [s x]] ss [B1 B2] F IH]; intros i l o lt Hi Hl Tk; [reflexivity|].
  cbn [fst snd] in B1, B2. cbn [map realsZ fst snd runR stepR lawsZ wound] in Tk |- *.
  destruct (kge _ _ _ _); [|cbn [fst snd] in Tk; inversion Tk; discriminate]. cbn [fst snd] in Tk |- *.
  rewrite (sumR_Z p P I _ _ _ _ M), clampZ in Tk |- * by (assumption || lia). set (i' := limitZ lo hi _) in *.
  assert (Hi' : lo <= i' <= hi) by (unfold i', limitZ; lia).
  rewrite (outR_Z p P D _ _ _ _ M), clampZ in Tk |- * by (assumption || lia). cbn [map snd]. inversion Tk as [|? ? _ Tk']; subst.
  f_equal. apply IH; assumption.
Qed.
Lemma whole_outputs dbg now0 d Kp Ki Kd p lo hi u x0 M vc ss : whole dbg now0 d Kp Ki Kd p lo hi u x0 M vc ss ->
  map (fun r => num (snd r)) (outputs (map floats ss) vc) = map IZR (lawsZ p (sgn d * Kp) (sgn d * Ki) (sgn d * Kd) lo hi (limitZ lo hi u, x0) (map snd ss)).
Proof.
  intros [(P0 & I0 & D0) (HM & BP & BI & BD) (Hl & Hh & Hu) (Hx & F) R1 Tk].
  assert (Kp <= 2 ^ 24)%Z by nia. assert (Ki <= 2 ^ 24)%Z by nia. assert (Kd <= 2 ^ 24)%Z by nia.
  assert (moderate (f_ofZ lo)) as Ml by (apply mod_Z; lia). assert (moderate (f_ofZ hi)) as Mh by (apply mod_Z; lia). assert (moderate (f_ofZ u)) as Mu by (apply mod_Z; lia). assert (moderate (f_ofZ x0)) as Mx by (apply mod_Z; lia).
  destruct (ofZ_exact lo) as [Vl _]; [lia|]. destruct (ofZ_exact hi) as [Vh _]; [lia|]. destruct (ofZ_exact u) as [Vu _]; [lia|]. destruct (ofZ_exact x0) as [Vx _]; [lia|].
  assert (f_lt (f_ofZ lo) (f_ofZ hi) = true) as Lt. { rewrite lt_val by (apply Ml || apply Mh). rewrite Vl, Vh. apply Rlt_bool_true, IZR_lt. lia. }
  pose proof (setup_sim _ _ _ 1000 _ _ _ _ _ _ _ _ _ ltac:(lia) (gain_Z Kp ltac:(lia)) (gain_Z Ki ltac:(lia)) (gain_Z Kd ltac:(lia)) Ml Mh Mu Mx Lt R1) as S0.
  destruct (gains_one Kp Ki Kd) as (-> & -> & ->) in S0; try lia.
  assert (Forall moderate_sample (map floats ss)) as Ms. { apply Forall_map. eapply Forall_impl; [|exact F]. intros [t [a b]] [A B]. cbn [fst snd] in A, B. split; apply mod_Z; cbn [fst snd]; lia. }
  pose proof (run_sim _ _ _ _ _ _ _ _ Ml Mh (limits_le _ _ Ml Mh Lt) _ _ S0 Ms) as Er.
  rewrite !sgn_R, Vl, Vh, Vu, Vx, clampZ in Er by lia.
  assert (map reals (map floats ss) = map realsZ ss) as Em.
  { rewrite map_map. apply map_ext_in. intros [t [a b]] Hin. rewrite Forall_forall in F. specialize (F _ Hin). cbn [fst snd] in F. unfold reals, floats, realsZ. cbn [fst snd]. rewrite (proj1 (ofZ_exact a ltac:(lia))), (proj1 (ofZ_exact b ltac:(lia))). reflexivity. }
  rewrite Em in Er.
  assert (Forall (fun r : bool * R => fst r = true) (map (fun q => (fst q, val (snd q))) (outputs (map floats ss) vc))) as Tk' by (apply Forall_map; exact Tk).
  rewrite Er in Tk'.
  rewrite <- (run_wound 1000 p (sgn d * Kp) (sgn d * Ki) (sgn d * Kd) lo hi M ss ltac:(rewrite abs_sgn; assumption) ltac:(rewrite abs_sgn; assumption) ltac:(rewrite abs_sgn; assumption) ltac:(lia) ltac:(lia) ltac:(lia) ltac:(lia) F (limitZ lo hi u) x0 _ _ ltac:(unfold limitZ; lia) Hx Tk').
  rewrite <- Er, map_map. reflexivity.
Qed.
Lemma whole_nth dbg now0 d Kp Ki Kd p lo hi u x0 M vc ss n : whole dbg now0 d Kp Ki Kd p lo hi u x0 M vc ss -> (n < length ss)%nat ->
  exists o y, nth_error (outputs (map floats ss) vc) n = Some (true, o) /\ nth_error (lawsZ p (sgn d * Kp) (sgn d * Ki) (sgn d * Kd) lo hi (limitZ lo hi u, x0) (map snd ss)) n = Some y /\ num o = IZR y.
Proof.
  intros W Hn. pose proof (whole_outputs _ _ _ _ _ _ _ _ _ _ _ _ _ _ W) as E.
  assert (Ll : forall m qs, length (lawsZ p (sgn d * Kp) (sgn d * Ki) (sgn d * Kd) lo hi m qs) = length qs).
  { intros m qs. revert m. induction qs as [|[s x] qs IH]; intros m; cbn [lawsZ length]; [reflexivity|]. rewrite IH. reflexivity. }
  destruct (nth_error (lawsZ p (sgn d * Kp) (sgn d * Ki) (sgn d * Kd) lo hi (limitZ lo hi u, x0) (map snd ss)) n) as [y|] eqn:Ey; [|apply nth_error_None in Ey; rewrite Ll, map_length in Ey; lia].
  assert (E2 := f_equal (fun l => nth_error l n) E). cbv beta in E2. rewrite !nth_error_map, Ey in E2. cbn [option_map] in E2. destruct (nth_error (outputs (map floats ss) vc) n) as [[b o]|] eqn:Eo; [|discriminate].
  cbn [option_map snd] in E2. exists o, y. pose proof (whole_taken _ _ _ _ _ _ _ _ _ _ _ _ _ _ W) as Tk. rewrite Forall_forall in Tk. specialize (Tk _ (nth_error_In _ _ Eo)). cbn [fst] in Tk. subst b.
  split; [reflexivity|]. split; [reflexivity|]. congruence.
Qed.

(** A deviation that lasts: the integral term grows until it is at the limit. *)
Lemma laws_lasting p P I D lo hi s x n : lo <= hi -> 0 <= P * (s - x) -> 0 <= I * (s - x) -> forall i k y, lo <= i <= hi ->
  nth_error (lawsZ p P I D lo hi (i, x) (repeat (s, x) n)) k = Some y ->
  y = Z.min hi ((match p with OnError => P * (s - x) | OnMeasurement => 0 end) + Z.min hi (i + (Z.of_nat k + 1) * (I * (s - x)))).
Proof.
  intros L HP HI. induction n as [|n IH]; intros i k y Hi E; [destruct k; discriminate|]. cbn [repeat lawsZ wound fst snd] in E.
  rewrite !Z.sub_diag, !Z.mul_0_r in E. assert (Ei : limitZ lo hi (i + I * (s - x) - match p with OnMeasurement => 0 | OnError => 0 end) = Z.min hi (i + I * (s - x))) by (unfold limitZ; destruct p; lia).
  rewrite Ei in E. destruct k as [|k]; cbn [nth_error] in E.
  - assert (y = limitZ lo hi (match p with OnError => P * (s - x) | OnMeasurement => 0 end + Z.min hi (i + I * (s - x)) - 0)) as -> by congruence. unfold limitZ. destruct p; lia.
  - apply IH in E; [|lia]. rewrite E. rewrite Nat2Z.inj_succ. destruct p; nia.
Qed.
Lemma last_indep {T} (l : list T) a b : l <> [] -> last l a = last l b.
Proof. induction l as [|x [|y l] IH]; intros H; [congruence|reflexivity|]. apply IH. discriminate. Qed.
(** The response to a sample beyond the setpoint, whatever happened before *)
Lemma laws_back p P I D lo hi : lo <= hi -> forall ss s x m y, lo <= fst m <= hi ->
  nth_error (lawsZ p P I D lo hi m (ss ++ [(s, x)])) (length ss) = Some y -> P * (s - x) <= 0 -> 0 <= P * (x - last (map snd ss) (snd m)) -> 0 <= D * (x - last (map snd ss) (snd m)) ->
  y <= Z.max lo (hi + I * (s - x)).
Proof.
  intros L. induction ss as [|[s1 x1] ss IH]; intros s x [i l] y Hi E HP HP' HD; cbn [app lawsZ wound length nth_error fst snd map] in *.
  - cbn [last] in *. assert (y = limitZ lo hi (match p with OnError => P * (s - x) | OnMeasurement => 0 end + limitZ lo hi (i + I * (s - x) - match p with OnMeasurement => P * (x - l) | OnError => 0 end) - D * (x - l))) as -> by congruence.
    unfold limitZ. destruct p; lia.
  - eapply (IH s x _ y); [|exact E|exact HP| |]; cbn [fst snd].
    + unfold limitZ. lia.
    + destruct ss as [|q ss]; [exact HP'|]. cbn [map] in *. rewrite (last_indep _ x1 l) by discriminate. exact HP'.
    + destruct ss as [|q ss]; [exact HD|]. cbn [map] in *. rewrite (last_indep _ x1 l) by discriminate. exact HD.
Qed.
(** The same at the lower limit *)
Lemma laws_lasting_low p P I D lo hi s x n : lo <= hi -> P * (s - x) <= 0 -> I * (s - x) <= 0 -> forall i k y, lo <= i <= hi ->
  nth_error (lawsZ p P I D lo hi (i, x) (repeat (s, x) n)) k = Some y ->
  y = Z.max lo ((match p with OnError => P * (s - x) | OnMeasurement => 0 end) + Z.max lo (i + (Z.of_nat k + 1) * (I * (s - x)))).
Proof.
  intros L HP HI. induction n as [|n IH]; intros i k y Hi E; [destruct k; discriminate|]. cbn [repeat lawsZ wound fst snd] in E.
  rewrite !Z.sub_diag, !Z.mul_0_r in E. assert (Ei : limitZ lo hi (i + I * (s - x) - match p with OnMeasurement => 0 | OnError => 0 end) = Z.max lo (i + I * (s - x))) by (unfold limitZ; destruct p; lia).
  rewrite Ei in E. destruct k as [|k]; cbn [nth_error] in E.
  - assert (y = limitZ lo hi (match p with OnError => P * (s - x) | OnMeasurement => 0 end + Z.max lo (i + I * (s - x)) - 0)) as -> by congruence. unfold limitZ. destruct p; lia.
  - apply IH in E; [|lia]. rewrite E. rewrite Nat2Z.inj_succ. destruct p; nia.
Qed.
Lemma laws_back_low p P I D lo hi : lo <= hi -> forall ss s x m y, lo <= fst m <= hi ->
  nth_error (lawsZ p P I D lo hi m (ss ++ [(s, x)])) (length ss) = Some y -> 0 <= P * (s - x) -> P * (x - last (map snd ss) (snd m)) <= 0 -> D * (x - last (map snd ss) (snd m)) <= 0 ->
  Z.min hi (lo + I * (s - x)) <= y.
Proof.
  intros L. induction ss as [|[s1 x1] ss IH]; intros s x [i l] y Hi E HP HP' HD; cbn [app lawsZ wound length nth_error fst snd map] in *.
  - cbn [last] in *. assert (y = limitZ lo hi (match p with OnError => P * (s - x) | OnMeasurement => 0 end + limitZ lo hi (i + I * (s - x) - match p with OnMeasurement => P * (x - l) | OnError => 0 end) - D * (x - l))) as -> by congruence.
    unfold limitZ. destruct p; lia.
  - eapply (IH s x _ y); [|exact E|exact HP| |]; cbn [fst snd].
    + unfold limitZ. lia.
    + destruct ss as [|q ss]; [exact HP'|]. cbn [map] in *. rewrite (last_indep _ x1 l) by discriminate. exact HP'.
    + destruct ss as [|q ss]; [exact HD|]. cbn [map] in *. rewrite (last_indep _ x1 l) by discriminate. exact HD.
Qed.

(** ** In single precision *)
Open Scope R_scope.
Section Float.
Variables (T : Z) (p : proportionality) (P I D lo hi s x : R).
Hypothesis L : lo <= hi.
Hypothesis HP : 0 <= P.
Hypothesis HI : 0 <= I.
Hypothesis Hs : x <= s.
Let f (i : R) : R := clampR lo hi (sumR p P I i x s x).
Let g (i : R) : R := clampR lo hi (outR p P D i x s x).
Lemma f_mono i j : i <= j -> f i <= f j.
Proof. intros H. unfold f, sumR. apply clampR_mono; [exact L|]. destruct p; repeat apply rnd_le; try apply Rplus_le_compat_r; try apply rnd_le; lra. Qed.
Lemma g_mono i j : i <= j -> g i <= g j.
Proof. intros H. unfold g, outR. apply clampR_mono; [exact L|]. apply rnd_le. apply Rplus_le_compat_l. apply rnd_le. lra. Qed.
Lemma push_run : forall ts i o lt, i <= f i -> o <= g (f i) ->
  rising o (map snd (runR T p P I D lo hi (map (fun t => (t, s, x)) ts) (i, x, o, lt))).
Proof.
  induction ts as [|t ts IH]; intros i o lt Hi Ho; [exact Logic.I|].
  cbn [map runR stepR]. destruct (kge _ _ _ _); cbn [fst snd map rising].
  - fold (f i). fold (g (f i)). split; [exact Ho|]. apply IH; [apply f_mono; exact Hi|]. apply g_mono, f_mono. exact Hi.
  - split; [apply Rle_refl|]. apply IH; auto.
Qed.
Lemma push_start u : fmt u -> lo <= u <= hi -> u <= f u /\ u <= g (f u).
Proof.
  intros Fu Hu. assert (Hc : 0 <= rnd (I * rnd (s - x))). { rewrite <- rnd_0. apply rnd_le. apply Rmult_le_pos; [exact HI|]. rewrite <- rnd_0. apply rnd_le. lra. }
  assert (Hp : 0 <= rnd (P * rnd (s - x))). { rewrite <- rnd_0. apply rnd_le. apply Rmult_le_pos; [exact HP|]. rewrite <- rnd_0. apply rnd_le. lra. }
  assert (Ha : forall c, 0 <= c -> u <= rnd (u + c)). { intros c H. rewrite <- (rnd_id u Fu) at 1. apply rnd_le. lra. }
  assert (Hz : rnd (P * rnd (x - x)) = 0). { replace (x - x) with 0 by lra. rewrite rnd_0, Rmult_0_r. apply rnd_0. }
  assert (Hd : rnd (D * rnd (x - x)) = 0). { replace (x - x) with 0 by lra. rewrite rnd_0, Rmult_0_r. apply rnd_0. }
  assert (Hf : u <= f u).
  { unfold f, sumR. rewrite <- (clampR_id lo hi u Hu) at 1. apply clampR_mono; [exact L|]. destruct p; [|apply Ha; exact Hc]. rewrite Hz. rewrite <- (rnd_id u Fu) at 1. apply rnd_le. specialize (Ha _ Hc). lra. }
  split; [exact Hf|]. unfold g, outR. rewrite <- (clampR_id lo hi u Hu) at 1. apply clampR_mono; [exact L|]. rewrite Hd.
  assert (Hr : u <= rnd (f u - 0)). { rewrite <- (rnd_id u Fu) at 1. apply rnd_le. lra. }
  rewrite <- (rnd_id u Fu) at 1. apply rnd_le. destruct p; lra.
Qed.
End Float.

Lemma push_right dbg now0 T Kp Ki Kd p lo hi u x s vc ts :
  (1 <= T <= 2 ^ 24)%Z -> gain Kp -> gain Ki -> gain Kd -> moderate lo -> moderate hi -> moderate u -> moderate x -> moderate s -> f_lt lo hi = true -> f_le lo u = true -> f_le u hi = true -> f_le x s = true ->
  ready dbg now0 Forward (setup T Kp Ki Kd p lo hi u x) vc ->
  rising (num u) (map (fun r => num (snd r)) (outputs (map (fun t => (t, s, x)) ts) vc)).
Proof.
  intros HT Gp Gi Gd Ml Mh Mu Mx Ms Hl Hu1 Hu2 Hs R1. pose proof (setup_sim _ _ _ _ _ _ _ _ _ _ _ _ _ HT Gp Gi Gd Ml Mh Mu Mx Hl R1) as S1.
  pose proof (limits_le _ _ Ml Mh Hl) as L. destruct (gains_pos T Kp Ki Kd HT Gp Gi Gd) as (HP & HI & HD).
  rewrite le_val in Hu1 by (apply Ml || apply Mu). rewrite le_val in Hu2 by (apply Mu || apply Mh). rewrite le_val in Hs by (apply Mx || apply Ms).
  assert (Hu : val lo <= val u <= val hi) by (destruct (Rle_bool_spec (val lo) (val u)); [|discriminate]; destruct (Rle_bool_spec (val u) (val hi)); [|discriminate]; split; assumption).
  assert (Hxs : val x <= val s) by (destruct (Rle_bool_spec (val x) (val s)); [assumption|discriminate]).
  assert (M : Forall moderate_sample (map (fun t => (t, s, x)) ts)) by (apply Forall_map, Forall_forall; intros t _; split; assumption).
  pose proof (run_sim _ _ _ _ _ _ _ _ Ml Mh L _ _ S1 M) as Er. cbn [sR] in Er. rewrite !Rmult_1_l, (clampR_id _ _ _ Hu) in Er.
  assert (map (fun r : bool * float => num (snd r)) (outputs (map (fun t => (t, s, x)) ts) vc) = map snd (map (fun q : bool * float => (fst q, val (snd q))) (outputs (map (fun t => (t, s, x)) ts) vc))) as -> by (rewrite map_map; reflexivity).
  rewrite Er, map_map. change (map (fun t : Z => reals (t, s, x)) ts) with (map (fun t => (t, val s, val x)) ts).
  destruct (push_start p (gPR T Kp Ki Kd) (gIR T Kp Ki Kd) (gDR T Kp Ki Kd) (val lo) (val hi) (val s) (val x) L HP HI Hxs (val u) (val_fmt u) Hu) as [A B].
  apply (push_run T p); [exact L|exact A|exact B].
Qed.

(** However long the output was at a limit *)
Lemma after_run T p P I D lo hi : lo <= hi -> forall ss rr i l o lt, lo <= i <= hi -> Forall (fun r => fst r = true) (runR T p P I D lo hi (ss ++ rr) (i, l, o, lt)) ->
  exists i' o' lt', lo <= i' <= hi /\ skipn (length ss) (runR T p P I D lo hi (ss ++ rr) (i, l, o, lt)) = runR T p P I D lo hi rr (i', last (map snd ss) l, o', lt').
Proof.
  intros L. induction ss as [|[[n s] x] ss IH]; intros rr i l o lt Hi Tk; [exists i, o, lt; split; [exact Hi|reflexivity]|].
  cbn [app runR stepR length map snd] in *. destruct (kge _ _ _ _); [|cbn [fst] in Tk; inversion Tk; discriminate]. cbn [fst snd skipn] in *. inversion Tk as [|? ? _ Tk']; subst.
  destruct (IH rr _ _ _ _ (clampR_range lo hi (sumR p P I i l s x) L) Tk') as (i' & o' & lt' & Hi' & E). exists i', o', lt'. split; [exact Hi'|].
  rewrite E. destruct ss as [|q ss]; [reflexivity|]. cbn [map]. change (last (x :: snd q :: map snd ss) l) with (last (snd q :: map snd ss) l). rewrite (last_indep _ x l) by discriminate. reflexivity.
Qed.
Lemma below_run T p P I D lo hi : 0 <= P -> 0 <= I -> 0 <= D -> lo <= hi -> forall rr i j l o o' lt lt', i <= j ->
  Forall (fun r => fst r = true) (runR T p P I D lo hi rr (i, l, o, lt)) -> Forall (fun r => fst r = true) (runR T p P I D lo hi rr (j, l, o', lt')) ->
  Forall2 (fun a b => snd a <= snd b) (runR T p P I D lo hi rr (i, l, o, lt)) (runR T p P I D lo hi rr (j, l, o', lt')).
Proof.
  intros HP HI HD L. induction rr as [|[[n s] x] rr IH]; intros i j l o o' lt lt' Hij Ta Tb; [constructor|]. cbn [runR stepR] in *.
  destruct (kge MS MS (ksub MS MS n lt) T); [|cbn [fst] in Ta; inversion Ta; discriminate]. destruct (kge MS MS (ksub MS MS n lt') T); [|cbn [fst] in Tb; inversion Tb; discriminate].
  cbn [fst snd] in *. inversion Ta as [|? ? _ Ta']; inversion Tb as [|? ? _ Tb']; subst. assert (x <= x /\ s <= s) as [Hx Hs] by lra.
  constructor; [|apply IH; auto]; cbn [snd].
  - apply clampR_mono; [assumption|]. apply out_mono; auto. apply clampR_mono; [assumption|]. now apply sum_mono.
  - apply clampR_mono; [assumption|]. now apply sum_mono.
Qed.
Lemma unwound_right dbg dbg' now0 now1 T Kp Ki Kd p lo hi u x vc vc' ss rr :
  (1 <= T <= 2 ^ 24)%Z -> gain Kp -> gain Ki -> gain Kd -> moderate lo -> moderate hi -> moderate u -> moderate x -> f_lt lo hi = true ->
  ready dbg now0 Forward (setup T Kp Ki Kd p lo hi u x) vc -> ready dbg' now1 Forward (setup T Kp Ki Kd p lo hi hi (last (map snd ss) x)) vc' ->
  Forall moderate_sample (ss ++ rr) -> Forall (fun r => fst r = true) (outputs (ss ++ rr) vc) -> Forall (fun r => fst r = true) (outputs rr vc') ->
  Forall2 (fun a b => num (snd a) <= num (snd b)) (skipn (length ss) (outputs (ss ++ rr) vc)) (outputs rr vc').
Proof.
  intros HT Gp Gi Gd Ml Mh Mu Mx Hl R1 R2 M Ta Tb.
  assert (Mr : Forall moderate_sample rr) by (apply Forall_app in M; apply M).
  assert (Mx' : moderate (last (map snd ss) x)).
  { apply Forall_app in M. destruct M as [M _]. clear - M Mx. revert x Mx. induction M as [|q ss [_ Mq] M IH]; intros x Mx; [exact Mx|]. cbn [map]. destruct ss as [|q' ss]; [exact Mq|].
    cbn [map] in *. change (last (snd q :: snd q' :: map snd ss) x) with (last (snd q' :: map snd ss) x). apply IH. exact Mx. }
  pose proof (setup_sim _ _ _ _ _ _ _ _ _ _ _ _ _ HT Gp Gi Gd Ml Mh Mu Mx Hl R1) as S1. pose proof (setup_sim _ _ _ _ _ _ _ _ _ _ _ _ _ HT Gp Gi Gd Ml Mh Mh Mx' Hl R2) as S2.
  pose proof (limits_le _ _ Ml Mh Hl) as L. destruct (gains_pos T Kp Ki Kd HT Gp Gi Gd) as (HP & HI & HD).
  pose proof (run_sim _ _ _ _ _ _ _ _ Ml Mh L _ _ S1 M) as E1. pose proof (run_sim _ _ _ _ _ _ _ _ Ml Mh L _ _ S2 Mr) as E2. cbn [sR] in E1, E2. rewrite !Rmult_1_l in E1, E2. rewrite map_app in E1.
  assert (Ta' : Forall (fun r : bool * R => fst r = true) (map (fun q => (fst q, val (snd q))) (outputs (ss ++ rr) vc))) by (apply Forall_map; exact Ta). rewrite E1 in Ta'.
  assert (Tb' : Forall (fun r : bool * R => fst r = true) (map (fun q => (fst q, val (snd q))) (outputs rr vc'))) by (apply Forall_map; exact Tb). rewrite E2 in Tb'.
  destruct (after_run _ _ _ _ _ _ _ L _ _ _ _ _ _ (clampR_range _ _ _ L) Ta') as (i' & o' & lt' & Hi' & Es). rewrite map_length, <- E1, skipn_map in Es.
  assert (El : last (map snd (map reals ss)) (val x) = val (last (map snd ss) x)).
  { rewrite map_map. cbn [reals snd]. clear. revert x. induction ss as [|q [|q' ss] IH]; intros x; [reflexivity|reflexivity|]. exact (IH x). }
  rewrite El in Es. rewrite (clampR_id _ _ (val hi)) in E2, Tb' by (split; [exact L|apply Rle_refl]).
  assert (G : Forall2 (fun a b => snd a <= snd b) (map (fun q : bool * float => (fst q, val (snd q))) (skipn (length ss) (outputs (ss ++ rr) vc))) (map (fun q : bool * float => (fst q, val (snd q))) (outputs rr vc'))).
  { rewrite E2, Es. apply below_run; auto; [apply Hi'|]. rewrite <- Es. rewrite <- E1 in Ta'. rewrite <- skipn_map. apply Forall_forall. intros r Hr. rewrite Forall_forall in Ta'. apply Ta'.
    rewrite <- (firstn_skipn (length ss) (map _ _)). apply in_or_app. right. exact Hr. }
  revert G. generalize (skipn (length ss) (outputs (ss ++ rr) vc)) (outputs rr vc'). clear. intros l l'. revert l'. induction l as [|a l IH]; intros [|b l'] G; cbn [map] in G; inversion G; subst; constructor; auto.
Qed.

(** A deviation too small to be added *)
Lemma stall_run g d T lo hi u x s : clamp lo hi (f_add u (f_mul (gI g) (f_sub s x))) = u -> clamp lo hi (f_add (f_mul (gP g) (f_sub s x)) (f_sub u (f_mul (gD g) (f_sub x x)))) = u ->
  forall ts s0 lt, Forall (fun r => num (snd r) = num u) (outputs (map (fun t => (t, s, x)) ts) (mkCells x u s0, mkCtl (gP g) (gI g) (gD g) d lt u x T lo hi OnError)).
Proof.
  intros Hc Ho. assert (Eu : forall lt t, update t (mkCells x u s) (mkCtl (gP g) (gI g) (gD g) d lt u x T lo hi OnError) =
    if kge MS MS (ksub MS MS t lt) T then (true, mkCells x u s, mkCtl (gP g) (gI g) (gD g) d t u x T lo hi OnError) else (false, mkCells x u s, mkCtl (gP g) (gI g) (gD g) d lt u x T lo hi OnError)).
  { intros lt t. unfold update. cbn [last_time sampling input setpoint last_reading cumulative ki kp kd prop lower upper dir]. rewrite Hc, Ho. reflexivity. }
  induction ts as [|t ts IH]; intros s0 lt; [constructor|]. cbn [map outputs fst snd output]. rewrite Eu.
  destruct (kge MS MS (ksub MS MS t lt) T); cbn [output]; (constructor; [cbn [snd]; reflexivity|apply IH]).
Qed.
