From Coq Require Import ZArith Lia Bool List.
From Flocq Require Import IEEE754.BinarySingleNaN.
From Verif Require Import Base KTimeModel KTimeProofs FloatModel FloatFacts PidModel PidSpec.
Import ListNotations.
Open Scope Z_scope.

Lemma assert_ok {A} dbg b (f : outcome A) x : (sassert dbg b ;;; f) = Ok x -> f = Ok x.
Proof. unfold sassert. destruct b; [auto|]. destruct dbg; [discriminate|auto]. Qed.

Lemma ok_pair {A B} (a c : A) (b d : B) : Ok (a, b) = Ok (c, d) -> a = c /\ b = d. Proof. now intros [= -> ->]. Qed.
Lemma ok_inj {A} (a b : A) : Ok a = Ok b -> a = b. Proof. now intros [= ->]. Qed.

Lemma ok_test {A} (o : outcome A) (test : A -> bool) : match o with Ok x => test x | _ => false end = true -> exists x, o = Ok x /\ test x = true.
Proof. destruct o; try discriminate. eauto. Qed.
Lemma some_test {A} (o : option A) (test : A -> bool) : match o with Some x => test x | _ => false end = true -> exists x, o = Some x /\ test x = true.
Proof. destruct o; try discriminate. eauto. Qed.

(** ** Clamping *)
Lemma clamp_within lo hi x : f_lt lo hi = true -> f_isnan (clamp lo hi x) = false -> within (lo, hi) (clamp lo hi x).
Proof.
  intros Hl Hn. pose proof (lt_nan _ _ Hl) as [Nl Nh]. unfold within, clamp in *. cbn [fst snd].
  change (f_gt x hi) with (f_lt hi x) in *. destruct (f_lt hi x) eqn:E1.
  - split; [apply lt_le, Hl|apply le_refl, Nh].
  - destruct (f_lt x lo) eqn:E2.
    + split; [apply le_refl, Nl|apply lt_le, Hl].
    + split; apply not_lt; auto.
Qed.
Lemma clamp_nan lo hi x : f_lt lo hi = true -> f_isnan (clamp lo hi x) = f_isnan x.
Proof.
  intros Hl. pose proof (lt_nan _ _ Hl) as [Nl Nh]. unfold clamp. change (f_gt x hi) with (f_lt hi x).
  destruct (f_lt hi x) eqn:E1; [apply lt_nan in E1 as [_ ->]; auto|]. destruct (f_lt x lo) eqn:E2; [apply lt_nan in E2 as [-> _]; auto|auto].
Qed.
Lemma clamp_id lo hi x : within (lo, hi) x -> clamp lo hi x = x.
Proof.
  unfold within, clamp. cbn [fst snd]. intros [H1 H2]. change (f_gt x hi) with (f_lt hi x).
  assert (G : forall a b, f_le a b = true -> f_lt b a = false).
  { intros a b. rewrite le_cmp, lt_cmp, (Bcompare_swap 24 128 a b). destruct (Bcompare a b) as [[]|]; cbn; congruence. }
  now rewrite !G.
Qed.

(** ** The limits *)
Definition limits (c : ctl) := (lower c, upper c).
Lemma lim0 : f_lt (f_ofZ 0) (f_ofZ 255) = true. Proof. vm_compute. reflexivity. Qed.
Lemma zero_is : f_ofZ 0 = f_zero. Proof. reflexivity. Qed.
Lemma set_tunings_limits dbg a b d p c c' : set_tunings dbg a b d p c = Ok c' -> limits c' = limits c /\ last_time c' = last_time c /\ sampling c' = sampling c.
Proof. unfold set_tunings. intros H. apply assert_ok, assert_ok in H. injection H as <-. auto. Qed.
Lemma set_direction_limits d c : limits (set_direction d c) = limits c /\ sampling (set_direction d c) = sampling c.
Proof. unfold set_direction. destruct (same_direction _ _); auto. Qed.
Lemma set_sampling_limits t c : limits (set_sampling_time t c) = limits c.
Proof. unfold set_sampling_time. destruct (kgt _ _ _ _); auto. Qed.
Lemma ctl_new_limits dbg now a b d p r c : ctl_new dbg now a b d p r = Ok c -> limits c = (f_ofZ 0, f_ofZ 255) /\ sampling c = 100.
Proof.
  unfold ctl_new. destruct (set_tunings _ _ _ _ _ _) as [c1| | | |] eqn:E; try discriminate. cbn [bind]. intros [= <-].
  apply set_tunings_limits in E as (E & _ & Es). cbn [limits lower upper sampling]. destruct (set_direction_limits r ctl0) as [D1 D2].
  rewrite Es, D2. split; [|reflexivity]. change (limits c1 = (f_ofZ 0, f_ofZ 255)). rewrite E, D1. reflexivity.
Qed.

Lemma ge_lt a b : f_isnan a = false -> f_isnan b = false -> f_ge a b = negb (f_lt a b).
Proof. intros Ha Hb. change (f_ge a b) with (f_le b a). rewrite le_cmp, lt_cmp. destruct (cmp_some a b Ha Hb) as (c & -> & ->). destruct c; auto. Qed.

Lemma call_limits dbg o v c v' c' : ctl_call dbg o (v, c) = Ok (v', c') -> (forall a b, o = Limits a b -> is_nan a = false /\ is_nan b = false) ->
  limits c' = match o with Limits a b => if Bltb a b then (a, b) else limits c | _ => limits c end.
Proof.
  intros H Hn. destruct o; cbn [ctl_call] in H.
  1-4: injection H as <- <-; reflexivity.
  - unfold update in H. destruct (kge _ _ _ _); injection H as <- <-; reflexivity.
  - destruct (Hn _ _ eq_refl) as [Na Nb]. unfold set_output_limits in H. rewrite ge_lt in H by auto. unfold f_lt in H.
    destruct (Bltb mn mx); cbn [negb] in H; injection H as <- <-; reflexivity.
  - destruct (set_tunings _ _ _ _ _ _) as [c1| | | |] eqn:E; try discriminate. cbn [bind] in H. injection H as <- <-. now apply set_tunings_limits in E.
  - injection H as <- <-. apply set_direction_limits.
  - apply ok_pair in H as [<- <-]. apply set_sampling_limits.
Qed.
Lemma call_sampling dbg o v c v' c' : ctl_call dbg o (v, c) = Ok (v', c') ->
  sampling c' = match o with SamplingTime t => if 0 <? t then t else sampling c | _ => sampling c end.
Proof.
  intros H. destruct o; cbn [ctl_call] in H.
  1-4: injection H as <- <-; reflexivity.
  - unfold update in H. destruct (kge _ _ _ _); injection H as <- <-; reflexivity.
  - unfold set_output_limits in H. destruct (f_ge _ _); injection H as <- <-; reflexivity.
  - destruct (set_tunings _ _ _ _ _ _) as [c1| | | |] eqn:E; try discriminate. cbn [bind] in H. injection H as <- <-. now apply set_tunings_limits in E.
  - injection H as <- <-. apply set_direction_limits.
  - apply ok_pair in H as [<- <-]. unfold set_sampling_time. change (kgt MS MS t 0) with (0 <? t). destruct (0 <? t); reflexivity.
Qed.

Definition in_force_from l os := fold_left (fun l o => match o with Limits a b => if Bltb a b then (a, b) else l | _ => l end) os l.
Lemma calls_limits dbg os : forall v c v' c', ctl_calls dbg os (v, c) = Ok (v', c') -> numeric_limits os -> limits c' = in_force_from (limits c) os.
Proof.
  induction os as [|o os IH]; intros v c v' c' H Hn; cbn [ctl_calls] in H.
  - now injection H as <- <-.
  - destruct (ctl_call dbg o (v, c)) as [[v1 c1]| | | |] eqn:E; try discriminate. cbn [bind] in H.
    apply call_limits in E; [|intros a b ->; apply Hn; left; auto].
    apply IH in H; [|intros a b Hin; apply Hn; right; auto]. cbn [in_force_from fold_left]. rewrite H, E. destruct o; reflexivity.
Qed.
Lemma calls_sampling dbg os : forall v c v' c', ctl_calls dbg os (v, c) = Ok (v', c') ->
  sampling c' = fold_left (fun s o => match o with SamplingTime t => if 0 <? t then t else s | _ => s end) os (sampling c).
Proof.
  induction os as [|o os IH]; intros v c v' c' H; cbn [ctl_calls] in H.
  - now injection H as <- <-.
  - destruct (ctl_call dbg o (v, c)) as [[v1 c1]| | | |] eqn:E; try discriminate. cbn [bind] in H. apply call_sampling in E. apply IH in H.
    cbn [fold_left]. rewrite H, E. reflexivity.
Qed.
Lemma in_force_ordered os : forall l, f_lt (fst l) (snd l) = true -> f_lt (fst (in_force_from l os)) (snd (in_force_from l os)) = true.
Proof.
  induction os as [|o os IH]; intros l H; cbn [in_force_from fold_left]; auto. destruct o; try (apply IH; exact H).
  destruct (Bltb mn mx) eqn:E; apply IH; auto.
Qed.
Lemma in_force_lt os : f_lt (fst (in_force os)) (snd (in_force os)) = true. Proof. apply in_force_ordered, lim0. Qed.

(** C39: the controller *)
Lemma update_within dbg now0 Kp Ki Kd p d v0 c0 os v c now v' c' :
  ctl_new dbg now0 Kp Ki Kd p d = Ok c0 -> numeric_limits os -> ctl_calls dbg os (v0, c0) = Ok (v, c) -> update now v c = (true, v', c') ->
  is_nan (output v') = false -> within (in_force os) (output v').
Proof.
  intros H0 Hn H Hu Hnan. apply ctl_new_limits in H0 as [H0 _]. apply calls_limits in H; auto. rewrite H0 in H.
  change (in_force_from _ os) with (in_force os) in H. pose proof (in_force_lt os) as Hlt. rewrite <- H in *. unfold limits in *. cbn [fst snd] in *.
  unfold update in Hu. destruct (kge _ _ _ _); [|discriminate]. injection Hu as <- <-. apply clamp_within; auto.
Qed.
Lemma update_only_input now v c v' c' b : update now v c = (b, v', c') -> input v' = input v /\ setpoint v' = setpoint v /\ (b = false -> v' = v /\ c' = c).
Proof. unfold update. destruct (kge _ _ _ _); intros [= <- <- <-]; repeat split; auto; discriminate. Qed.

(** C39: the PID class *)
Definition good (l : float * float) (p : pid) : Prop :=
  limits (p_backend p) = l /\ (is_nan (output (p_vars p)) = false -> within l (output (p_vars p))).
Lemma good_update l p : f_lt (fst l) (snd l) = true -> good l p -> forall x now, good l (pid_new_reading x now p).
Proof.
  intros Hl [Hb Hw] x now. unfold pid_new_reading, update. destruct (kge _ _ _ _).
  - split; [exact Hb|]. cbn [p_vars output]. unfold limits in Hb. destruct l as [lo hi]. injection Hb as -> ->. intros Hn. apply clamp_within; auto.
  - split; [exact Hb|exact Hw].
Qed.
Lemma good_tunings l p : good l p -> forall dbg t pr p', pid_set_tunings dbg t pr p = Ok p' -> good l p'.
Proof.
  intros [Hb Hw] dbg t pr p'. unfold pid_set_tunings. destruct (set_tunings _ _ _ _ _ _) as [c1| | | |] eqn:E; try discriminate. cbn [bind].
  intros [= <-]. apply set_tunings_limits in E as (E & _). split; auto. cbn [p_backend]. now rewrite E.
Qed.
Lemma good_init l p : f_lt (fst l) (snd l) = true -> (c_lower (p_cfg p), c_upper (p_cfg p)) = l -> good l (pid_initialize p).
Proof.
  intros Hl Hc. unfold pid_initialize, set_output_limits. destruct l as [lo hi]. injection Hc as -> ->. cbn [fst snd] in Hl.
  pose proof (lt_nan _ _ Hl) as [Nl Nh]. rewrite ge_lt, Hl by auto. cbn [negb]. split.
  - cbn [p_backend]. unfold ctl_initialize. unfold limits. cbn [lower upper].
    pose proof (set_sampling_limits (c_interval (p_cfg p)) (mkCtl (kp (p_backend p)) (ki (p_backend p)) (kd (p_backend p)) (dir (p_backend p)) (last_time (p_backend p)) (clamp lo hi (cumulative (p_backend p))) (last_reading (p_backend p)) (sampling (p_backend p)) lo hi (prop (p_backend p)))) as E.
    unfold limits in E. cbn [lower upper] in E. exact E.
  - cbn [p_vars output]. intros Hn. apply clamp_within; auto.
Qed.
Lemma pid_do_cfg dbg o p p' : pid_do dbg o p = Ok p' -> p_cfg p' = p_cfg p.
Proof.
  destruct o; cbn [pid_do].
  - unfold pid_initialize. destruct (set_output_limits _ _ _ _). intros [= <-]. reflexivity.
  - intros [= <-]. reflexivity.
  - unfold pid_set_tunings. destruct (set_tunings _ _ _ _ _ _); try discriminate. cbn [bind]. intros [= <-]. reflexivity.
  - unfold pid_new_reading. destruct (update _ _ _) as [[? ?] ?]. intros [= <-]. reflexivity.
Qed.
Lemma good_do l dbg o p p' : f_lt (fst l) (snd l) = true -> (c_lower (p_cfg p), c_upper (p_cfg p)) = l -> good l p -> pid_do dbg o p = Ok p' -> good l p'.
Proof.
  intros Hl Hc Hg. destruct o; cbn [pid_do].
  - intros H. apply ok_inj in H as <-. apply good_init; auto.
  - intros [= <-]. destruct Hg as [H1 H2]. split; auto.
  - apply good_tunings, Hg.
  - intros H. apply ok_inj in H as <-. apply good_update; auto.
Qed.
Lemma good_run l dbg os : forall p p', f_lt (fst l) (snd l) = true -> (c_lower (p_cfg p), c_upper (p_cfg p)) = l -> good l p \/ In PInitialize os ->
  pid_run dbg os p = Ok p' -> good l p'.
Proof.
  induction os as [|o os IH]; intros p p' Hl Hc Hg H; cbn [pid_run] in H.
  - injection H as <-. destruct Hg as [Hg|[]]; auto.
  - destruct (pid_do dbg o p) as [p1| | | |] eqn:E; try discriminate. cbn [bind] in H. apply (IH p1); auto.
    + now rewrite (pid_do_cfg _ _ _ _ E).
    + destruct Hg as [Hg|[->|Hg]]; auto.
      * left. eapply good_do; eauto.
      * left. cbn [pid_do] in E. apply ok_inj in E as <-. apply good_init; auto.
Qed.
Lemma pid_new_cfg dbg now cfg p : pid_new dbg now cfg = Ok p -> p_cfg p = cfg.
Proof.
  unfold pid_new. destruct (ctl_new _ _ _ _ _ _ _); try discriminate. cbn [bind]. intros H. apply assert_ok in H. injection H as <-. reflexivity.
Qed.
Lemma pid_within dbg now0 cfg p0 os p :
  pid_new dbg now0 cfg = Ok p0 -> Bltb (c_lower cfg) (c_upper cfg) = true -> In PInitialize os -> pid_run dbg os p0 = Ok p ->
  forall x, pid_response dbg p = Ok x -> is_nan x = false -> within (c_lower cfg, c_upper cfg) x.
Proof.
  intros H0 Hl Hi H x Hx Hn. pose proof (pid_new_cfg _ _ _ _ H0) as Hc. assert (G : good (c_lower cfg, c_upper cfg) p) by (eapply (good_run _ dbg os p0); eauto; cbn [fst snd]; congruence).
  unfold pid_response in Hx. apply assert_ok in Hx. injection Hx as <-. apply G. exact Hn.
Qed.
(** A debug build's response is a number *)
Lemma pid_response_number p x : pid_response true p = Ok x -> is_nan x = false.
Proof. unfold pid_response, sassert. destruct (f_isnan (output (p_vars p))) eqn:E; [discriminate|]. intros [= <-]. exact E. Qed.

(** ** When an update takes place *)
Lemma update_when now v c : 0 <= last_time c <= 2 ^ 24 -> 0 <= sampling c <= 2 ^ 24 ->
  fst (fst (update now v c)) = (sampling c <=? now - last_time c).
Proof.
  intros H1 H2. unfold update, kge, ksub. rewrite !from_other_same, !near24_id by lia. destruct (sampling c <=? now - last_time c); reflexivity.
Qed.

Lemma calls_app dbg os1 : forall os2 vc, ctl_calls dbg (os1 ++ os2) vc = (vc' <- ctl_calls dbg os1 vc ;; ctl_calls dbg os2 vc').
Proof. induction os1 as [|o os1 IH]; intros os2 vc; cbn [ctl_calls app bind]; auto. destruct (ctl_call dbg o vc); cbn [bind]; auto. Qed.
Definition is_update (o : call) : bool := match o with Update _ => true | _ => false end.
Lemma call_last dbg o v c v' c' : ctl_call dbg o (v, c) = Ok (v', c') -> is_update o = false -> last_time c' = last_time c.
Proof.
  intros H Hu. destruct o; cbn [ctl_call is_update] in *; try discriminate Hu.
  1-4: injection H as <- <-; reflexivity.
  - unfold set_output_limits in H. destruct (f_ge _ _); injection H as <- <-; reflexivity.
  - destruct (set_tunings _ _ _ _ _ _) as [c1| | | |] eqn:E; try discriminate. cbn [bind] in H. injection H as <- <-. now apply set_tunings_limits in E.
  - injection H as <- <-. unfold set_direction. destruct (same_direction _ _); reflexivity.
  - apply ok_pair in H as [<- <-]. unfold set_sampling_time. destruct (kgt _ _ _ _); reflexivity.
Qed.
Lemma calls_last dbg os : forall v c v' c', ctl_calls dbg os (v, c) = Ok (v', c') -> Forall (fun o => is_update o = false) os -> last_time c' = last_time c.
Proof.
  induction os as [|o os IH]; intros v c v' c' H Hu; cbn [ctl_calls] in H; [now injection H as <- <-|].
  destruct (ctl_call dbg o (v, c)) as [[v1 c1]| | | |] eqn:E; try discriminate. cbn [bind] in H. inversion Hu; subst.
  apply call_last in E; auto. apply IH in H; auto. congruence.
Qed.
(** C63 *)
Lemma sampled dbg now0 Kp Ki Kd p d v0 c0 pre v1 c1 t1 v1' c1' mid v2 c2 t2 :
  ctl_new dbg now0 Kp Ki Kd p d = Ok c0 -> ctl_calls dbg pre (v0, c0) = Ok (v1, c1) -> update t1 v1 c1 = (true, v1', c1') ->
  ctl_calls dbg mid (v1', c1') = Ok (v2, c2) -> Forall (fun o => is_update o = false) mid -> 0 <= t1 <= 2 ^ 24 -> sampling_in_force (pre ++ mid) <= 2 ^ 24 ->
  fst (fst (update t2 v2 c2)) = (sampling_in_force (pre ++ mid) <=? t2 - t1).
Proof.
  intros H0 H1 Hu H2 Hm Ht Hs. apply ctl_new_limits in H0 as [_ H0]. apply calls_sampling in H1. rewrite H0 in H1.
  assert (Hc : sampling c1' = sampling c1 /\ last_time c1' = t1).
  { unfold update in Hu. destruct (kge _ _ _ _); [|discriminate]. injection Hu as _ <-. auto. } destruct Hc as [Es El].
  pose proof (calls_last _ _ _ _ _ _ H2 Hm) as L. apply calls_sampling in H2. rewrite Es, H1 in H2.
  assert (E : sampling c2 = sampling_in_force (pre ++ mid)) by (unfold sampling_in_force; rewrite fold_left_app; exact H2).
  assert (G : forall os s, 0 < s -> 0 < fold_left (fun s o => match o with SamplingTime t => if 0 <? t then t else s | _ => s end) os s).
  { induction os as [|o os IH]; intros s H; cbn [fold_left]; auto. apply IH. destruct o; auto. destruct (Z.ltb_spec 0 t); auto. }
  rewrite <- E in *. rewrite update_when; rewrite ?L, ?El; auto. split; auto. rewrite E. unfold sampling_in_force. specialize (G (pre ++ mid) 100 eq_refl). lia.
Qed.

Lemma sampled_any dbg now0 Kp Ki Kd p d v0 c0 pre v1 c1 t1 v1' c1' mid v2 c2 t2 b :
  ctl_new dbg now0 Kp Ki Kd p d = Ok c0 -> ctl_calls dbg pre (v0, c0) = Ok (v1, c1) -> update t1 v1 c1 = (true, v1', c1') ->
  ctl_calls dbg mid (v1', c1') = Ok (v2, c2) -> Forall (fun o => is_update o = false) mid -> fst (fst (update t2 v2 c2)) = b ->
  let s := sampling_in_force (pre ++ mid) in
  (b = true -> 2 ^ 24 * (s - (t2 - t1)) <= s + Z.abs t1) /\ (b = false -> 2 ^ 24 * ((t2 - t1) - s) < s + Z.abs t1).
Proof.
  intros H0 H1 Hu H2 Hm Hb s. apply ctl_new_limits in H0 as [_ H0]. apply calls_sampling in H1. rewrite H0 in H1.
  assert (Hc : sampling c1' = sampling c1 /\ last_time c1' = t1).
  { clear - Hu. unfold update in Hu. destruct (kge _ _ _ _); [|discriminate]. injection Hu as _ <-. auto. } destruct Hc as [Es El].
  pose proof (calls_last _ _ _ _ _ _ H2 Hm) as L. apply calls_sampling in H2. rewrite Es, H1 in H2.
  assert (E : sampling c2 = s) by (unfold s, sampling_in_force; rewrite fold_left_app; exact H2).
  assert (G : forall os s, 0 < s -> 0 < fold_left (fun s o => match o with SamplingTime t => if 0 <? t then t else s | _ => s end) os s).
  { induction os as [|o os IH]; intros s0 H; cbn [fold_left]; auto. apply IH. destruct o; auto. destruct (Z.ltb_spec 0 t); auto. }
  assert (0 < s) as Hs by (unfold s, sampling_in_force; apply G; reflexivity).
  assert (Eb : b = (near24 s <=? t2 - near24 t1)).
  { rewrite <- Hb. clear - E L El. clearbody s. unfold update, kge, ksub. rewrite !from_other_same, E, L, El. destruct (near24 s <=? t2 - near24 t1); reflexivity. }
  pose proof (near24_error s) as N1. pose proof (near24_error t1) as N2. clearbody s. clear - Hs Eb N1 N2.
  destruct (Z.leb_spec (near24 s) (t2 - near24 t1)); split; intros; subst b; try discriminate; lia.
Qed.

(** ** C40 *)
From Coq Require Import Reals Lra.
From Flocq Require Import Core.
Open Scope R_scope.
Lemma multiple c n t : (0 < sampling c)%Z -> (1 <= n <= 2 ^ 24)%Z -> t = (n * sampling c)%Z ->
  let ratio := f_ofZ n in val ratio = IZR n /\ finite ratio = true /\
  ki (set_sampling_time t c) = f_mul (ki c) ratio /\ kd (set_sampling_time t c) = f_div (kd c) ratio /\ kp (set_sampling_time t c) = kp c /\ sampling (set_sampling_time t c) = t.
Proof.
  intros Hs Hn -> ratio. destruct (ofZ_exact n) as [E1 E2]; [lia|]. fold ratio in E1, E2. unfold set_sampling_time. change (kgt MS MS (n * sampling c) 0) with (0 <? n * sampling c)%Z.
  destruct (Z.ltb_spec 0 (n * sampling c)); [|nia]. rewrite Z.quot_mul by lia. cbn [ki kd kp sampling]. auto 10.
Qed.
Lemma rnd_rel x : x = 0 \/ bpow radix2 (-126) <= Rabs x -> exists eps, Rabs eps <= bpow radix2 (-24) /\ rnd x = x * (1 + eps).
Proof. intros [->|H]; [|now apply rnd_error]. exists 0. rewrite Rabs_R0, rnd_0. split; [apply bpow_ge_0|ring]. Qed.
Lemma rescale c n t : (0 < sampling c)%Z -> (1 <= n <= 2 ^ 24)%Z -> t = (n * sampling c)%Z -> finite (ki c) = true -> finite (kd c) = true ->
  val (ki c) * IZR n = 0 \/ bpow radix2 (-126) <= Rabs (val (ki c) * IZR n) -> Rabs (val (ki c) * IZR n) <= bpow radix2 127 ->
  val (kd c) / IZR n = 0 \/ bpow radix2 (-126) <= Rabs (val (kd c) / IZR n) ->
  exists e1 e2, Rabs e1 <= bpow radix2 (-24) /\ Rabs e2 <= bpow radix2 (-24) /\
  let c' := set_sampling_time t c in kp c' = kp c /\ val (ki c') = val (ki c) * (IZR t / IZR (sampling c)) * (1 + e1) /\ val (kd c') = val (kd c) / (IZR t / IZR (sampling c)) * (1 + e2).
Proof.
  intros Hs Hn Ht Fi Fd Li Ui Ld. destruct (multiple c n t Hs Hn Ht) as (Er & Fr & Ei & Ed & Ep & _). cbv zeta in *. rewrite Ei, Ed, Ep.
  assert (Hr : IZR t / IZR (sampling c) = IZR n). { rewrite Ht, mult_IZR. field. apply not_0_IZR. lia. } rewrite Hr.
  assert (Hn1 : 1 <= IZR n) by (apply (IZR_le 1); lia).
  destruct (rnd_rel _ Li) as (e1 & B1 & E1). destruct (rnd_rel _ Ld) as (e2 & B2 & E2). exists e1, e2. do 3 (split; [assumption || reflexivity|]). split.
  - destruct (mul_val (ki c) (f_ofZ n) Fi Fr) as [M _]; rewrite Er in *; [apply (rnd_small _ 127); [lia|exact Ui]|]. rewrite M. exact E1.
  - destruct (div_val (kd c) (f_ofZ n) Fd Fr) as [M _]; rewrite ?Er in *; [lra| |rewrite M; exact E2].
    pose proof (abs_B2R_lt_emax 24 128 (kd c)) as Hb. fold (val (kd c)) in Hb.
    assert (Rabs (val (kd c) / IZR n) <= Rabs (val (kd c))).
    { unfold Rdiv. rewrite Rabs_mult. rewrite <- (Rmult_1_r (Rabs (val (kd c)))) at 2. apply Rmult_le_compat_l; [apply Rabs_pos|].
      rewrite Rabs_inv, Rabs_pos_eq by lra. rewrite <- Rinv_1. apply Rinv_le; lra. }
    eapply Rle_lt_trans; [|exact Hb]. apply Rabs_le_inv in H as [H1 H2]. apply Rabs_le. split.
    + rewrite <- (rnd_id (- Rabs (val (kd c)))) by (apply fmt_opp, generic_format_abs, val_fmt). now apply rnd_le.
    + rewrite <- (rnd_id (Rabs (val (kd c)))) by (apply generic_format_abs, val_fmt). now apply rnd_le.
Qed.
Lemma shorter c t : (0 < t < sampling c)%Z -> finite (ki c) = true -> is_finite_strict (kd c) = true ->
  val (ki (set_sampling_time t c)) = 0 /\ exists s, kd (set_sampling_time t c) = f_inf s.
Proof.
  intros Ht Fi Fd. unfold set_sampling_time. change (kgt MS MS t 0) with (0 <? t)%Z. destruct (Z.ltb_spec 0 t); [|lia]. rewrite Z.quot_small by lia. cbn [ki kd].
  change (f_ofZ 0) with f_zero. split.
  - destruct (ki c); try discriminate; reflexivity.
  - destruct (kd c) as [| | |s m e]; try discriminate. exists (xorb s false). reflexivity.
Qed.

(** ** Reported tunings *)
Lemma mul_one x y : finite x = true -> val y = 1 -> finite y = true -> Bsign y = false -> f_mul x y = x.
Proof.
  intros Fx Ey Fy Sy. pose proof (Bmult_correct 24 128 _ _ mode_NE x y) as H. change (B2R y) with (val y) in H. rewrite Ey, Rmult_1_r in H.
  change (round radix2 _ _ (B2R x)) with (rnd (val x)) in H. rewrite rnd_id in H by apply val_fmt.
  rewrite Rlt_bool_true in H by apply (abs_B2R_lt_emax 24 128 x). destruct H as (H1 & H2 & H3). rewrite Fx, Fy in H2. cbn in H2.
  unfold f_mul, f_div. apply B2R_Bsign_inj; auto. rewrite H3, Sy, xorb_false_r; auto. destruct (Bmult mode_NE x y); auto; discriminate.
Qed.
Lemma div_one x y : finite x = true -> val y = 1 -> finite y = true -> Bsign y = false -> f_div x y = x.
Proof.
  intros Fx Ey Fy Sy. pose proof (Bdiv_correct 24 128 _ _ mode_NE x y) as H. change (B2R y) with (val y) in H. rewrite Ey in H.
  unfold Rdiv in H. rewrite Rinv_1, Rmult_1_r in H. specialize (H R1_neq_R0).
  change (round radix2 _ _ (B2R x)) with (rnd (val x)) in H. rewrite rnd_id in H by apply val_fmt.
  rewrite Rlt_bool_true in H by apply (abs_B2R_lt_emax 24 128 x). destruct H as (H1 & H2 & H3). rewrite Fx in H2.
  unfold f_mul, f_div. apply B2R_Bsign_inj; auto. rewrite H3, Sy, xorb_false_r; auto. destruct (Bdiv mode_NE x y); auto; discriminate.
Qed.
Lemma one_second : val (f_div (f_ofZ 1000) (f_ofZ 1000)) = 1 /\ finite (f_div (f_ofZ 1000) (f_ofZ 1000)) = true /\ Bsign (f_div (f_ofZ 1000) (f_ofZ 1000)) = false.
Proof.
  destruct (ofZ_exact 1000) as [E F]; [lia|]. assert (V : val (f_ofZ 1000) / val (f_ofZ 1000) = 1) by (rewrite E; field).
  assert (B : rnd 1 = 1) by (apply rnd_id; apply (fmt_Z 1); lia).
  destruct (div_val (f_ofZ 1000) (f_ofZ 1000) F F) as [D1 D2]; [rewrite E; lra|rewrite V, B; rewrite Rabs_R1; apply (bpow_lt radix2 0 128); lia|].
  split; [rewrite D1, V; exact B|]. split; [exact D2|]. vm_compute. reflexivity.
Qed.
Lemma tunings_reported dbg p t pr p' : dir (p_backend p) = Forward -> sampling (p_backend p) = 1000%Z -> finite (tKi t) = true -> finite (tKd t) = true ->
  pid_set_tunings dbg t pr p = Ok p' -> pid_tunings p' = t.
Proof.
  intros Hd Hs Fi Fd. unfold pid_set_tunings, set_tunings. rewrite Hd, Hs. intros H.
  match type of H with bind ?e _ = _ => destruct e as [c| | | |] eqn:E; try discriminate H end. cbn [bind] in H. apply ok_inj in H as <-.
  apply assert_ok, assert_ok, ok_inj in E. subst c. unfold pid_tunings. cbn [p_backend kp ki kd]. destruct one_second as (V & F & S).
  rewrite mul_one, div_one by auto. destruct t; reflexivity.
Qed.
Lemma kp_reported dbg p t pr p' : dir (p_backend p) = Forward -> pid_set_tunings dbg t pr p = Ok p' -> tKp (pid_tunings p') = tKp t.
Proof.
  intros Hd. unfold pid_set_tunings, set_tunings. rewrite Hd. intros H.
  match type of H with bind ?e _ = _ => destruct e as [c| | | |] eqn:E; try discriminate H end. cbn [bind] in H. apply ok_inj in H as <-.
  apply assert_ok, assert_ok, ok_inj in E. subst c. reflexivity.
Qed.

(** ** The configured proportionality *)
Definition with_prop (pr : proportionality) (c : pid_config) : pid_config :=
  mkPidConfig (c_tunings c) (c_lower c) (c_upper c) (c_interval c) pr (c_dir c).
Definition pid_with (pr : proportionality) (p : pid) : pid := mkPid (with_prop pr (p_cfg p)) (p_backend p) (p_vars p).
Definition omap {A B} (f : A -> B) (o : outcome A) : outcome B := a <- o ;; Ok (f a).
Lemma new_with dbg now cfg pr : pid_new dbg now (with_prop pr cfg) = omap (pid_with pr) (pid_new dbg now cfg).
Proof. unfold pid_new, omap. cbn [with_prop c_tunings c_dir c_interval]. destruct (ctl_new _ _ _ _ _ _ _); cbn [bind]; auto. destruct (sassert _ _); cbn [bind]; auto. Qed.
Lemma do_with dbg o p pr : pid_do dbg o (pid_with pr p) = omap (pid_with pr) (pid_do dbg o p).
Proof.
  unfold omap. destruct o; cbn [pid_do bind].
  - unfold pid_initialize. cbn [pid_with p_cfg with_prop c_lower c_upper c_interval p_vars p_backend]. destruct (set_output_limits _ _ _ _). reflexivity.
  - reflexivity.
  - unfold pid_set_tunings. cbn [pid_with p_backend]. destruct (set_tunings _ _ _ _ _ _); reflexivity.
  - unfold pid_new_reading. cbn [pid_with p_backend p_vars]. destruct (update _ _ _) as [[? ?] ?]. reflexivity.
Qed.
Lemma run_with dbg os : forall p pr, pid_run dbg os (pid_with pr p) = omap (pid_with pr) (pid_run dbg os p).
Proof.
  induction os as [|o os IH]; intros p pr; cbn [pid_run]; [reflexivity|]. rewrite do_with. unfold omap at 1. destruct (pid_do dbg o p); cbn [bind]; auto.
Qed.
Lemma prop_ignored dbg now cfg pr os :
  (p <- pid_new dbg now (with_prop pr cfg) ;; p <- pid_run dbg os p ;; pid_response dbg p) =
  (p <- pid_new dbg now cfg ;; p <- pid_run dbg os p ;; pid_response dbg p).
Proof.
  rewrite new_with. destruct (pid_new dbg now cfg) as [p| | | |]; cbn [omap bind]; auto. rewrite run_with. destruct (pid_run dbg os p) as [q| | | |]; cbn [omap bind]; auto.
Qed.

(** ** Copies *)
Lemma reading_copy i x now h h' o : nth_error h i = Some o -> o_target o <> i -> heap_reading i x now h = Some h' ->
  exists o', nth_error h' i = Some o' /\ output (p_vars (o_pid o')) = output (p_vars (o_pid o)).
Proof.
  intros Hi Ht. unfold heap_reading. rewrite Hi. set (h1 := upd h i _). destruct (nth_error h1 (o_target o)) as [t|] eqn:Et; [|discriminate].
  destruct (update now _ _) as [[b v] c]. set (h2 := upd h1 _ _). destruct (nth_error h2 i) as [o2|] eqn:E2; [|discriminate]. intros [= <-].
  assert (L : (i < length h)%nat) by (apply nth_error_Some; congruence).
  eexists. split; [rewrite nth_error_upd_eq; [reflexivity|unfold h2, h1; now rewrite !upd_length]|]. cbn [o_pid p_vars].
  unfold h2 in E2. rewrite nth_error_upd in E2. destruct (Nat.eqb_spec (o_target o) i); [congruence|]. cbn [andb] in E2.
  unfold h1 in E2. rewrite nth_error_upd_eq in E2 by auto. injection E2 as <-. reflexivity.
Qed.
