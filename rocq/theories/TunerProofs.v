From Coq Require Import ZArith Lia Bool List.
From Flocq Require Import IEEE754.BinarySingleNaN.
From Verif Require Import Base KTimeModel KTimeProofs FloatModel PidModel TunerModel TunerSpec.
Import ListNotations.
Open Scope Z_scope.

Section Proofs.
Variable c : tuner_config.
Notation lo := (f_sub (t_target c) (t_hyst c)).
Notation hi := (f_add (t_target c) (t_hyst c)).

(** The relay state determines the value commanded *)
Definition inv (t : tuner) : Prop := outv t = (if on t then t_max c else t_min c).
Lemma step_relay x now t : inv t ->
  let t' := snd (do_autotune c x now t) in
  inv t' /\ fst (do_autotune c x now t) = outv t' /\ (on t', cycle t') = relay lo hi (t_cycles c) (on t, cycle t) x.
Proof.
  intros H. unfold do_autotune. cbn [fst snd].
  assert (Hr : relay lo hi (t_cycles c) (on t, cycle t) x =
    let on1 := on t && negb (f_gt x hi) in
    let (on2, k) := if negb on1 && f_lt x lo then (true, cycle t + 1) else (on1, cycle t) in
    (if t_cycles c <=? k then false else on2, k)).
  { unfold relay, f_gt, f_lt. destruct (on t && negb (Bltb hi x)), (Bltb x lo); cbn [negb andb];
    match goal with |- context [Z_le_dec ?a ?b] => destruct (Z_le_dec a b), (Z.leb_spec a b) end; try lia; reflexivity. }
  rewrite Hr. clear Hr. unfold inv in *.
  unfold finish, is_finished, turn_on, ends_cycle, turn_off.
  assert (E1 : on (extremes x t) = on t) by reflexivity. assert (E2 : cycle (extremes x t) = cycle t) by reflexivity.
  assert (E3 : outv (extremes x t) = outv t) by reflexivity.
  revert E1 E2 E3. generalize (extremes x t). intros u E1 E2 E3. rewrite E1.
  destruct (on t) eqn:Eo, (f_gt x hi), (f_lt x lo); cbn [andb negb on cycle outv];
  rewrite ?E1; cbn [andb negb on cycle outv];
  try (destruct (gains _ _ _ _ _) as [[kp ki] kd]); cbn [cycle on outv]; rewrite ?E2;
  match goal with |- context [t_cycles c <=? ?k] => destruct (t_cycles c <=? k) end; cbn [cycle on outv];
  rewrite ?E1, ?E2, ?E3; split; try assumption; try reflexivity; split; reflexivity.
Qed.

Lemma start_inv now : inv (start c now). Proof. reflexivity. Qed.

Lemma tune_relays : forall ms t, inv t ->
  fst (tune c ms t) = map (fun s : bool * Z => if fst s then t_max c else t_min c) (relays lo hi (t_cycles c) (on t, cycle t) (map fst ms)) /\
  (on (snd (tune c ms t)), cycle (snd (tune c ms t))) = last (relays lo hi (t_cycles c) (on t, cycle t) (map fst ms)) (on t, cycle t).
Proof.
  induction ms as [|[x now] ms IH]; intros t H; [split; reflexivity|].
  destruct (step_relay x now t H) as (H1 & H2 & H3). cbn [tune map fst relays].
  destruct (do_autotune c x now t) as [o t'] eqn:E. cbn [fst snd] in *.
  destruct (IH t' H1) as [I1 I2]. destruct (tune c ms t') as [os t'']. cbn [fst snd] in *.
  rewrite <- H3. split.
  - cbn [map fst]. rewrite I1, H2, H1. reflexivity.
  - rewrite I2. remember (relays lo hi (t_cycles c) (on t', cycle t') (map fst ms)) as l. destruct l; [reflexivity|].
    change (last (p :: l) (on t', cycle t') = last (p :: l) (on t, cycle t)). clear.
    revert p. induction l; intros p; [reflexivity|]. exact (IHl a).
Qed.
Lemma tune_inv : forall ms t, inv t -> inv (snd (tune c ms t)).
Proof.
  induction ms as [|[x now] ms IH]; intros t H; [exact H|]. destruct (step_relay x now t H) as (H1 & _ & _). cbn [tune].
  destruct (do_autotune c x now t) as [o t']. specialize (IH t' H1). destruct (tune c ms t'). exact IH.
Qed.
Lemma tune_app : forall ms ms' t, tune c (ms ++ ms') t =
  (fst (tune c ms t) ++ fst (tune c ms' (snd (tune c ms t))), snd (tune c ms' (snd (tune c ms t)))).
Proof.
  induction ms as [|[x now] ms IH]; intros ms' t; cbn [tune app fst snd].
  - destruct (tune c ms' t); reflexivity.
  - destruct (do_autotune c x now t) as [o t']. rewrite IH. destruct (tune c ms t'); reflexivity.
Qed.
Lemma relay_cases n st x l h : let st' := relay l h n st x in
  (snd st' = snd st \/ snd st' = snd st + 1) /\ (n <= snd st' -> fst st' = false).
Proof.
  destruct st as [o k]. unfold relay. cbn zeta.
  destruct (negb (o && negb (Bltb h x)) && Bltb x l); match goal with |- context [Z_le_dec ?a ?b] => destruct (Z_le_dec a b) end; cbn [fst snd]; split; auto; lia.
Qed.
Lemma tune_mono : forall ms t, inv t -> cycle t <= cycle (snd (tune c ms t)) <= cycle t + Z.of_nat (length ms).
Proof.
  induction ms as [|[x now] ms IH]; intros t H; [cbn; lia|]. destruct (step_relay x now t H) as (H1 & _ & H3). cbn [tune].
  destruct (do_autotune c x now t) as [o t']. cbn [snd] in *. specialize (IH t' H1). destruct (tune c ms t') as [os t'']. cbn [snd length] in *.
  pose proof (relay_cases (t_cycles c) (on t, cycle t) x lo hi) as R. cbn zeta in R. rewrite <- H3 in R. cbn [snd] in R. lia.
Qed.
Lemma finished_stays : forall ms t, inv t -> is_finished c t = true -> Forall (eq (t_min c)) (fst (tune c ms t)) /\ is_finished c (snd (tune c ms t)) = true.
Proof.
  induction ms as [|[x now] ms IH]; intros t H F; [split; [constructor|exact F]|]. destruct (step_relay x now t H) as (H1 & H2 & H3). cbn [tune].
  destruct (do_autotune c x now t) as [o t']. cbn [fst snd] in *.
  pose proof (relay_cases (t_cycles c) (on t, cycle t) x lo hi) as [R1 R2]. rewrite <- H3 in R1, R2. cbn [fst snd] in R1, R2.
  unfold is_finished in F. apply Z.leb_le in F. assert (F' : is_finished c t' = true) by (apply Z.leb_le; lia).
  destruct (IH t' H1 F') as [I1 I2]. destruct (tune c ms t') as [os t'']. cbn [fst snd] in *. split; [|exact I2]. constructor; [|exact I1].
  rewrite H2, H1, R2 by lia. reflexivity.
Qed.
Lemma tune_two : forall ms t, inv t -> Forall (fun o => o = t_min c \/ o = t_max c) (fst (tune c ms t)).
Proof.
  intros ms t H. rewrite (proj1 (tune_relays ms t H)). apply Forall_forall. intros o Ho. apply in_map_iff in Ho. destruct Ho as (s & <- & _). destruct (fst s); auto.
Qed.

(** Before [finish] *)
Definition body (x : float) (now : Z) (t : tuner) : tuner := turn_on c x now (turn_off c x now (extremes x t)).
End Proofs.

Lemma body_cycles c n x now t : body (with_cycles c n) x now t = body c x now t.
Proof. reflexivity. Qed.
Lemma body_cases c x now t :
  let t' := body c x now t in
  (cycle t' = cycle t /\ psum t' = psum t /\ isum t' = isum t /\ dsum t' = dsum t) \/
  (cycle t' = cycle t + 1 /\
   psum t' = (if 1 <? cycle t then f_add (psum t) (gp t') else psum t) /\
   isum t' = (if 1 <? cycle t then f_add (isum t) (gi t') else isum t) /\
   dsum t' = (if 1 <? cycle t then f_add (dsum t) (gd t') else dsum t)).
Proof.
  unfold body, turn_on. cbn zeta. set (u := turn_off c x now (extremes x t)).
  assert (E : cycle u = cycle t /\ psum u = psum t /\ isum u = isum t /\ dsum u = dsum t).
  { subst u. unfold turn_off. destruct (on (extremes x t) && _); repeat split. }
  destruct E as (E1 & E2 & E3 & E4). destruct (ends_cycle c x u).
  - right. destruct (gains _ _ _ _ _) as [[kp ki] kd]. cbn [cycle psum isum dsum gp gi gd]. rewrite E1, E2, E3, E4. auto.
  - left. auto.
Qed.
Lemma do_body c x now t : snd (do_autotune c x now t) = finish c (body c x now t).
Proof. reflexivity. Qed.
Lemma finish_not c t : cycle t < t_cycles c -> finish c t = t.
Proof. intros H. unfold finish, is_finished. destruct (Z.leb_spec (t_cycles c) (cycle t)); [lia|reflexivity]. Qed.
Lemma finish_cycle c t : cycle (finish c t) = cycle t.
Proof. unfold finish. destruct (is_finished c t); reflexivity. Qed.

Definition tail2 (k : Z) (l : list (float * float * float)) := skipn (Z.to_nat (2 - k)) l.
Lemma fold_cons f (g : float * float * float) k l s : 0 <= k ->
  fold_left f_add (map f (tail2 k (g :: l))) s = fold_left f_add (map f (tail2 (k + 1) l)) (if 1 <? k then f_add s (f g) else s).
Proof.
  intros H. unfold tail2. destruct (Z.ltb_spec 1 k).
  - replace (Z.to_nat (2 - k)) with 0%nat by lia. replace (Z.to_nat (2 - (k + 1))) with 0%nat by lia. reflexivity.
  - replace (Z.to_nat (2 - k)) with (S (Z.to_nat (2 - (k + 1)))) by lia. reflexivity.
Qed.
(** The sums after a run that does not finish *)
Lemma watch_sums c n : forall ms t, 0 <= cycle t -> cycle t + Z.of_nat (length ms) < n ->
  let t' := snd (tune (with_cycles c n) ms t) in
  let l := gains_seen (cycle t) (watch (with_cycles c n) ms t) in
  cycle t' = cycle t + Z.of_nat (length l) /\
  psum t' = fold_left f_add (map gain_p (tail2 (cycle t) l)) (psum t) /\
  isum t' = fold_left f_add (map gain_i (tail2 (cycle t) l)) (isum t) /\
  dsum t' = fold_left f_add (map gain_d (tail2 (cycle t) l)) (dsum t).
Proof.
  induction ms as [|[x now] ms IH]; intros t H0 Hn.
  - cbn [tune watch gains_seen snd length]. unfold tail2. rewrite skipn_nil. repeat split; cbn; lia.
  - cbn [length] in Hn. cbn [tune watch].
    assert (E : snd (do_autotune (with_cycles c n) x now t) = body c x now t).
    { rewrite do_body, body_cycles. apply finish_not. cbn [with_cycles t_cycles]. destruct (body_cases c x now t) as [(B & _)|(B & _)]; rewrite B; lia. }
    destruct (do_autotune (with_cycles c n) x now t) as [o t1]. cbn [snd] in E. subst t1.
    set (t1 := body c x now t). assert (HI := IH t1).
    destruct (body_cases c x now t) as [(B1 & B2 & B3 & B4)|(B1 & B2 & B3 & B4)]; fold t1 in B1, B2, B3, B4.
    + specialize (HI ltac:(lia) ltac:(lia)). cbn zeta in HI |- *. cbn [gains_seen shown snd]. destruct (Z_lt_dec (cycle t) (cycle t1)); [lia|]. cbn [app].
      destruct (tune (with_cycles c n) ms t1). cbn [snd] in *. rewrite B1 in *. rewrite B2, B3, B4 in HI. exact HI.
    + specialize (HI ltac:(lia) ltac:(lia)). cbn zeta in HI |- *. cbn [gains_seen shown snd]. destruct (Z_lt_dec (cycle t) (cycle t1)); [|lia]. cbn [app].
      destruct (tune (with_cycles c n) ms t1) as [os t2]. cbn [snd] in *. destruct HI as (I1 & I2 & I3 & I4).
      rewrite !fold_cons by lia. rewrite <- B1. unfold gain_p at 2, gain_i at 2, gain_d at 2. cbn [fst snd]. rewrite <- B2, <- B3, <- B4.
      cbn [length]. repeat split; try assumption. rewrite I1, B1. lia.
Qed.
(** Until it finishes, a run does not depend on the number of cycles *)
Lemma tune_cycles c n : forall ms t,
  (forall ms1 ms2, ms = ms1 ++ ms2 -> is_finished c (snd (tune c ms1 t)) = false) -> cycle t + Z.of_nat (length ms) < n ->
  tune (with_cycles c n) ms t = tune c ms t.
Proof.
  induction ms as [|[x now] ms IH]; intros t H Hn; [reflexivity|]. cbn [length] in Hn.
  assert (Hf := H [(x, now)] ms eq_refl). cbn [tune] in Hf. destruct (do_autotune c x now t) as [o t1] eqn:E. cbn [snd] in Hf.
  assert (Et : t1 = finish c (body c x now t)) by (rewrite <- do_body, E; reflexivity).
  assert (Hc : cycle (body c x now t) < t_cycles c). { subst t1. unfold is_finished in Hf. rewrite finish_cycle in Hf. apply Z.leb_gt. exact Hf. }
  rewrite (finish_not _ _ Hc) in Et.
  assert (B : cycle (body c x now t) <= cycle t + 1) by (destruct (body_cases c x now t) as [(B & _)|(B & _)]; rewrite B; lia).
  assert (E' : do_autotune (with_cycles c n) x now t = (o, t1)).
  { change (do_autotune (with_cycles c n) x now t) with (let t' := finish (with_cycles c n) (body c x now t) in (outv t', t')).
    change (do_autotune c x now t) with (let t' := finish c (body c x now t) in (outv t', t')) in E.
    cbn zeta in *. rewrite (finish_not (with_cycles c n)) by (cbn [with_cycles t_cycles]; lia). rewrite (finish_not c _ Hc) in E. exact E. }
  cbn [tune]. rewrite E, E'. rewrite (IH t1).
  - reflexivity.
  - intros ms1 ms2 ->. specialize (H ((x, now) :: ms1) ms2 eq_refl). cbn [tune] in H. rewrite E in H. destruct (tune c ms1 t1). exact H.
  - subst t1. lia.
Qed.
Lemma watch_app c : forall ms ms' t, watch c (ms ++ ms') t = watch c ms t ++ watch c ms' (snd (tune c ms t)).
Proof.
  induction ms as [|[x now] ms IH]; intros ms' t; [reflexivity|]. cbn [watch app tune]. rewrite IH. destruct (do_autotune c x now t) as [o t1]. cbn [snd]. destruct (tune c ms t1). reflexivity.
Qed.
(** The gains at the end *)
Theorem final_gains c n t0 ms x now :
  (forall ms1 ms2, ms = ms1 ++ ms2 -> is_finished c (snd (tune c ms1 (start c t0))) = false) ->
  is_finished c (snd (tune c (ms ++ [(x, now)]) (start c t0))) = true ->
  Z.of_nat (length ms) + 1 < n ->
  let seen := gains_seen 0 (watch (with_cycles c n) (ms ++ [(x, now)]) (start (with_cycles c n) t0)) in
  let t := snd (tune c (ms ++ [(x, now)]) (start c t0)) in
  Z.of_nat (length seen) = t_cycles c /\ cycle t = t_cycles c /\
  gp t = divided (map gain_p (skipn 2 seen)) (t_cycles c - 1) /\
  gi t = divided (map gain_i (skipn 2 seen)) (t_cycles c - 1) /\
  gd t = divided (map gain_d (skipn 2 seen)) (t_cycles c - 1).
Proof.
  intros H F Hn. cbn zeta. change (start (with_cycles c n) t0) with (start c t0).
  assert (W := watch_sums c n (ms ++ [(x, now)]) (start c t0)). rewrite app_length in W. cbn [length start cycle] in W.
  specialize (W ltac:(lia) ltac:(lia)). cbn zeta in W.
  set (seen := gains_seen 0 _) in *.
  rewrite tune_app in W, F |- *. cbn [snd] in W, F |- *. rewrite (tune_cycles c n ms (start c t0) H) in W by (cbn [start cycle]; lia).
  set (t := snd (tune c ms (start c t0))) in *. assert (Ht : is_finished c t = false) by (apply (H ms []); now rewrite app_nil_r).
  cbn [tune] in W, F |- *.
  change (do_autotune (with_cycles c n) x now t) with (let t' := finish (with_cycles c n) (body c x now t) in (outv t', t')) in W.
  change (do_autotune c x now t) with (let t' := finish c (body c x now t) in (outv t', t')) in F |- *. cbn zeta in W, F |- *. cbn [snd] in W, F |- *.
  destruct W as (W1 & W2 & W3 & W4). cbn [start psum isum dsum] in W2, W3, W4.
  unfold tail2 in W2, W3, W4. change (Z.to_nat (2 - 0)) with 2%nat in W2, W3, W4.
  unfold is_finished in Ht, F. rewrite finish_cycle in *. apply Z.leb_gt in Ht. apply Z.leb_le in F.
  assert (B : cycle (body c x now t) = t_cycles c) by (destruct (body_cases c x now t) as [(B & _)|(B & _)]; cbn zeta in B; lia).
  assert (Hu : cycle (body c x now t) < n).
  { assert (M : cycle t <= 0 + Z.of_nat (length ms)) by apply (tune_mono c ms (start c t0)), start_inv.
    destruct (body_cases c x now t) as [(B' & _)|(B' & _)]; rewrite B'; lia. }
  rewrite (finish_not (with_cycles c n)) in W2, W3, W4 by exact Hu.
  split; [lia|]. split; [exact B|].
  assert (Ef : is_finished c (body c x now t) = true) by (unfold is_finished; rewrite B; apply Z.leb_refl).
  unfold finish. rewrite Ef. cbn [gp gi gd]. rewrite W2, W3, W4, B. unfold divided, fsum. change (f_ofZ 0) with f_zero. repeat split.
Qed.
Lemma prefix_unfinished c t0 ms : is_finished c (snd (tune c ms (start c t0))) = false ->
  forall ms1 ms2, ms = ms1 ++ ms2 -> is_finished c (snd (tune c ms1 (start c t0))) = false.
Proof.
  intros H ms1 ms2 ->. rewrite tune_app in H. cbn [snd] in H. destruct (is_finished c (snd (tune c ms1 (start c t0)))) eqn:E; [|reflexivity].
  rewrite (proj2 (finished_stays c ms2 _ (tune_inv c ms1 _ (start_inv c t0)) E)) in H. discriminate.
Qed.
Theorem final_gains_thm c n t0 ms m :
  is_finished c (snd (tune c ms (start c t0))) = false -> is_finished c (snd (tune c (ms ++ [m]) (start c t0))) = true ->
  Z.of_nat (length ms) + 1 < n ->
  let seen := gains_seen 0 (watch (with_cycles c n) (ms ++ [m]) (start (with_cycles c n) t0)) in
  let t := snd (tune c (ms ++ [m]) (start c t0)) in
  Z.of_nat (length seen) = t_cycles c /\ cycle t = t_cycles c /\
  gp t = divided (map gain_p (skipn 2 seen)) (t_cycles c - 1) /\
  gi t = divided (map gain_i (skipn 2 seen)) (t_cycles c - 1) /\
  gd t = divided (map gain_d (skipn 2 seen)) (t_cycles c - 1).
Proof. intros H. destruct m as [x now]. apply final_gains. exact (prefix_unfinished c t0 ms H). Qed.

Theorem relay_thm c t0 ms :
  fst (tune c ms (start c t0)) = map (fun s : bool * Z => if fst s then t_max c else t_min c)
    (relays (f_sub (t_target c) (t_hyst c)) (f_add (t_target c) (t_hyst c)) (t_cycles c) (true, 0) (map fst ms)) /\
  cycle (snd (tune c ms (start c t0))) =
    snd (last (relays (f_sub (t_target c) (t_hyst c)) (f_add (t_target c) (t_hyst c)) (t_cycles c) (true, 0) (map fst ms)) (true, 0)).
Proof.
  destruct (tune_relays c ms (start c t0) (start_inv c t0)) as [H1 H2]. cbn [start on cycle] in H1, H2. split; [exact H1|]. rewrite <- H2. reflexivity.
Qed.
Theorem two_values_thm c t0 ms : Forall (fun o => o = t_min c \/ o = t_max c) (fst (tune c ms (start c t0))).
Proof. apply tune_two, start_inv. Qed.
Theorem cycles_mono_thm c t0 ms ms' :
  cycle (snd (tune c ms (start c t0))) <= cycle (snd (tune c (ms ++ ms') (start c t0))) <= cycle (snd (tune c ms (start c t0))) + Z.of_nat (length ms').
Proof. rewrite tune_app. cbn [snd]. apply tune_mono, tune_inv, start_inv. Qed.
Theorem finished_thm c t0 ms ms' : is_finished c (snd (tune c ms (start c t0))) = true ->
  Forall (eq (t_min c)) (fst (tune c ms' (snd (tune c ms (start c t0))))) /\ is_finished c (snd (tune c (ms ++ ms') (start c t0))) = true.
Proof. intros H. rewrite tune_app. cbn [snd]. apply finished_stays; [apply tune_inv, start_inv|exact H]. Qed.
(** The call that finishes commands the minimum *)
Theorem finishing_thm c t0 ms m : is_finished c (snd (tune c (ms ++ [m]) (start c t0))) = true -> last (fst (tune c (ms ++ [m]) (start c t0))) (t_max c) = t_min c.
Proof.
  rewrite tune_app. cbn [fst snd]. set (t := snd (tune c ms (start c t0))). assert (Hi : inv c t) by apply tune_inv, start_inv. destruct m as [x now]. cbn [tune].
  destruct (step_relay c x now t Hi) as (H1 & H2 & H3). destruct (do_autotune c x now t) as [o t']. cbn [fst snd] in *. intros F.
  rewrite last_last. pose proof (relay_cases (t_cycles c) (on t, cycle t) x (f_sub (t_target c) (t_hyst c)) (f_add (t_target c) (t_hyst c))) as [_ R].
  rewrite <- H3 in R. cbn [fst snd] in R. rewrite H2, H1, R; [reflexivity|]. apply Z.leb_le. exact F.
Qed.

Lemma loop_runs c : forall ms t r, autotune_loop c ms t = Some r -> exists ms1 ms2, ms = ms1 ++ ms2 /\
  fst r = fst (tune c ms1 t) ++ [f_ofZ 0] /\ snd r = snd (tune c ms1 t) /\ is_finished c (snd r) = true /\
  (forall m1 m2 m, ms1 = m1 ++ m :: m2 -> is_finished c (snd (tune c m1 t)) = false).
Proof.
  induction ms as [|[x now] ms IH]; intros t [os u]; cbn [autotune_loop]; destruct (is_finished c t) eqn:E.
  - intros H. exists [], []. assert (Hr : ([f_ofZ 0], t) = (os, u)) by congruence. assert (os = [f_ofZ 0]) by congruence. assert (u = t) by congruence. subst.
    repeat split; [exact E|]. intros [|? ?]; discriminate.
  - discriminate.
  - intros H. exists [], ((x, now) :: ms). assert (os = [f_ofZ 0]) by congruence. assert (u = t) by congruence. subst.
    repeat split; [exact E|]. intros [|? ?]; discriminate.
  - destruct (do_autotune c x now t) as [o t1] eqn:Ed. destruct (autotune_loop c ms t1) as [[os2 t2]|] eqn:El; [|discriminate]. intros H.
    assert (os = o :: os2) by congruence. assert (u = t2) by congruence. subst. clear H.
    destruct (IH t1 _ El) as (ms1 & ms2 & -> & H1 & H2 & H3 & H4). cbn [fst snd] in *.
    exists ((x, now) :: ms1), ms2. cbn [tune]. rewrite Ed. destruct (tune c ms1 t1) as [os1 t3] eqn:Et. cbn [fst snd] in *. subst.
    repeat split; [exact H3|]. intros [|[y n] m1] m2 m Hm; [exact E|]. assert (Hy : (y, n) = (x, now)) by (cbn in Hm; congruence). assert (ms1 = m1 ++ m :: m2) by (cbn in Hm; congruence).
    assert (y = x) by congruence. assert (n = now) by congruence. subst. cbn [tune]. rewrite Ed. specialize (H4 m1 m2 m eq_refl). destruct (tune c m1 t1). exact H4.
Qed.
Theorem loop_thm c t0 ms os t : autotune_loop c ms (start c t0) = Some (os, t) ->
  exists ms1 ms2, ms = ms1 ++ ms2 /\ os = fst (tune c ms1 (start c t0)) ++ [f_ofZ 0] /\ t = snd (tune c ms1 (start c t0)) /\
    (forall m1 m2 m, ms1 = m1 ++ m :: m2 -> is_finished c (snd (tune c m1 (start c t0))) = false) /\ is_finished c t = true /\
    Forall (fun o => o = t_min c \/ o = t_max c) (removelast os).
Proof.
  intros H. destruct (loop_runs c ms _ _ H) as (ms1 & ms2 & H1 & H2 & H3 & H4 & H5). cbn [fst snd] in *. exists ms1, ms2.
  repeat split; try assumption. rewrite H2, removelast_last. apply two_values_thm.
Qed.
Lemma neq_test (x y : float) : negb (f_eq x y) && f_eq y y = true -> x <> y.
Proof. intros H ->. destruct (f_eq y y); discriminate. Qed.
Lemma is_nan_test (x : float) : f_isnan x = true -> x = f_nan.
Proof. destruct x; cbn; try discriminate. reflexivity. Qed.
Theorem one_cycle_thm c t0 ms m : t_cycles c = 1 -> is_finished c (snd (tune c ms (start c t0))) = false -> is_finished c (snd (tune c (ms ++ [m]) (start c t0))) = true ->
  gp (snd (tune c (ms ++ [m]) (start c t0))) = f_nan.
Proof.
  intros Hc H F. destruct (final_gains_thm c (Z.of_nat (length ms) + 2) t0 ms m H F ltac:(lia)) as (L & _ & G & _). rewrite G, Hc. rewrite Hc in L.
  destruct (gains_seen _ _) as [|g [|g' l]]; cbn [length] in L; try lia. apply is_nan_test. vm_compute. reflexivity.
Qed.
Theorem two_cycles_thm c t0 ms m : t_cycles c = 2 -> is_finished c (snd (tune c ms (start c t0))) = false -> is_finished c (snd (tune c (ms ++ [m]) (start c t0))) = true ->
  let t := snd (tune c (ms ++ [m]) (start c t0)) in gp t = f_zero /\ gi t = f_zero /\ gd t = f_zero.
Proof.
  intros Hc H F. destruct (final_gains_thm c (Z.of_nat (length ms) + 2) t0 ms m H F ltac:(lia)) as (L & _ & G1 & G2 & G3). cbn zeta. rewrite G1, G2, G3, Hc. rewrite Hc in L.
  destruct (gains_seen _ _) as [|g [|g' [|g'' l]]]; cbn [length] in L; try lia.
  assert (E : divided (map gain_p (skipn 2 [g; g'])) (2 - 1) = f_zero).
  { cbn [skipn map]. unfold divided, fsum. cbn [fold_left]. vm_compute. reflexivity. }
  repeat split; exact E.
Qed.

(** ** One cycle *)
Section Cycle.
Variable c : tuner_config.
Notation lo := (f_sub (t_target c) (t_hyst c)).
Notation hi := (f_add (t_target c) (t_hyst c)).
Lemma gains_zn a b l h : gains c a b l h = zn c (f_sub a b) (l + h).
Proof. unfold gains, zn, factors, constants. destruct (t_mode c); reflexivity. Qed.

Lemma calm_step x now t : cycle t < t_cycles c -> (if on t then f_gt x hi else f_lt x lo) = false -> snd (do_autotune c x now t) = extremes x t.
Proof.
  intros Hc H. rewrite do_body. unfold body.
  assert (E1 : turn_off c x now (extremes x t) = extremes x t).
  { unfold turn_off. change (on (extremes x t)) with (on t). destruct (on t); [rewrite H|]; reflexivity. }
  rewrite E1. assert (E2 : turn_on c x now (extremes x t) = extremes x t).
  { unfold turn_on, ends_cycle. change (on (extremes x t)) with (on t). destruct (on t); [|rewrite H]; reflexivity. }
  rewrite E2. apply finish_not. exact Hc.
Qed.
Lemma calm_run : forall ms t, cycle t < t_cycles c -> Forall (fun m => (if on t then f_gt (fst m) hi else f_lt (fst m) lo) = false) ms ->
  let t' := snd (tune c ms t) in
  on t' = on t /\ cycle t' = cycle t /\ TunerModel.t1 t' = TunerModel.t1 t /\ TunerModel.t2 t' = TunerModel.t2 t /\ thigh t' = thigh t /\
  mx t' = peak (map fst ms) (mx t) /\ mn t' = trough (map fst ms) (mn t).
Proof.
  induction ms as [|[x now] ms IH]; intros t Hc HF; [repeat split|]. inversion HF as [|? ? H1 H2]; subst. cbn [fst] in H1.
  assert (E := calm_step x now t Hc H1). cbn [tune]. destruct (do_autotune c x now t) as [o u]. cbn [snd] in E. subst u.
  specialize (IH (extremes x t) Hc H2). cbn zeta in IH |- *. destruct (tune c ms (extremes x t)) as [os w]. cbn [snd] in *. exact IH.
Qed.
End Cycle.

Lemma switch_off c x now t : cycle t < t_cycles c -> on t = true -> f_gt x (f_add (t_target c) (t_hyst c)) = true -> f_lt x (f_sub (t_target c) (t_hyst c)) = false ->
  let t' := snd (do_autotune c x now t) in
  on t' = false /\ cycle t' = cycle t /\ TunerModel.t1 t' = now /\ TunerModel.t2 t' = TunerModel.t2 t /\ thigh t' = ksub MS MS now (TunerModel.t2 t) /\
  mx t' = t_target c /\ mn t' = trough [x] (mn t).
Proof.
  intros Hc Ho Hh Hl. cbn zeta. rewrite do_body. unfold body, turn_off. change (on (extremes x t)) with (on t). rewrite Ho, Hh. cbn [andb].
  unfold turn_on, ends_cycle. cbn [on negb andb]. rewrite Hl. rewrite finish_not by exact Hc. repeat split.
Qed.
Lemma switch_on c x now t : cycle t + 1 < t_cycles c -> on t = false -> f_lt x (f_sub (t_target c) (t_hyst c)) = true ->
  let t' := snd (do_autotune c x now t) in
  on t' = true /\ cycle t' = cycle t + 1 /\ TunerModel.t2 t' = now /\ mn t' = t_target c /\
  (gp t', gi t', gd t') = zn c (f_sub (peak [x] (mx t)) (trough [x] (mn t))) (ksub MS MS now (TunerModel.t1 t) + thigh t).
Proof.
  intros Hc Ho Hl. cbn zeta. rewrite do_body. unfold body, turn_off. change (on (extremes x t)) with (on t). rewrite Ho. cbn [andb].
  unfold turn_on, ends_cycle. change (on (extremes x t)) with (on t). rewrite Ho, Hl. cbn [negb andb]. rewrite gains_zn.
  change (mx (extremes x t)) with (peak [x] (mx t)). change (mn (extremes x t)) with (trough [x] (mn t)).
  change (TunerModel.t1 (extremes x t)) with (TunerModel.t1 t). change (thigh (extremes x t)) with (thigh t).
  destruct (zn c _ _) as [[kp ki] kd]. rewrite finish_not by exact Hc. repeat split.
Qed.
(** A call that completes a cycle and does not finish *)
Lemma completes c x now t : inv c t -> let t' := snd (do_autotune c x now t) in cycle t' = cycle t + 1 -> cycle t' < t_cycles c ->
  on t' = true /\ TunerModel.t2 t' = now /\ mn t' = t_target c.
Proof.
  intros _. cbn zeta. rewrite do_body, finish_cycle. intros H1 H2. rewrite finish_not by exact H2. revert H1. clear H2. unfold body, turn_on.
  destruct (ends_cycle c x _).
  - destruct (gains _ _ _ _ _) as [[kp ki] kd]. intros _. repeat split.
  - intros H. exfalso. revert H. unfold turn_off. destruct (on (extremes x t) && _); cbn [cycle extremes]; lia.
Qed.
Lemma snd_tune_cons c x now ms t : snd (tune c ((x, now) :: ms) t) = snd (tune c ms (snd (do_autotune c x now t))).
Proof. cbn [tune]. destruct (do_autotune c x now t) as [o u]. cbn [snd]. destruct (tune c ms u). reflexivity. Qed.
Lemma peak_app l l' x : peak (l ++ l') x = peak l' (peak l x). Proof. unfold peak. apply fold_left_app. Qed.
Lemma trough_app l l' x : trough (l ++ l') x = trough l' (trough l x). Proof. unfold trough. apply fold_left_app. Qed.

Theorem cycle_gains_thm c t0 pre x0 tb xs xoff toff ys xon ton :
  let lo := f_sub (t_target c) (t_hyst c) in let hi := f_add (t_target c) (t_hyst c) in
  let t := snd (tune c pre (start c t0)) in let t' := snd (do_autotune c x0 tb t) in
  cycle t' = cycle t + 1 -> cycle t' + 1 < t_cycles c ->
  Forall (fun m : float * Z => f_gt (fst m) hi = false) xs -> f_gt xoff hi = true -> f_lt xoff lo = false ->
  Forall (fun m : float * Z => f_lt (fst m) lo = false) ys -> f_lt xon lo = true ->
  Z.abs tb <= 2 ^ 24 -> Z.abs toff <= 2 ^ 24 ->
  let t'' := snd (tune c (pre ++ (x0, tb) :: xs ++ (xoff, toff) :: ys ++ [(xon, ton)]) (start c t0)) in
  cycle t'' = cycle t' + 1 /\
  (gp t'', gi t'', gd t'') =
    zn c (f_sub (peak (map fst ys ++ [xon]) (t_target c)) (trough (map fst xs ++ xoff :: map fst ys ++ [xon]) (t_target c))) (ton - tb).
Proof.
  cbn zeta. intros Hc Hn Hxs Ho1 Ho2 Hys Hon Hb1 Hb2.
  rewrite tune_app. cbn [snd]. set (t := snd (tune c pre (start c t0))) in *. rewrite snd_tune_cons.
  destruct (completes c x0 tb t (tune_inv c pre _ (start_inv c t0)) Hc ltac:(lia)) as (A1 & A2 & A3).
  set (t' := snd (do_autotune c x0 tb t)) in *.
  rewrite tune_app. cbn [snd]. rewrite snd_tune_cons.
  destruct (calm_run c xs t' ltac:(lia)) as (B1 & B2 & _ & B4 & _ & _ & B7). { rewrite A1. exact Hxs. }
  set (u := snd (tune c xs t')) in *.
  destruct (switch_off c xoff toff u ltac:(lia) ltac:(congruence) Ho1 Ho2) as (C1 & C2 & C3 & C4 & C5 & C6 & C7).
  set (v := snd (do_autotune c xoff toff u)) in *.
  rewrite tune_app. cbn [snd]. rewrite snd_tune_cons.
  destruct (calm_run c ys v ltac:(lia)) as (D1 & D2 & D3 & D4 & D5 & D6 & D7). { rewrite C1. exact Hys. }
  set (w := snd (tune c ys v)) in *.
  destruct (switch_on c xon ton w ltac:(lia) ltac:(congruence) Hon) as (E1 & E2 & E3 & E4 & E5).
  cbn [tune snd]. split; [lia|]. rewrite E5. f_equal.
  - rewrite D6, D7, C6, C7, B7, A3, peak_app. change (xoff :: map fst ys ++ [xon]) with ([xoff] ++ map fst ys ++ [xon]). rewrite !trough_app. reflexivity.
  - rewrite D3, C3, D5, C5, B4, A2. unfold ksub. rewrite !from_other_same, !near24_id by assumption. lia.
Qed.
