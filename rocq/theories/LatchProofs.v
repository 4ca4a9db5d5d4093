(** Lemmas about the model of SRLatch. *)
From Coq Require Import ZArith Lia Bool List.
From Verif Require Import Base KTimeModel KTimeProofs TimersModel LatchModel LatchSpec.
Import ListNotations.
Open Scope Z_scope.

Section Proofs.
Variable F : Type.
Variable ltb : F -> F -> bool.
Variable cfg : config F.
Hypothesis Hs : sane F cfg.
Notation above v := (ltb (high F cfg) v).
Notation below v := (ltb v (low F cfg)).
Notation step := (new_reading F ltb cfg).
Notation run := (readings F ltb cfg).

(** [s]: the latch's state and the time of its last setting *)
Definition inv (now : Z) (l : latch) : Prop := - 2 ^ 24 <= tlast (lturned l) <= now.

Lemma near_id x : Z.abs x <= 2 ^ 24 -> near24 x = x. Proof. apply near24_id. Qed.

Definition minimal (on : bool) : Z := if on then min_on F cfg else min_off F cfg.
Definition maximal (on : bool) : Z := if on then max_on F cfg else max_off F cfg.

Lemma step_eq now v l : 0 <= now <= 2 ^ 24 -> inv now l ->
  let since := now - tlast (lturned l) in
  step now v l =
  if since <? minimal (lvalue l) then l
  else if negb (maximal (lvalue l) =? 0) && (maximal (lvalue l) <? since) then mkLatch (negb (lvalue l)) (mkTimer now)
  else if above v then mkLatch true (mkTimer now) else if below v then mkLatch false (mkTimer now) else l.
Proof.
  intros Hn Hi since. destruct Hs as (H1 & H2 & H3 & H4). unfold inv in Hi.
  assert (Et : fst (time_since_last now false (lturned l)) = since).
  { unfold time_since_last; cbn [fst]. unfold ksub. rewrite from_other_same, near_id by lia. reflexivity. }
  unfold new_reading. rewrite Et. unfold klt, kgt, kne, keq. change (from_other MS MS 0) with 0. rewrite !from_other_same, !near_id by lia.
  unfold minimal, maximal, latch_set, timer_reset. destruct (lvalue l); cbn [andb negb]; rewrite ?andb_true_r, ?andb_false_r; reflexivity.
Qed.

Lemma new_inv now : 0 <= now -> inv now (latch_new F cfg now) /\ lvalue (latch_new F cfg now) = false /\ tlast (lturned (latch_new F cfg now)) = now - min_off F cfg.
Proof.
  intros Hn. destruct Hs as (H1 & H2 & H3 & H4). unfold inv, latch_new, timer_new, ksub; cbn [lvalue lturned tlast]. rewrite from_other_same, near_id by lia. repeat split; lia.
Qed.

Lemma step_inv now v l t : 0 <= now <= 2 ^ 24 -> inv t l -> t <= now -> inv now (step now v l).
Proof.
  intros Hn Hi Ht. assert (inv now l) as Hi' by (unfold inv in *; lia). rewrite step_eq by auto. cbv zeta.
  destruct (now - tlast (lturned l) <? minimal (lvalue l)); auto.
  assert (forall b, inv now (mkLatch b (mkTimer now))) by (intros; unfold inv; cbn [lturned tlast]; lia).
  destruct (negb (maximal (lvalue l) =? 0) && (maximal (lvalue l) <? now - tlast (lturned l))); auto.
  destruct (above v); auto. destruct (below v); auto.
Qed.

Lemma set_kinds now v l : 0 <= now <= 2 ^ 24 -> inv now l ->
  (step now v l = l \/ tlast (lturned (step now v l)) = now) /\
  (lvalue (step now v l) <> lvalue l -> tlast (lturned (step now v l)) = now /\ minimal (lvalue l) <= now - tlast (lturned l)).
Proof.
  intros Hn Hi. rewrite step_eq by auto. cbv zeta. destruct (Z.ltb_spec (now - tlast (lturned l)) (minimal (lvalue l))); [split; [auto|congruence]|].
  destruct (negb (maximal (lvalue l) =? 0) && (maximal (lvalue l) <? now - tlast (lturned l))); [split; auto|].
  destruct (above v); [split; auto|]. destruct (below v); [split; auto|]. split; [auto|congruence].
Qed.

(** The last time of a history *)
Fixpoint fin (t0 : Z) (rs : list (Z * F)) : Z := match rs with [] => t0 | (t, _) :: rs' => fin t rs' end.
Lemma run_app rs1 : forall l rs2, run l (rs1 ++ rs2) = run (run l rs1) rs2.
Proof. induction rs1 as [|[t v] rs1 IH]; intros; cbn [app readings]; auto. Qed.
Lemma timely_app rs1 : forall t0 rs2, timely F t0 (rs1 ++ rs2) -> timely F t0 rs1 /\ timely F (fin t0 rs1) rs2.
Proof.
  induction rs1 as [|[t v] rs1 IH]; intros t0 rs2 H; cbn [app fin] in *; [split; [constructor|auto]|].
  inversion H; subst. edestruct IH; eauto. split; auto. constructor; auto.
Qed.
Lemma run_inv rs : forall t0 l, 0 <= t0 -> timely F t0 rs -> inv t0 l ->
  inv (fin t0 rs) (run l rs) /\ t0 <= fin t0 rs /\ tlast (lturned l) <= tlast (lturned (run l rs)) /\ (t0 <= 2 ^ 24 -> fin t0 rs <= 2 ^ 24).
Proof.
  induction rs as [|[t v] rs IH]; intros t0 l H0 Ht Hi; cbn [readings fin]; [repeat split; auto; try lia; apply Hi|].
  inversion Ht; subst. assert (inv t l) as Hi' by (unfold inv in *; lia).
  destruct (IH t (step t v l) ltac:(lia) H5) as (A & B & C & D); [eapply step_inv; eauto; lia|].
  destruct (set_kinds t v l ltac:(lia) Hi') as [[E|E] _]; repeat split; auto; try lia; try apply A; try (rewrite E in C; unfold inv in *; lia).
  - rewrite E in *. lia.
Qed.

Lemma switch_gap t0 pre t1 v1 mid t2 v2 : 0 <= t0 -> timely F t0 (pre ++ (t1, v1) :: mid ++ [(t2, v2)]) ->
  let l0 := run (latch_new F cfg t0) pre in
  let l1 := run (latch_new F cfg t0) (pre ++ [(t1, v1)]) in
  let l2 := run (latch_new F cfg t0) (pre ++ (t1, v1) :: mid) in
  let l3 := run (latch_new F cfg t0) (pre ++ (t1, v1) :: mid ++ [(t2, v2)]) in
  response l1 <> response l0 -> response l3 <> response l2 -> minimal (response l2) <= t2 - t1.
Proof.
  intros H0 Ht l0 l1 l2 l3 S1 S2. unfold response in *. destruct (new_inv t0 H0) as (Hi & _).
  apply timely_app in Ht as [Hp Ht]. destruct (run_inv pre t0 _ H0 Hp Hi) as (I0 & F0 & _). fold l0 in I0.
  inversion Ht as [|? ? ? ? Ht1 Hm]; subst. assert (inv t1 l0) as I0' by (unfold inv in *; lia).
  assert (E1 : l1 = step t1 v1 l0) by (unfold l1; rewrite run_app; reflexivity).
  assert (inv t1 l1) as I1 by (rewrite E1; eapply step_inv; eauto; lia).
  apply timely_app in Hm as [Hm H2]. assert (E2 : l2 = run l1 mid) by (unfold l2; rewrite run_app; cbn [readings]; now rewrite E1).
  destruct (run_inv mid t1 l1 ltac:(lia) Hm I1) as (I2 & F2 & T2 & _). rewrite <- E2 in *.
  inversion H2 as [|? ? ? ? Ht2 _]; subst t v rs t3. assert (inv t2 l2) as I2' by (unfold inv in *; lia).
  assert (E3 : l3 = step t2 v2 l2). { unfold l3. rewrite app_comm_cons, app_assoc, run_app. fold l2. reflexivity. }
  rewrite E1 in S1. apply (set_kinds t1 v1 l0) in S1 as [T1 _]; [|lia|auto]. rewrite <- E1 in T1.
  rewrite E3 in S2. apply (set_kinds t2 v2 l2) in S2 as [_ G]; [|lia|auto]. lia.
Qed.

Lemma step_follow now v l : 0 <= now <= 2 ^ 24 -> inv now l ->
  (lvalue (step now v l), tlast (lturned (step now v l))) = follow F ltb cfg (lvalue l, tlast (lturned l)) (now, v).
Proof.
  intros Hn Hi. rewrite step_eq by auto. cbv zeta. unfold follow, minimal, maximal.
  destruct (lvalue l) eqn:El.
  - destruct (Z.ltb_spec (now - tlast (lturned l)) (min_on F cfg)), (Z_lt_dec (now - tlast (lturned l)) (min_on F cfg)); try lia; rewrite ?El; auto.
    destruct (Z.eqb_spec (max_on F cfg) 0), (Z.eq_dec (max_on F cfg) 0); try lia; cbn [negb andb].
    + destruct (above v); auto. destruct (below v); rewrite ?El; auto.
    + destruct (Z.ltb_spec (max_on F cfg) (now - tlast (lturned l))), (Z_lt_dec (max_on F cfg) (now - tlast (lturned l))); try lia; auto.
      destruct (above v); auto. destruct (below v); rewrite ?El; auto.
  - destruct (Z.ltb_spec (now - tlast (lturned l)) (min_off F cfg)), (Z_lt_dec (now - tlast (lturned l)) (min_off F cfg)); try lia; rewrite ?El; auto.
    destruct (Z.eqb_spec (max_off F cfg) 0), (Z.eq_dec (max_off F cfg) 0); try lia; cbn [negb andb].
    + destruct (above v); auto. destruct (below v); rewrite ?El; auto.
    + destruct (Z.ltb_spec (max_off F cfg) (now - tlast (lturned l))), (Z_lt_dec (max_off F cfg) (now - tlast (lturned l))); try lia; auto.
      destruct (above v); auto. destruct (below v); rewrite ?El; auto.
Qed.
Lemma run_follow rs : forall t0 l, 0 <= t0 -> timely F t0 rs -> inv t0 l ->
  (lvalue (run l rs), tlast (lturned (run l rs))) = fold_left (follow F ltb cfg) rs (lvalue l, tlast (lturned l)).
Proof.
  induction rs as [|[t v] rs IH]; intros t0 l H0 Ht Hi; cbn [readings fold_left]; [reflexivity|].
  inversion Ht; subst. assert (inv t l) as Hi' by (unfold inv in *; lia). rewrite <- step_follow by (auto; lia).
  apply (IH t); auto; [lia|]. eapply step_inv; eauto; lia.
Qed.
Lemma exact t0 rs : 0 <= t0 -> timely F t0 rs ->
  response (run (latch_new F cfg t0) rs) = fst (fold_left (follow F ltb cfg) rs (false, t0 - min_off F cfg)).
Proof.
  intros H0 Ht. destruct (new_inv t0 H0) as (Hi & E1 & E2). pose proof (run_follow rs t0 _ H0 Ht Hi) as H. rewrite E1, E2 in H. rewrite <- H. reflexivity.
Qed.

(** In band *)
Definition in_band (r : Z * F) : Prop := above (snd r) = false /\ below (snd r) = false.
Lemma quiet_mid mid : forall t0 l, 0 <= t0 -> timely F t0 mid -> inv t0 l -> Forall in_band mid ->
  (forall m1 m2, mid = m1 ++ m2 -> lvalue (run l m1) = lvalue l) -> run l mid = l.
Proof.
  induction mid as [|[t v] mid IH]; intros t0 l H0 Ht Hi Hb Hall; cbn [readings]; auto.
  inversion Ht; subst. inversion Hb as [|? ? [Ha Hl] Hb']; subst. cbn [snd] in *. assert (inv t l) as Hi' by (unfold inv in *; lia).
  assert (E : step t v l = l).
  { pose proof (Hall [(t, v)] mid eq_refl) as E. cbn [readings] in E. revert E. rewrite step_eq by (auto; lia). cbv zeta. rewrite Ha, Hl.
    destruct (t - tlast (lturned l) <? minimal (lvalue l)); auto. destruct (negb (maximal (lvalue l) =? 0) && (maximal (lvalue l) <? t - tlast (lturned l))); auto.
    cbn [lvalue]. destruct (lvalue l); discriminate. }
  rewrite E. apply (IH t); auto; [lia|]. intros m1 m2 Em. specialize (Hall ((t, v) :: m1) m2). cbn [readings app] in Hall. rewrite E in Hall. apply Hall. now rewrite Em.
Qed.

Lemma max_enforced t0 pre t1 v1 mid t2 v2 : 0 <= t0 -> timely F t0 (pre ++ (t1, v1) :: mid ++ [(t2, v2)]) ->
  let l0 := run (latch_new F cfg t0) pre in
  let l1 := run (latch_new F cfg t0) (pre ++ [(t1, v1)]) in
  response l1 <> response l0 ->
  Forall in_band mid -> (forall m1 m2, mid = m1 ++ m2 -> response (run (latch_new F cfg t0) (pre ++ (t1, v1) :: m1)) = response l1) ->
  maximal (response l1) <> 0 -> maximal (response l1) < t2 - t1 -> minimal (response l1) <= t2 - t1 ->
  response (run (latch_new F cfg t0) (pre ++ (t1, v1) :: mid ++ [(t2, v2)])) = negb (response l1).
Proof.
  intros H0 Ht l0 l1 S1 Hb Hall Hm0 Hm Hmin. unfold response in *. destruct (new_inv t0 H0) as (Hi & _).
  apply timely_app in Ht as [Hp Ht]. destruct (run_inv pre t0 _ H0 Hp Hi) as (I0 & F0 & _). fold l0 in I0.
  inversion Ht as [|? ? ? ? Ht1 Hmid]; subst. assert (inv t1 l0) as I0' by (unfold inv in *; lia).
  assert (E1 : l1 = step t1 v1 l0) by (unfold l1; rewrite run_app; reflexivity).
  assert (inv t1 l1) as I1 by (rewrite E1; eapply step_inv; eauto; lia).
  apply timely_app in Hmid as [Hmid H2].
  destruct (run_inv mid t1 l1 ltac:(lia) Hmid I1) as (I2 & F2 & T2 & _).
  assert (E2 : run l1 mid = l1).
  { apply (quiet_mid mid t1); auto; [lia|]. intros m1 m2 E. rewrite <- (Hall m1 m2 E). f_equal. rewrite run_app. cbn [readings]. now rewrite E1. }
  rewrite E2 in *. inversion H2 as [|? ? ? ? Ht2 _]; subst t v rs t3. assert (inv t2 l1) as I2' by (unfold inv in *; lia).
  rewrite run_app. cbn [readings]. fold l0. rewrite <- E1, run_app, E2. cbn [readings].
  rewrite E1 in S1. apply (set_kinds t1 v1 l0) in S1 as [T1 _]; [|lia|auto]. rewrite <- E1 in T1.
  rewrite step_eq by (auto; lia). cbv zeta. rewrite T1. destruct (Z.ltb_spec (t2 - t1) (minimal (lvalue l1))); [lia|].
  destruct (Z.eqb_spec (maximal (lvalue l1)) 0); [lia|]. destruct (Z.ltb_spec (maximal (lvalue l1)) (t2 - t1)); [|lia]. reflexivity.
Qed.

(** Holds between the thresholds without maxima *)
Lemma hold_band t0 pre t v : 0 <= t0 -> timely F t0 (pre ++ [(t, v)]) -> in_band (t, v) -> max_on F cfg = 0 -> max_off F cfg = 0 ->
  run (latch_new F cfg t0) (pre ++ [(t, v)]) = run (latch_new F cfg t0) pre.
Proof.
  intros H0 Ht [Ha Hb] M1 M2. cbn [snd] in *. destruct (new_inv t0 H0) as (Hi & _). apply timely_app in Ht as [Hp Ht].
  destruct (run_inv pre t0 _ H0 Hp Hi) as (I0 & F0 & _). inversion Ht; subst. rewrite run_app. cbn [readings].
  rewrite step_eq by (try lia; unfold inv in *; lia). cbv zeta. unfold maximal. rewrite Ha, Hb, M1, M2.
  destruct (t - tlast (lturned (run (latch_new F cfg t0) pre)) <? minimal (lvalue (run (latch_new F cfg t0) pre))); auto.
  destruct (lvalue (run (latch_new F cfg t0) pre)); reflexivity.
Qed.
Lemma plain t0 pre t v : 0 <= t0 -> timely F t0 (pre ++ [(t, v)]) -> max_on F cfg = 0 -> max_off F cfg = 0 -> min_on F cfg = 0 -> min_off F cfg = 0 ->
  response (run (latch_new F cfg t0) (pre ++ [(t, v)])) = if above v then true else if below v then false else response (run (latch_new F cfg t0) pre).
Proof.
  intros H0 Ht M1 M2 M3 M4. destruct (new_inv t0 H0) as (Hi & _). apply timely_app in Ht as [Hp Ht].
  destruct (run_inv pre t0 _ H0 Hp Hi) as (I0 & F0 & _). inversion Ht; subst. rewrite run_app. cbn [readings]. unfold response.
  rewrite step_eq by (try lia; unfold inv in *; lia). cbv zeta. unfold minimal, maximal. rewrite M1, M2, M3, M4.
  unfold inv in I0. set (l := run (latch_new F cfg t0) pre) in *.
  replace (if lvalue l then 0 else 0) with 0 by (destruct (lvalue l); reflexivity). destruct (Z.ltb_spec (t - tlast (lturned l)) 0); [lia|].
  cbn [Z.eqb negb andb]. destruct (above v); auto. destruct (below v); auto.
Qed.
End Proofs.

(** ** At any uptime *)
Section Any.
Variable F : Type.
Variable ltb : F -> F -> bool.
Variable cfg : config F.
Hypothesis Hs : nonneg F cfg.
Notation above v := (ltb (high F cfg) v).
Notation below v := (ltb v (low F cfg)).
Notation step := (new_reading F ltb cfg).
Notation run := (readings F ltb cfg).
Notation minimal := (minimal F cfg).
Notation maximal := (maximal F cfg).

Lemma step_any now v l :
  let since := now - near24 (tlast (lturned l)) in
  step now v l =
  if since <? near24 (minimal (lvalue l)) then l
  else if negb (maximal (lvalue l) =? 0) && (near24 (maximal (lvalue l)) <? since) then mkLatch (negb (lvalue l)) (mkTimer now)
  else if above v then mkLatch true (mkTimer now) else if below v then mkLatch false (mkTimer now) else l.
Proof.
  intros since. assert (Et : fst (time_since_last now false (lturned l)) = since).
  { unfold time_since_last; cbn [fst]. unfold ksub. now rewrite from_other_same. }
  unfold new_reading. rewrite Et. unfold klt, kgt, kne, keq. change (from_other MS MS 0) with 0. rewrite !from_other_same.
  unfold LatchProofs.minimal, LatchProofs.maximal, latch_set, timer_reset. destruct (lvalue l); cbn [andb negb]; rewrite ?andb_true_r, ?andb_false_r; reflexivity.
Qed.

Lemma kinds now v l :
  (step now v l = l \/ tlast (lturned (step now v l)) = now) /\
  (lvalue (step now v l) <> lvalue l -> tlast (lturned (step now v l)) = now /\ near24 (minimal (lvalue l)) <= now - near24 (tlast (lturned l))).
Proof.
  rewrite step_any. cbv zeta. destruct (Z.ltb_spec (now - near24 (tlast (lturned l))) (near24 (minimal (lvalue l)))); [split; [auto|congruence]|].
  destruct (negb (maximal (lvalue l) =? 0) && (near24 (maximal (lvalue l)) <? now - near24 (tlast (lturned l)))); [split; auto|].
  destruct (above v); [split; auto|]. destruct (below v); [split; auto|]. split; [auto|congruence].
Qed.

Lemma rising_app rs1 : forall t0 rs2, rising F t0 (rs1 ++ rs2) -> rising F t0 rs1 /\ rising F (fin F t0 rs1) rs2.
Proof.
  induction rs1 as [|[t v] rs1 IH]; intros t0 rs2 H; cbn [app fin] in *; [split; [constructor|auto]|].
  inversion H; subst. edestruct IH; eauto. split; auto. constructor; auto.
Qed.
Lemma run_last rs : forall t0 l, rising F t0 rs -> tlast (lturned l) <= t0 ->
  tlast (lturned (run l rs)) <= fin F t0 rs /\ t0 <= fin F t0 rs /\ tlast (lturned l) <= tlast (lturned (run l rs)).
Proof.
  induction rs as [|[t v] rs IH]; intros t0 l Ht Hi; cbn [readings fin]; [lia|].
  inversion Ht; subst. destruct (kinds t v l) as [E _].
  destruct (IH t (step t v l)) as (A & B & C); auto; [destruct E as [-> | ->]; lia|]. destruct E as [E|E]; rewrite E in *; lia.
Qed.
Lemma new_last t0 : tlast (lturned (latch_new F cfg t0)) <= t0.
Proof.
  destruct Hs as (_ & _ & H & _). unfold latch_new, timer_new, ksub; cbn [lturned tlast]. rewrite from_other_same. pose proof (near24_nonneg (min_off F cfg) H). lia.
Qed.
Lemma minimal_nonneg b : 0 <= minimal b. Proof. destruct Hs as (A & B & C & D), b; cbn; lia. Qed.
Lemma maximal_nonneg b : 0 <= maximal b. Proof. destruct Hs as (A & B & C & D), b; cbn; lia. Qed.

Lemma switch_gap_any t0 pre t1 v1 mid t2 v2 : 0 <= t0 -> rising F t0 (pre ++ (t1, v1) :: mid ++ [(t2, v2)]) ->
  let l0 := run (latch_new F cfg t0) pre in
  let l1 := run (latch_new F cfg t0) (pre ++ [(t1, v1)]) in
  let l2 := run (latch_new F cfg t0) (pre ++ (t1, v1) :: mid) in
  let l3 := run (latch_new F cfg t0) (pre ++ (t1, v1) :: mid ++ [(t2, v2)]) in
  response l1 <> response l0 -> response l3 <> response l2 -> 2 ^ 24 * (minimal (response l2) - (t2 - t1)) <= minimal (response l2) + t2.
Proof.
  intros H0 Ht l0 l1 l2 l3 S1 S2. unfold response in *.
  apply rising_app in Ht as [Hp Ht]. destruct (run_last pre t0 _ Hp (new_last t0)) as (I0 & F0 & _). fold l0 in I0.
  inversion Ht as [|? ? ? ? Ht1 Hm]; subst.
  assert (E1 : l1 = step t1 v1 l0) by (unfold l1; rewrite run_app; reflexivity).
  apply rising_app in Hm as [Hm H2]. assert (E2 : l2 = run l1 mid) by (unfold l2; rewrite run_app; cbn [readings]; now rewrite E1).
  rewrite E1 in S1. apply kinds in S1 as [T1 _]. rewrite <- E1 in T1.
  destruct (run_last mid t1 l1 Hm ltac:(lia)) as (I2 & F2 & T2). rewrite <- E2 in *.
  inversion H2 as [|? ? ? ? Ht2 _]; subst t v rs t3.
  assert (E3 : l3 = step t2 v2 l2). { unfold l3. rewrite app_comm_cons, app_assoc, run_app. fold l2. reflexivity. }
  rewrite E3 in S2. apply kinds in S2 as [_ G].
  pose proof (near24_error (minimal (lvalue l2))). pose proof (near24_error (tlast (lturned l2))). pose proof (minimal_nonneg (lvalue l2)). lia.
Qed.

Lemma hold_any t0 pre t v : in_band F ltb cfg (t, v) -> max_on F cfg = 0 -> max_off F cfg = 0 ->
  run (latch_new F cfg t0) (pre ++ [(t, v)]) = run (latch_new F cfg t0) pre.
Proof.
  intros [Ha Hb] M1 M2. cbn [snd] in *. rewrite run_app. cbn [readings].
  rewrite step_any. cbv zeta. unfold LatchProofs.maximal. rewrite Ha, Hb, M1, M2.
  destruct (t - near24 (tlast (lturned (run (latch_new F cfg t0) pre))) <? near24 (minimal (lvalue (run (latch_new F cfg t0) pre)))); auto.
  destruct (lvalue (run (latch_new F cfg t0) pre)); reflexivity.
Qed.

Lemma quiet_any mid : forall l, Forall (in_band F ltb cfg) mid ->
  (forall m1 m2, mid = m1 ++ m2 -> lvalue (run l m1) = lvalue l) -> run l mid = l.
Proof.
  induction mid as [|[t v] mid IH]; intros l Hb Hall; cbn [readings]; auto.
  inversion Hb as [|? ? [Ha Hl] Hb']; subst. cbn [snd] in *.
  assert (E : step t v l = l).
  { pose proof (Hall [(t, v)] mid eq_refl) as E. cbn [readings] in E. revert E. rewrite step_any. cbv zeta. rewrite Ha, Hl.
    destruct (t - near24 (tlast (lturned l)) <? near24 (minimal (lvalue l))); auto.
    destruct (negb (maximal (lvalue l) =? 0) && (near24 (maximal (lvalue l)) <? t - near24 (tlast (lturned l)))); auto.
    cbn [lvalue]. destruct (lvalue l); discriminate. }
  rewrite E. apply IH; auto. intros m1 m2 Em. specialize (Hall ((t, v) :: m1) m2). cbn [readings app] in Hall. rewrite E in Hall. apply Hall. now rewrite Em.
Qed.

Lemma max_any t0 pre t1 v1 mid t2 v2 : 0 <= t0 -> rising F t0 (pre ++ (t1, v1) :: mid ++ [(t2, v2)]) ->
  let l0 := run (latch_new F cfg t0) pre in
  let l1 := run (latch_new F cfg t0) (pre ++ [(t1, v1)]) in
  response l1 <> response l0 ->
  Forall (in_band F ltb cfg) mid -> (forall m1 m2, mid = m1 ++ m2 -> response (run (latch_new F cfg t0) (pre ++ (t1, v1) :: m1)) = response l1) ->
  maximal (response l1) <> 0 -> maximal (response l1) + t1 < 2 ^ 24 * (t2 - t1 - maximal (response l1)) ->
  minimal (response l1) + t1 <= 2 ^ 24 * (t2 - t1 - minimal (response l1)) ->
  response (run (latch_new F cfg t0) (pre ++ (t1, v1) :: mid ++ [(t2, v2)])) = negb (response l1).
Proof.
  intros H0 Ht l0 l1 S1 Hb Hall Hm0 Hm Hmin. unfold response in *.
  apply rising_app in Ht as [Hp Ht]. destruct (run_last pre t0 _ Hp (new_last t0)) as (I0 & F0 & _). fold l0 in I0.
  inversion Ht as [|? ? ? ? Ht1 Hmid]; subst.
  assert (E1 : l1 = step t1 v1 l0) by (unfold l1; rewrite run_app; reflexivity).
  assert (E2 : run l1 mid = l1).
  { apply quiet_any; auto. intros m1 m2 E. rewrite <- (Hall m1 m2 E). f_equal. rewrite run_app. cbn [readings]. now rewrite E1. }
  rewrite run_app. cbn [readings]. fold l0. rewrite <- E1, run_app, E2. cbn [readings].
  rewrite E1 in S1. apply kinds in S1 as [T1 _]. rewrite <- E1 in T1.
  pose proof (near24_error (minimal (lvalue l1))). pose proof (near24_error t1). pose proof (minimal_nonneg (lvalue l1)).
  pose proof (near24_error (maximal (lvalue l1))). pose proof (maximal_nonneg (lvalue l1)).
  rewrite step_any. cbv zeta. rewrite T1. destruct (Z.ltb_spec (t2 - near24 t1) (near24 (minimal (lvalue l1)))); [lia|].
  destruct (Z.eqb_spec (maximal (lvalue l1)) 0); [lia|]. destruct (Z.ltb_spec (near24 (maximal (lvalue l1))) (t2 - near24 t1)); [|lia]. reflexivity.
Qed.

(** Without any times, once the clock has moved by its 2^24th part *)
Lemma plain_any t0 pre t v : max_on F cfg = 0 -> max_off F cfg = 0 -> min_on F cfg = 0 -> min_off F cfg = 0 ->
  (forall t' v' p q, pre = p ++ (t', v') :: q -> 0 <= t' <= 2 ^ 24 * (t - t')) -> 0 <= t0 <= 2 ^ 24 * (t - t0) ->
  response (run (latch_new F cfg t0) (pre ++ [(t, v)])) = if above v then true else if below v then false else response (run (latch_new F cfg t0) pre).
Proof.
  intros M1 M2 M3 M4 Hpre Ht0. rewrite run_app. cbn [readings]. unfold response.
  assert (Hl : forall q l, 0 <= tlast (lturned l) <= 2 ^ 24 * (t - tlast (lturned l)) -> (forall t' v' p q', q = p ++ (t', v') :: q' -> 0 <= t' <= 2 ^ 24 * (t - t')) ->
    0 <= tlast (lturned (run l q)) <= 2 ^ 24 * (t - tlast (lturned (run l q)))).
  { induction q as [|[t1 v1] q IH]; intros l Hl Hq; cbn [readings]; auto. apply IH.
    - destruct (kinds t1 v1 l) as [[-> | ->] _]; auto. apply (Hq t1 v1 [] q eq_refl).
    - intros t' v' p q' E. apply (Hq t' v' ((t1, v1) :: p) q'). now rewrite E. }
  assert (0 <= tlast (lturned (run (latch_new F cfg t0) pre)) <= 2 ^ 24 * (t - tlast (lturned (run (latch_new F cfg t0) pre)))) as H.
  { apply Hl; auto. unfold latch_new, timer_new, ksub; cbn [lturned tlast]. rewrite from_other_same, M4. change (near24 0) with 0. rewrite Z.sub_0_r. exact Ht0. }
  rewrite step_any. cbv zeta. unfold LatchProofs.minimal, LatchProofs.maximal. rewrite M1, M2, M3, M4.
  set (l := run (latch_new F cfg t0) pre) in *. pose proof (near24_error (tlast (lturned l))).
  replace (if lvalue l then 0 else 0) with 0 by (destruct (lvalue l); reflexivity). change (near24 0) with 0.
  destruct (Z.ltb_spec (t - near24 (tlast (lturned l))) 0); [lia|].
  cbn [Z.eqb negb andb]. destruct (above v); auto. destruct (below v); auto.
Qed.
End Any.
