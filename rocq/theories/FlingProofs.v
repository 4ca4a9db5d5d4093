(** Proofs about the event system with handlers which throw. *)
From Coq Require Import List Arith ZArith Lia Bool Permutation Sorting.Sorted.
From Verif Require Import Base KTimeModel KTimeProofs TimersModel VectorModel VectorSpec VectorProofs PoolModel EvModel EvSpec EvProofs EvTrace EvThms FlingModel FlingSpec.
Import ListNotations.
Local Open Scope nat_scope.

(** ** The code does what the event system over lists does *)
Section Sim.
Variable D : Type.
Variable W : Z.
Variable L : nat.
Variable dbg : bool.
Variable cfg : config.
Variable beh : list (entry D) -> list (hact D).
Notation cap := (c_cap cfg).
Notation hcap := (c_handler_cap cfg).
Notation idle := (kconv MS US (c_min_us cfg)).
Hypothesis HcapL : cap < L.
Hypothesis HcapW : (Z.of_nat cap < 2 ^ W)%Z.
Hypothesis HhcapW : (Z.of_nat hcap < 2 ^ W)%Z.
Hypothesis Hidle : (0 <= idle)%Z.
Notation es := (es D).
Notation sp := (sp D).
Notation R := (R D W cfg).
Notation RL := (RL D W cfg).

Definition fsim (Q : es -> sp -> Prop) (x : outcome (bool * es)) (y : outcome (bool * sp)) : Prop :=
  match x, y with
  | Ok (b, a), Ok (b', p) => b = b' /\ Q a p
  | Halt, Halt => True | UB, UB => True | Fuel, Fuel => True
  | _, _ => False
  end.
Lemma fsim_bind (Q Q' : es -> sp -> Prop) x y f g :
  fsim Q x y -> (forall b s p, Q s p -> fsim Q' (f (b, s)) (g (b, p))) -> fsim Q' (bind x f) (bind y g).
Proof.
  intros H1 H2. destruct x as [[b s]| | | |], y as [[b' p]| | | |]; try contradiction H1; try exact I; cbn [bind].
  destruct H1 as [-> H1]. apply H2. exact H1.
Qed.
Lemma fsim_weaken (Q Q' : es -> sp -> Prop) x y : (forall a b, Q a b -> Q' a b) -> fsim Q x y -> fsim Q' x y.
Proof. intros H. destruct x as [[b s]| | | |], y as [[b' p]| | | |]; simpl; auto. intros [? ?]; auto. Qed.
Lemma fsim_lift Q x y : sim D Q x y -> fsim Q (s1 <- x ;; Ok (false, s1)) (p1 <- y ;; Ok (false, p1)).
Proof. destruct x, y; simpl; auto. Qed.
Lemma RL_refl s p : R s p -> RL s s p.
Proof. intros H. unfold EvProofs.RL. splits; auto using keep_refl, stay_refl. Qed.

Section Calls.
Variable rec : act D -> es -> outcome (bool * es).
Variable srec : act D -> sp -> outcome (bool * sp).
Hypothesis Hrec : forall a s p, R s p -> fsim (RL s) (rec a s) (srec a p).

Lemma hacts_sim l s p : R s p -> fsim (RL s) (do_hacts D rec l s) (fsp_acts D srec l p).
Proof.
  revert s p. induction l as [|[a|a|] l IH]; intros s p H; simpl.
  - split; auto. apply RL_refl; auto.
  - eapply fsim_bind; [apply Hrec; auto|]. intros [|] s1 p1 H1; [split; auto|].
    specialize (IH s1 p1 (proj1 H1)). eapply fsim_weaken; [|exact IH]. intros. eapply RL_trans; eauto.
  - eapply fsim_bind; [apply Hrec; auto|]. intros b s1 p1 H1.
    specialize (IH s1 p1 (proj1 H1)). eapply fsim_weaken; [|exact IH]. intros. eapply RL_trans; eauto.
  - split; auto. apply RL_refl; auto.
Qed.

Lemma fcalls_sim id d : forall hs done s p v, R s p -> nth_error (s_map D s) id = Some v ->
  (exists t, length t = vt v /\ vh v = 0 /\ firstn (length (done ++ hs)) t = map Some (done ++ hs) /\ firstn (vt v) (vst v) = t) ->
  fsim (RL s) (fcall_handlers D beh rec id d (length hs) (length done) s) (fsp_calls D beh srec id d hs p).
Proof.
  induction hs as [|h hs IH]; intros done s p v H Hv HT.
  - simpl. split; auto. apply RL_refl; auto.
  - cbn [length fcall_handlers fsp_calls]. rewrite Hv.
    destruct HT as (t & T1 & T2 & T3 & T4).
    assert (Hh : rd (vst v) (length done) = Ok (Some h)).
    { apply rd_ok.
      assert (Hle : length (done ++ h :: hs) <= vt v).
      { rewrite <- T1. assert (length (firstn (length (done ++ h :: hs)) t) = length (done ++ h :: hs)) as Hx by (rewrite T3, map_length; reflexivity).
        rewrite firstn_length in Hx. lia. }
      rewrite app_length in *. simpl in *.
      transitivity (nth_error (firstn (length done + S (length hs)) t) (length done)).
      - rewrite !nth_error_firstn, <- T4, nth_error_firstn. destruct (Nat.ltb_spec (length done) (length done + S (length hs))), (Nat.ltb_spec (length done) (vt v)); try lia. reflexivity.
      - rewrite T3. rewrite map_app. cbn [map]. rewrite nth_error_app_exact; auto. now rewrite map_length. }
    rewrite Hh. cbn [bind].
    assert (E1 : s_now D s = p_now D p /\ s_log D s = p_log D p).
    { destruct H as (q & pr & po & H). split; [apply (R_now _ _ _ _ _ _ _ _ H)|apply (R_log _ _ _ _ _ _ _ _ H)]. }
    destruct E1 as [E1 E2]. rewrite E1.
    assert (E3 : s_log D (log_add D (LCall D h id d (p_now D p)) s) = p_log D (sp_log D (LCall D h id d (p_now D p)) p)) by (simpl; congruence).
    rewrite E3.
    pose proof (log_R D W cfg s p (LCall D h id d (p_now D p)) H) as HL.
    eapply fsim_bind; [apply hacts_sim; exact (proj1 HL)|].
    intros b s2 p2 HS.
    assert (HR : RL s s2 p2) by (unfold EvProofs.RL; splits; [apply (proj1 HS)|rewrite (proj1 (proj2 HS)); reflexivity|apply (proj1 (proj2 (proj2 HS)))|apply (proj2 (proj2 (proj2 HS)))]).
    destruct b; [split; auto|].
    destruct (proj1 (proj2 (proj2 HS)) id v Hv) as (v2 & V1 & V2 & V3 & V4).
    replace (length done + 1) with (length (done ++ [h])) by (rewrite app_length; reflexivity).
    specialize (IH (done ++ [h]) s2 p2 v2 (proj1 HS) V1).
    eapply fsim_weaken; [intros a b Hab; eapply RL_trans; [exact HcapL|exact HR|exact Hab]|]. apply IH.
    exists (firstn (vt v2) (vst v2)).
    assert (Hle : length (done ++ h :: hs) <= vt v).
    { rewrite <- T1. assert (length (firstn (length (done ++ h :: hs)) t) = length (done ++ h :: hs)) as Hx by (rewrite T3, map_length; reflexivity).
      rewrite firstn_length in Hx. lia. }
    splits; auto.
    + rewrite firstn_length. destruct (proj1 HS) as (q & pr & po & H2). pose proof (Forall2_nth _ _ _ id (R_map _ _ _ _ _ _ _ _ H2)) as HN.
      rewrite V1 in HN. destruct (nth_error (p_hs D p2) id); [|contradiction]. destruct HN as (po2 & U & _).
      rewrite (vr_st _ _ _ _ _ U), (vr_t _ _ _ _ _ U). simpl. rewrite app_length. lia.
    + congruence.
    + rewrite <- app_assoc. cbn [app]. rewrite firstn_firstn. replace (Init.Nat.min (length (done ++ h :: hs)) (vt v2)) with (length (done ++ h :: hs)) by lia.
      rewrite <- T3. assert (Hf : forall l : list sptr, firstn (length (done ++ h :: hs)) l = firstn (length (done ++ h :: hs)) (firstn (vt v) l)) by (intros; rewrite firstn_firstn; f_equal; lia).
      rewrite (Hf (vst v2)), V4, T4. reflexivity.
Qed.

Lemma ftrigger_sim id d s p : R s p -> fsim (RL s) (ftrigger_ev D dbg beh rec id d s) (fsp_trigger D dbg beh srec id d p).
Proof.
  intros HR. pose proof HR as (ptrs & pre & post & H). unfold ftrigger_ev, fsp_trigger.
  pose proof (Forall2_nth _ _ _ id (R_map _ _ _ _ _ _ _ _ H)) as HN.
  revert HN. destruct (nth_error (s_map D s) id) as [v|] eqn:E1, (nth_error (p_hs D p) id) as [hs|] eqn:E2; intros HN; try contradiction.
  - assert (id < length (s_map D s)) by (apply nth_error_Some; congruence).
    destruct (Nat.ltb_spec id (length (s_map D s))); [|lia]. rewrite sassert_true. cbn [bind].
    destruct HN as (po & V & M). pose proof (vr_size W _ _ _ _ V) as Hs. rewrite map_length in Hs. unfold vempty. rewrite Hs.
    destruct (sassert dbg (negb (length hs =? 0))) eqn:Es; cbn [bind]; try exact I;
      try (unfold sassert in Es; destruct (negb (length hs =? 0)), dbg; discriminate).
    rewrite (vr_h _ _ _ _ _ V). apply (fcalls_sim id d hs [] s p v HR E1).
    exists (firstn (vt v) (vst v)). rewrite (vr_st _ _ _ _ _ V), (vr_t _ _ _ _ _ V), (vr_h _ _ _ _ _ V). simpl. rewrite map_length. splits; auto.
    + rewrite firstn_length, app_length, map_length. lia.
    + rewrite firstn_firstn, Nat.min_id, (firstn_app_exact (map Some hs) po); auto. now rewrite map_length.
  - assert (length (s_map D s) <= id) by (apply nth_error_None; auto).
    destruct (Nat.ltb_spec id (length (s_map D s))); [lia|]. unfold sassert. destruct dbg; exact I.
Qed.
End Calls.

Lemma floop_with_sim rec srec : (forall a s p, R s p -> fsim (RL s) (rec a s) (srec a p)) ->
  forall s p, R s p ->
  fsim (RL s) (floop_with D dbg cfg beh rec s) (fsp_loop_with D dbg (c_delay cfg) idle (c_max_us cfg) beh srec p).
Proof.
  intros Hrec s p H. unfold fsp_loop_with.
  unfold floop_with. destruct (contains_sim D W L dbg cfg HcapL s p H) as (s1 & E & H1 & L1 & M1 & Y1); rewrite E; cbn [bind].
  assert (HSl : fsim (RL s) (x <- tick_delay D dbg cfg s1 ;; Ok (false, x)) (Ok (false, sp_sleep D (c_delay cfg) idle (c_max_us cfg) p))).
  { change (Ok (false, sp_sleep D (c_delay cfg) idle (c_max_us cfg) p)) with (x <- Ok (sp_sleep D (c_delay cfg) idle (c_max_us cfg) p) ;; Ok (false, x)).
    apply fsim_lift. eapply sim_weaken; [|eapply sleep_sim; eauto]. intros a b Hab. eapply (RL_trans D W L cfg HcapL s s1 a p); [unfold EvProofs.RL; splits; eauto using keep_eq|exact Hab]. }
  destruct (p_pend D p) as [|[due [id d]] xs] eqn:Ep; [exact HSl|]. cbn [fst]. destruct (Z.leb_spec due (near24 (p_now D p))) as [Hd|Hd]; [|exact HSl].
  destruct (expire_sim D W L dbg cfg HcapL s1 p (due, (id, d)) xs H1 Ep Hd) as (o & s2 & e & E2 & Eo & Em & H2 & L2 & M2 & Y2).
  rewrite E2. cbn [bind]. rewrite sassert_true. cbn [bind]. unfold deref. rewrite Eo. cbn [bind].
  destruct Em as (Em1 & Em2 & Em3 & _). cbn [fst snd] in *. rewrite Em1, Em2, Em3.
  assert (s_now D s2 = p_now D p) as Ew. { destruct H2 as (q & pr & po & H2). apply (R_now _ _ _ _ _ _ _ _ H2). }
  rewrite Ew.
  pose proof (log_R D W cfg _ _ (LFire D due id d (p_now D p)) H2) as H3.
  pose proof (ftrigger_sim _ _ Hrec id d _ _ (proj1 H3)) as HT.
  eapply fsim_bind; [exact HT|].
  intros x s4 p4 H4.
  assert (s_loc D s4 = o :: s_loc D s) as L4 by (rewrite (proj1 (proj2 H4)); cbn [log_add s_loc s_kept]; rewrite L2, L1; reflexivity).
  destruct (release_R D W L cfg HcapL s4 p4 o (s_loc D s) (proj1 H4) L4) as [H5 L5].
  assert (p_busy D p4 = S (p_busy D p)) as Eb.
  { destruct (proj1 H4) as (q & pr & po & HT'). rewrite <- (R_busy _ _ _ _ _ _ _ _ HT'), L4. destruct H as (q' & pr' & po' & H). simpl. rewrite (R_busy _ _ _ _ _ _ _ _ H). reflexivity. }
  rewrite Eb in H5. cbn [Nat.sub] in H5. rewrite Nat.sub_0_r in H5.
  assert (HF : RL s (release D o s4) (sp_busy D (p_busy D p) p4)).
  { unfold EvProofs.RL. splits; auto.
    - eapply (keep_trans D W L cfg HcapL); [|apply keep_eq; reflexivity]. eapply (keep_trans D W L cfg HcapL); [|apply (proj1 (proj2 (proj2 H4)))].
      apply keep_eq. cbn [log_add s_map]. congruence.
    - eapply stay_trans; [exact Y1|]. rewrite <- L1. eapply stay_trans; [exact Y2|].
      intros n Hn. apply (proj2 (proj2 (proj2 H4)) n). cbn [log_add s_loc]. rewrite L2. right. exact Hn. }
  destruct x; [split; auto|].
  eapply fsim_weaken; [|apply (Hrec (ALoop D) _ _ H5)]. intros a b Hab. eapply (RL_trans D W L cfg HcapL s (release D o s4) a (sp_busy D (p_busy D p) p4)); [exact HF|exact Hab].
Qed.

Lemma ftrigger_kept_sim rec srec : (forall a s p, R s p -> fsim (RL s) (rec a s) (srec a p)) ->
  forall s p k, R s p -> fsim (RL s) (ftrigger_kept D dbg beh rec k s) (fsp_trigger_kept D dbg beh srec k p).
Proof.
  intros Hrec s p k HR. pose proof (take_sim D W L cfg HcapL k s p HR) as HT. unfold ftrigger_kept, fsp_trigger_kept, sp_take.
  destruct (nth_error (p_kept D p) k) as [[[[id t] d]|]|]; cbn [bind].
  - destruct HT as (n & s1 & a & E & Ea & H1 & Hl & Hm & Ho). rewrite E. cbn [bind].
    rewrite sassert_true. cbn [bind]. unfold deref. rewrite Ea. cbn [bind e_id e_data].
    pose proof (ftrigger_sim _ _ Hrec id d _ _ H1) as HS. eapply fsim_bind; [exact HS|]. intros b s2 p2 (HR2 & L2 & K2 & Y2). cbn [fsim look]. rewrite Ea. cbn [e_id e_tfn e_data].
    rewrite Hl in L2, Y2. assert (Ea2 : nth_error (s_objs D s2) n = Some (mkEv D id d t a)) by (rewrite (Y2 n ltac:(left; reflexivity)); exact Ea).
    destruct (put_sim D W L cfg HcapL s2 p2 n (s_loc D s) id t d a HR2 L2 Ea2) as [H3 L3].
    assert (p_busy D p2 = S (p_busy D p)) as Eb.
    { destruct HR2 as (q & pr & po & HR2). rewrite <- (R_busy _ _ _ _ _ _ _ _ HR2), L2. destruct HR as (q' & pr' & po' & HR). simpl. rewrite (R_busy _ _ _ _ _ _ _ _ HR). reflexivity. }
    rewrite Eb in H3. simpl in H3. rewrite Nat.sub_0_r in H3. split; auto. unfold EvProofs.RL. splits; auto.
    + eapply (keep_trans D W L cfg HcapL); [apply (keep_eq D s s1 Hm)|]. eapply (keep_trans D W L cfg HcapL); [exact K2|]. apply keep_eq. reflexivity.
    + eapply stay_trans; [apply stay_eq; exact Ho|]. intros q Hq. apply (Y2 q). right. exact Hq.
  - destruct HT as (s1 & E & H1 & Hl & Hm & Ho). rewrite E. cbn [bind]. destruct dbg; exact I.
  - rewrite HT. exact I.
Qed.

Lemma fact_sim : forall fuel a s p, R s p ->
  fsim (RL s) (fdo_act D W L dbg cfg beh fuel a s) (fsp_act D dbg cap hcap (c_delay cfg) idle (c_max_us cfg) beh fuel a p).
Proof.
  induction fuel as [|fuel IH]; intros a s p H; destruct a as [id t d|id d|id h|dt| |id t d|k|k|k]; cbn [fdo_act fsp_act];
    try (apply fsim_lift; first [eapply schedule_sim; eauto; fail|eapply attach_sim; eauto; fail|eapply keep_event_sim; eauto; fail
      |eapply schedule_kept_sim; eauto; fail|eapply drop_kept_sim; eauto; fail]); try exact I;
    try (cbn [fsim]; split; [reflexivity|eapply wait_R; eauto; lia]).
  - apply floop_with_sim; [intros; exact I|exact H].
  - pose proof H as (ptrs & pre & post & H0). pose proof (event_sim D W L dbg cfg HcapL HcapW s p ptrs pre post id 0%Z d H0) as HE. unfold slot.
    destruct (Nat.ltb_spec (length (p_pend D p) + p_busy D p + held D (p_kept D p)) cap) as [Hc|Hc].
    + destruct HE as (o & s1 & E & Hn & Ho & _ & H1 & Hl1 & Hm1 & _ & Hy1). rewrite E. cbn [bind].
      assert (HR1 : R s1 (sp_busy D (S (p_busy D p)) p)) by (do 3 eexists; exact H1).
      pose proof (ftrigger_sim _ _ IH id d s1 _ HR1) as HT.
      eapply fsim_bind; [exact HT|]. intros b s2 p2 (HR2 & L2 & K2 & Y2). cbn [fsim]. split; auto.
      destruct (release_R D W L cfg HcapL s2 p2 o (s_loc D s) HR2 (eq_trans L2 Hl1)) as [HR3 L3].
      assert (p_busy D p2 = S (p_busy D p)) as Eb.
      { destruct HR2 as (q & pr & po & HR2). rewrite <- (R_busy _ _ _ _ _ _ _ _ HR2), L2, Hl1. simpl. rewrite (R_busy _ _ _ _ _ _ _ _ H0). reflexivity. }
      rewrite Eb in HR3. simpl in HR3. rewrite Nat.sub_0_r in HR3. unfold EvProofs.RL. splits; auto.
      * eapply (keep_trans D W L cfg HcapL); [apply (keep_eq D s s1 Hm1)|]. eapply (keep_trans D W L cfg HcapL); [exact K2|]. apply keep_eq. reflexivity.
      * eapply stay_trans; [exact Hy1|]. intros q Hq. apply (Y2 q). rewrite Hl1. right. exact Hq.
    + rewrite HE. destruct dbg; simpl; exact I.
  - apply floop_with_sim; auto.
  - apply ftrigger_kept_sim; auto.
Qed.

Lemma frun_sim fuel ops : forall s p, R s p ->
  sim D (RL s) (frun D W L dbg cfg beh fuel ops s) (fsp_run D dbg cap hcap (c_delay cfg) idle (c_max_us cfg) beh fuel ops p).
Proof.
  induction ops as [|o ops IH]; intros s p H; cbn [frun fsp_run].
  - apply RL_refl; auto.
  - pose proof (fact_sim fuel o s p H) as HS.
    destruct (fdo_act D W L dbg cfg beh fuel o s) as [[b s1]| | | |], (fsp_act D dbg cap hcap (c_delay cfg) idle (c_max_us cfg) beh fuel o p) as [[b' p1]| | | |];
      try contradiction HS; try exact I. cbn [bind]. destruct HS as [_ H1].
    eapply sim_weaken; [|apply (IH s1 p1 (proj1 H1))]. intros a x Hab. eapply RL_trans; eauto.
Qed.
End Sim.

(** ** Invariants *)
Section Trace.
Variable D : Type.
Variable dbg : bool.
Variables cap hcap : nat.
Variable sleeps : bool.
Variables idle max_sleep : Z.
Variable beh : list (entry D) -> list (hact D).
Notation sp := (sp D).

Section Keep.
Variable P : sp -> Prop.
Variable ok : act D -> Prop.
Definition hok (h : hact D) : Prop := match h with HAct _ a | HTry _ a => ok a | HThrow _ => True end.
Hypothesis Hbeh : forall l, Forall hok (beh l).
Hypothesis ok_loop : ok (ALoop D).
Hypothesis P_cap : forall p, P p -> length (p_pend D p) + p_busy D p + held D (p_kept D p) <= cap.
Variable okd : Z -> Prop.
Hypothesis ok_sched : forall id t d, ok (ASchedule D id t d) -> okd t.
Hypothesis ok_keep : forall id t d, ok (AKeep D id t d) -> okd t.
Hypothesis P_kept : forall p id t d, P p -> In (Some (id, t, d)) (p_kept D p) -> okd t.
Hypothesis P_push : forall id t d p p', okd t -> P p -> length (p_pend D p) + p_busy D p + held D (p_kept D p) < cap -> sp_push D dbg id t d p = Ok p' -> P p'.
Hypothesis P_keep : forall x p, P p -> match x with Some (_, t, _) => okd t | None => True end ->
  length (p_pend D p) + p_busy D p + held D (p_kept D p ++ [x]) <= cap -> P (sp_keep D x p).
Hypothesis P_take : forall k x p, P p -> nth_error (p_kept D p) k = Some x -> P (sp_taken D k x p).
Hypothesis P_hs : forall hs p, P p -> P (mkSp D (p_now D p) hs (p_pend D p) (p_busy D p) (p_kept D p) (p_log D p)).
Hypothesis P_wait : forall dt p, (0 <= dt)%Z -> P p -> P (mkSp D (p_now D p + dt) (p_hs D p) (p_pend D p) (p_busy D p) (p_kept D p) (p_log D p)).
Hypothesis P_log : forall x p, P p -> match x with LCall _ _ _ _ _ => True | LSleep _ _ => True | _ => False end -> P (sp_log D x p).
Hypothesis P_busy : forall n p, P p -> length (p_pend D p) + n + held D (p_kept D p) <= cap -> P (sp_busy D n p).
Hypothesis P_fire : forall p due id d rest, P p -> p_pend D p = (due, (id, d)) :: rest -> (due <= near24 (p_now D p))%Z ->
  P (sp_log D (LFire D due id d (p_now D p)) (mkSp D (p_now D p) (p_hs D p) rest (S (p_busy D p)) (p_kept D p) (p_log D p))).
Hypothesis Hidle : (0 <= idle)%Z.

Ltac step H b p1 E := match type of H with bind ?x _ = _ => destruct x as [[b p1]| | | |] eqn:E; cbn [bind] in H; try discriminate end.

Section Rec.
Variable rec : act D -> sp -> outcome (bool * sp).
Hypothesis Hrec : forall a p b p', ok a -> P p -> rec a p = Ok (b, p') -> P p' /\ p_busy D p' = p_busy D p.
Lemma fkeep_acts l : Forall hok l -> forall p b p', P p -> fsp_acts D rec l p = Ok (b, p') -> P p' /\ p_busy D p' = p_busy D p.
Proof.
  induction 1 as [|h l Ha _ IH]; intros p b p' HI H; cbn [fsp_acts] in H; [inversion H; subst; auto|]. destruct h as [a|a|]; cbn [hok] in Ha.
  - step H x p1 E. destruct (Hrec a p x p1 Ha HI E) as [H1 E1]. destruct x; [inversion H; subst; auto|].
    destruct (IH p1 b p' H1 H) as [H2 E2]. split; auto. congruence.
  - step H x p1 E. destruct (Hrec a p x p1 Ha HI E) as [H1 E1]. destruct (IH p1 b p' H1 H) as [H2 E2]. split; auto. congruence.
  - inversion H; subst; auto.
Qed.
Lemma fkeep_calls id d hs : forall p b p', P p -> fsp_calls D beh rec id d hs p = Ok (b, p') -> P p' /\ p_busy D p' = p_busy D p.
Proof.
  induction hs as [|h hs IH]; intros p b p' HI H; cbn [fsp_calls] in H; [inversion H; subst; auto|].
  step H x p1 E. apply fkeep_acts in E as [H1 E1]; [|apply Hbeh|apply P_log; auto; exact I].
  cbn [sp_log p_busy] in E1. destruct x; [inversion H; subst; auto|].
  destruct (IH p1 b p' H1 H) as [H2 E2]. split; auto. rewrite E2, E1. reflexivity.
Qed.
Lemma fkeep_trigger id d p b p' : P p -> fsp_trigger D dbg beh rec id d p = Ok (b, p') -> P p' /\ p_busy D p' = p_busy D p.
Proof.
  unfold fsp_trigger. intros HI H. destruct (nth_error (p_hs D p) id) as [hs|]; [|destruct dbg; discriminate].
  destruct (sassert dbg (negb (length hs =? 0))); cbn [bind] in H; try discriminate. eapply fkeep_calls; eauto.
Qed.
Lemma fkeep_trigger_kept k p b p' : P p -> fsp_trigger_kept D dbg beh rec k p = Ok (b, p') -> P p' /\ p_busy D p' = p_busy D p.
Proof.
  unfold fsp_trigger_kept, sp_take. intros HI H. destruct (nth_error (p_kept D p) k) as [x|] eqn:E; cbn [bind] in H; [|discriminate].
  destruct x as [[[id t] d]|]; [|destruct dbg; discriminate]. step H y p1 E1.
  pose proof (P_cap p HI). pose proof (held_cut D k _ _ E) as Hc. change (held D [Some (id, t, d)]) with 1 in Hc.
  apply fkeep_trigger in E1 as [H1 B1]; [|apply P_busy; [apply P_take; auto|cbn [sp_taken sp_log sp_kept p_pend p_busy p_kept]; lia]].
  cbn [sp_busy p_busy] in B1. inversion H; subst. split; [|reflexivity]. pose proof (P_cap p1 H1).
  apply P_keep.
  - apply P_busy; auto. lia.
  - eapply P_kept; [exact HI|]. eapply nth_error_In; eauto.
  - cbn [sp_busy p_pend p_busy p_kept]. rewrite held_app. change (held D [Some (id, t, d)]) with 1. lia.
Qed.
End Rec.

Lemma fkeep_loop_with rec : (forall a p b p', ok a -> P p -> rec a p = Ok (b, p') -> P p' /\ p_busy D p' = p_busy D p) ->
  forall p b p', P p -> fsp_loop_with D dbg sleeps idle max_sleep beh rec p = Ok (b, p') -> P p' /\ p_busy D p' = p_busy D p.
Proof.
  intros Hrec p b p' HI H. unfold fsp_loop_with in H.
  assert (HS : Ok (false, sp_sleep D sleeps idle max_sleep p) = Ok (b, p') -> P p' /\ p_busy D p' = p_busy D p).
  { intros E. inversion E; subst. split; [eapply keep_sleep; eauto|unfold sp_sleep; destruct sleeps; reflexivity]. }
  destruct (p_pend D p) as [|[due [id d]] rest] eqn:Ep; [auto|]. destruct (Z.leb_spec due (near24 (p_now D p))) as [Hd|Hd]; [|auto].
  step H x p1 E. apply (fkeep_trigger _ Hrec) in E as [H1 E1]; [|apply P_fire; auto].
  assert (HB : P (sp_busy D (p_busy D p) p1)) by (apply P_busy; auto; cbn [sp_log p_busy] in E1; apply P_cap in H1; lia).
  destruct x; [inversion H; subst; auto|].
  apply Hrec in H; [|exact ok_loop|exact HB]. destruct H as (A & B). split; auto.
Qed.

Lemma fkeep_act : forall fuel a p b p', ok a -> P p -> fsp_act D dbg cap hcap sleeps idle max_sleep beh fuel a p = Ok (b, p') -> P p' /\ p_busy D p' = p_busy D p.
Proof.
  assert (HL : forall x (p' : sp) (b : bool), (p1 <- x ;; Ok (false, p1)) = Ok (b, p') -> x = Ok p') by (intros [p1| | | |] p' b E; inversion E; auto).
  induction fuel as [|fuel IH]; intros a p b p' Ha HI; destruct a as [id t d|id d|id h|dt| |id t d|k|k|k]; cbn [fsp_act]; intros H; try discriminate;
    try (apply HL in H; first [eapply keep_sched; eassumption|eapply keep_attach; eassumption|eapply keep_keep_event; eassumption
      |eapply keep_schedule_kept; eassumption|eapply keep_drop_kept; eassumption]);
    try (inversion H; subst; split; [apply P_wait; auto; lia|reflexivity]).
  - eapply fkeep_loop_with in H; eauto. discriminate.
  - unfold slot in H. destruct (Nat.ltb_spec (length (p_pend D p) + p_busy D p + held D (p_kept D p)) cap) as [Hc|]; cbn [bind] in H; [|destruct dbg; discriminate].
    step H x p1 E. apply (fkeep_trigger _ IH) in E as [H1 E1]; [|apply P_busy; auto; lia]. inversion H; subst. split; [|reflexivity].
    apply P_busy; auto. cbn [sp_busy p_busy] in E1. apply P_cap in H1. lia.
  - eapply fkeep_loop_with in H; eauto.
  - eapply fkeep_trigger_kept in H; eauto.
Qed.

(** A loop() that no exception leaves *)
Lemma fkeep_loop : forall fuel p p', P p -> fsp_act D dbg cap hcap sleeps idle max_sleep beh fuel (ALoop D) p = Ok (false, p') ->
  exists p1, p' = sp_sleep D sleeps idle max_sleep p1 /\ P p1 /\ match p_pend D p1 with [] => True | x :: _ => (near24 (p_now D p1) < fst x)%Z end.
Proof.
  induction fuel as [|fuel IH]; intros p p' HI H; cbn [fsp_act] in H; unfold fsp_loop_with in H;
    (destruct (p_pend D p) as [|[due [id d]] rest] eqn:Ep; [inversion H; exists p; rewrite Ep; auto|]);
    (destruct (Z.leb_spec due (near24 (p_now D p))) as [Hd|Hd]; [|inversion H; exists p; rewrite Ep; auto]); step H x p1 E.
  - destruct x; discriminate.
  - apply (fkeep_trigger _ (fkeep_act fuel)) in E as [H1 E1]; [|apply P_fire; auto]. destruct x; [discriminate|].
    apply IH in H; auto. apply P_busy; auto. cbn [sp_log p_busy] in E1. apply P_cap in H1. lia.
Qed.

Lemma fkeep_run fuel : forall ops, Forall ok ops -> forall p p', P p -> fsp_run D dbg cap hcap sleeps idle max_sleep beh fuel ops p = Ok p' -> P p' /\ p_busy D p' = p_busy D p.
Proof.
  induction 1 as [|o ops Ho _ IH]; intros p p' HI H; cbn [fsp_run] in H; [inversion H; subst; auto|].
  step H x p1 E. apply fkeep_act in E as [H1 E1]; auto. apply IH in H as [H2 E2]; auto. split; auto; congruence.
Qed.
End Keep.

Section Runs.
Hypothesis Hidle : (0 <= idle)%Z.
Lemma fginv_run fuel ops p p' : ginv D cap p -> fsp_run D dbg cap hcap sleeps idle max_sleep beh fuel ops p = Ok p' -> ginv D cap p' /\ p_busy D p' = p_busy D p.
Proof.
  intros H E. assert (Ho : Forall (fun _ : act D => True) ops) by (apply Forall_forall; auto).
  revert Ho p p' H E. apply fkeep_run with (okd := fun _ => True);
    eauto using ginv_push, ginv_keep, ginv_take, ginv_hs, ginv_wait, ginv_log, ginv_busy, ginv_fire, g_cap.
  intros l. apply Forall_forall. intros [a|a|] _; exact I.
Qed.
(** The same, and everything observed stays so *)
Definition eginv (l0 : list (entry D)) (p : sp) : Prop := ginv D cap p /\ extends D l0 (p_log D p).
Lemma ext_more l0 p x : extends D l0 (p_log D p) -> extends D l0 (p_log D p ++ [x]).
Proof. intros [k ->]. exists (k ++ [x]). now rewrite app_assoc. Qed.
Lemma eg_push l0 id t d p p' : True -> eginv l0 p -> length (p_pend D p) + p_busy D p + held D (p_kept D p) < cap -> sp_push D dbg id t d p = Ok p' -> eginv l0 p'.
Proof.
  intros _ [H X] Hc E. split; [eapply ginv_push; eauto|]. unfold sp_push in E. destruct (sassert dbg (0 <? t)%Z); cbn [bind] in E; try discriminate.
  inversion E; subst. cbn [sp_log p_log]. apply ext_more; auto.
Qed.
Lemma eg_keep l0 x p : eginv l0 p -> match x with Some (_, _, _) => True | None => True end ->
  length (p_pend D p) + p_busy D p + held D (p_kept D p ++ [x]) <= cap -> eginv l0 (sp_keep D x p).
Proof. intros [H X] _ Hc. split; [eapply ginv_keep; eauto|]. cbn [sp_keep sp_kept sp_log p_log]. apply ext_more; auto. Qed.
Lemma eg_take l0 k x p : eginv l0 p -> nth_error (p_kept D p) k = Some x -> eginv l0 (sp_taken D k x p).
Proof. intros [H X] E. split; [eapply ginv_take; eauto|]. cbn [sp_taken sp_kept sp_log p_log]. apply ext_more; auto. Qed.
Lemma eg_log l0 x p : eginv l0 p -> match x with LCall _ _ _ _ _ => True | LSleep _ _ => True | _ => False end -> eginv l0 (sp_log D x p).
Proof. intros [H X] E. split; [eapply ginv_log; eauto|]. cbn [sp_log p_log]. apply ext_more; auto. Qed.
Lemma eg_fire l0 p due id d rest : eginv l0 p -> p_pend D p = (due, (id, d)) :: rest -> (due <= near24 (p_now D p))%Z ->
  eginv l0 (sp_log D (LFire D due id d (p_now D p)) (mkSp D (p_now D p) (p_hs D p) rest (S (p_busy D p)) (p_kept D p) (p_log D p))).
Proof. intros [H X] E Hd. split; [eapply ginv_fire; eauto|]. cbn [sp_log p_log]. apply ext_more; auto. Qed.
Lemma eg_hs l0 hs p : eginv l0 p -> eginv l0 (mkSp D (p_now D p) hs (p_pend D p) (p_busy D p) (p_kept D p) (p_log D p)).
Proof. intros [H X]. split; [eapply ginv_hs; eauto|exact X]. Qed.
Lemma eg_wait l0 dt p : (0 <= dt)%Z -> eginv l0 p -> eginv l0 (mkSp D (p_now D p + dt) (p_hs D p) (p_pend D p) (p_busy D p) (p_kept D p) (p_log D p)).
Proof. intros Hd [H X]. split; [eapply ginv_wait; eauto|exact X]. Qed.
Lemma eg_busy l0 n p : eginv l0 p -> length (p_pend D p) + n + held D (p_kept D p) <= cap -> eginv l0 (sp_busy D n p).
Proof. intros [H X] Hc. split; [eapply ginv_busy; eauto|exact X]. Qed.
Lemma eg_cap l0 p : eginv l0 p -> length (p_pend D p) + p_busy D p + held D (p_kept D p) <= cap.
Proof. intros [H _]. apply (g_cap _ _ _ H). Qed.

Notation spact := (fsp_act D dbg cap hcap sleeps idle max_sleep beh).
Lemma beh_any l : Forall (hok (fun _ => True)) (beh l).
Proof. apply Forall_forall. intros [a|a|] _; exact I. Qed.
Lemma eg_act l0 fuel a p b p' : True -> eginv l0 p -> spact fuel a p = Ok (b, p') -> eginv l0 p' /\ p_busy D p' = p_busy D p.
Proof.
  apply fkeep_act with (okd := fun _ => True) (ok := fun _ => True);
    eauto using eg_push, eg_keep, eg_take, eg_hs, eg_wait, eg_log, eg_busy, eg_fire, eg_cap. apply beh_any.
Qed.
Lemma eg_acts fuel l p b p' : ginv D cap p -> fsp_acts D (spact fuel) l p = Ok (b, p') -> ginv D cap p' /\ extends D (p_log D p) (p_log D p').
Proof.
  intros H E. assert (eginv (p_log D p) p' /\ p_busy D p' = p_busy D p) as [[A B] _]; [|auto].
  eapply (fkeep_acts (eginv (p_log D p)) (fun _ => True)); [| | |exact E].
  - intros a q b' q' _. apply eg_act. exact I.
  - apply Forall_forall. intros [a|a|] _; exact I.
  - split; auto. apply extends_refl.
Qed.
Lemma fcalls_shape fuel id d : forall hs p b p', ginv D cap p -> fsp_calls D beh (spact fuel) id d hs p = Ok (b, p') ->
  exists hs1 hs2, hs = hs1 ++ hs2 /\ calls_in D id d hs1 (p_log D p) (p_log D p') /\ if (b : bool) then hs1 <> [] else hs2 = [].
Proof.
  induction hs as [|h hs IH]; intros p b p' HG H; cbn [fsp_calls] in H.
  - inversion H; subst. exists [], []. splits; auto. constructor.
  - match type of H with bind ?x _ = _ => destruct x as [[b1 p1]| | | |] eqn:E; cbn [bind] in H; try discriminate end.
    apply eg_acts in E as [HG1 [k Hk]]; [|apply ginv_log; auto; exact I]. cbn [sp_log p_log] in Hk. rewrite <- app_assoc in Hk. cbn [app] in Hk.
    destruct b1.
    + inversion H; subst. exists [h], hs. splits; auto; [|discriminate]. apply ci_cons with (now := p_now D p) (did := k). rewrite <- Hk. constructor.
    + apply IH in H as (hs1 & hs2 & -> & Hc & Hb); auto. exists (h :: hs1), hs2. splits; auto.
      * apply ci_cons with (now := p_now D p) (did := k). rewrite <- Hk. exact Hc.
      * destruct b; [discriminate|exact Hb].
Qed.
Variables T N : Z.
Hypothesis HTN : (2 ^ 24 * T + N < 2 ^ 48)%Z.
Hypothesis Hbeh : forall l, Forall (ftame D T) (beh l).
Lemma finv_run fuel ops p p' : Forall (tame D T) ops -> inv D cap T N p -> fsp_run D dbg cap hcap sleeps idle max_sleep beh fuel ops p = Ok p' ->
  inv D cap T N p' /\ p_busy D p' = p_busy D p.
Proof.
  intros Ho H E. eapply (fkeep_run (inv D cap T N) (tame D T)) with (okd := fun t => (0 <= t <= T)%Z);
    eauto using inv_push, inv_keep, inv_take, inv_hs, inv_wait, inv_log, inv_busy, inv_fire, i_cap, i_kept; try exact I.
Qed.
Lemma finv_loop fuel p p' : inv D cap T N p -> fsp_act D dbg cap hcap sleeps idle max_sleep beh fuel (ALoop D) p = Ok (false, p') ->
  exists p1, p' = sp_sleep D sleeps idle max_sleep p1 /\ inv D cap T N p1 /\ match p_pend D p1 with [] => True | x :: _ => (near24 (p_now D p1) < fst x)%Z end.
Proof.
  intros H E. eapply (fkeep_loop (inv D cap T N) (tame D T)) with (okd := fun t => (0 <= t <= T)%Z);
    eauto using inv_push, inv_keep, inv_take, inv_hs, inv_wait, inv_log, inv_busy, inv_fire, i_cap, i_kept; try exact I.
Qed.
Lemma finv_act fuel a p b p' : tame D T a -> inv D cap T N p -> fsp_act D dbg cap hcap sleeps idle max_sleep beh fuel a p = Ok (b, p') ->
  inv D cap T N p' /\ p_busy D p' = p_busy D p.
Proof.
  intros Ho H E. eapply (fkeep_act (inv D cap T N) (tame D T)) with (okd := fun t => (0 <= t <= T)%Z);
    eauto using inv_push, inv_keep, inv_take, inv_hs, inv_wait, inv_log, inv_busy, inv_fire, i_cap, i_kept; try exact I.
Qed.
End Runs.
End Trace.

(** ** Without throws it is the event system as before *)
Section Agree.
Variable D : Type.
Variable W : Z.
Variable L : nat.
Variable dbg : bool.
Variable cfg : config.
Variable fbeh : list (entry D) -> list (hact D).
Variable beh : list (entry D) -> list (act D).
Hypothesis Hb : forall l, calm D (fbeh l) (beh l).
Definition lift (x : outcome (es D)) : outcome (bool * es D) := s <- x ;; Ok (false, s).

Section Rec.
Variable rec : act D -> es D -> outcome (es D).
Variable frec : act D -> es D -> outcome (bool * es D).
Hypothesis Hrec : forall a s, frec a s = lift (rec a s).
Lemma agree_acts h l : calm D h l -> forall s, do_hacts D frec h s = lift (do_acts D rec l s).
Proof.
  induction 1; intros s; cbn [do_hacts do_acts]; auto; rewrite Hrec; unfold lift; destruct (rec a s); cbn [bind]; auto; apply IHcalm.
Qed.
Lemma agree_calls id d : forall k i s, fcall_handlers D fbeh frec id d k i s = lift (call_handlers D beh rec id d k i s).
Proof.
  induction k as [|k IH]; intros i s; cbn [fcall_handlers call_handlers]; auto.
  destruct (nth_error (s_map D s) id) as [v|]; auto. destruct (rd (vst v) i) as [[h|]| | | |]; cbn [bind]; auto.
  rewrite (agree_acts _ _ (Hb _)). unfold lift. destruct (do_acts D rec _ _); cbn [bind]; auto. apply IH.
Qed.
Lemma agree_trigger id d s : ftrigger_ev D dbg fbeh frec id d s = lift (trigger_ev D dbg beh rec id d s).
Proof.
  unfold ftrigger_ev, trigger_ev. destruct (sassert dbg (id <? length (s_map D s))); cbn [bind]; auto.
  destruct (nth_error (s_map D s) id) as [v|]; auto. destruct (sassert dbg (negb (vempty v))); cbn [bind]; auto. apply agree_calls.
Qed.
Lemma agree_loop s : floop_with D dbg cfg fbeh frec s = lift (loop_with D dbg cfg beh rec s).
Proof.
  unfold floop_with, loop_with. destruct (contains_expired D dbg s) as [[[|] s1]| | | |]; cbn [bind]; auto.
  destruct (expire D dbg s1) as [[p s2]| | | |]; cbn [bind]; auto.
  destruct (sassert dbg (match p with Some _ => true | None => false end)); cbn [bind]; auto.
  destruct (deref D s2 p) as [e| | | |]; cbn [bind]; auto. rewrite agree_trigger. unfold lift at 1.
  destruct (trigger_ev D dbg beh rec _ _ _); cbn [bind]; auto.
Qed.
Lemma agree_trigger_kept k s : ftrigger_kept D dbg fbeh frec k s = lift (trigger_kept D dbg beh rec k s).
Proof.
  unfold ftrigger_kept, trigger_kept. destruct (take_ptr D k s) as [[p s2]| | | |]; cbn [bind]; auto.
  destruct (sassert dbg (match p with Some _ => true | None => false end)); cbn [bind]; auto.
  destruct (deref D s2 p) as [e| | | |]; cbn [bind]; auto. rewrite agree_trigger. unfold lift at 1.
  destruct (trigger_ev D dbg beh rec _ _ _); cbn [bind]; auto.
Qed.
End Rec.
Lemma agree_act : forall fuel a s, fdo_act D W L dbg cfg fbeh fuel a s = lift (do_act D W L dbg cfg beh fuel a s).
Proof.
  induction fuel as [|fuel IH]; intros a s; destruct a as [id t d|id d|id h|dt| |id t d|k|k|k]; cbn [fdo_act do_act]; auto.
  - apply agree_loop. auto.
  - destruct (event D L dbg id 0 d s) as [[[n|] s1]| | | |]; cbn [bind]; auto; [|destruct (sassert dbg false); reflexivity].
    rewrite (agree_trigger _ _ IH). unfold lift. destruct (trigger_ev D dbg beh _ _ _ _); cbn [bind]; auto.
  - apply agree_loop. auto.
  - apply agree_trigger_kept. auto.
Qed.
Lemma agree_run fuel : forall ops s, frun D W L dbg cfg fbeh fuel ops s = run D W L dbg cfg beh fuel (map (OAct D) ops) s.
Proof.
  induction ops as [|a ops IH]; intros s; cbn [frun run map step]; auto. rewrite agree_act. unfold lift.
  destruct (do_act D W L dbg cfg beh fuel a s); cbn [bind]; auto.
Qed.
End Agree.

(** ** Theorems *)
Section Thms.
Variable D : Type.
Variable nodata : D.
Variable W : Z.
Variable L : nat.
Variable dbg : bool.
Variable cfg : config.
Variable beh : list (entry D) -> list (hact D).
Hypothesis Hcfg : cfg_ok W L cfg.
Notation idle := (kconv MS US (c_min_us cfg)).
Notation cap := (c_cap cfg).
Notation RR := (R D W cfg).
Notation sprun := (fsp_run D dbg cap (c_handler_cap cfg) (c_delay cfg) idle (c_max_us cfg) beh).
Notation spact := (fsp_act D dbg cap (c_handler_cap cfg) (c_delay cfg) idle (c_max_us cfg) beh).
Notation act := (fdo_act D W L dbg cfg beh).

Lemma fHidle : (0 <= idle)%Z.
Proof. apply kconv_nonneg. apply Hcfg. Qed.
Lemma fact_simT f a s p : RR s p -> fsim D (RL D W cfg s) (act f a s) (spact f a p).
Proof. intros. destruct Hcfg as (A & B & C & E & F). apply fact_sim; auto. apply fHidle. Qed.
Lemma frun_any fuel now ops s : (0 <= now)%Z -> frun D W L dbg cfg beh fuel ops (es_new D nodata cfg now) = Ok s ->
  exists p, sprun fuel ops (sp_new D now (c_count cfg)) = Ok p /\ RR s p /\ ginv D cap p /\ p_busy D p = 0.
Proof.
  intros Hn Hr. destruct Hcfg as (A & B & C & E0 & F).
  assert (HN : RR (es_new D nodata cfg now) (sp_new D now (c_count cfg))) by (eapply new_R; eauto).
  pose proof (frun_sim D W L dbg cfg beh A B fHidle fuel ops _ _ HN) as HS. rewrite Hr in HS.
  destruct (sprun fuel ops (sp_new D now (c_count cfg))) as [p| | | |] eqn:E; cbn [sim] in HS; try contradiction.
  exists p. splits; auto; [apply HS| |]; (eapply fginv_run in E; [|apply fHidle|apply (ginv_new D cap); auto]); tauto.
Qed.

Lemma flost_thm fuel now ops s : (0 <= now)%Z -> frun D W L dbg cfg beh fuel ops (es_new D nodata cfg now) = Ok s ->
  exists l, pending D W s l /\ none_lost D (s_log D s) l /\ hardly_early D (s_log D s) /\
    ((s_now D s <= 2 ^ 24)%Z -> not_early D (s_log D s)) /\ length l + held D (kept D s) <= cap /\ keeps D (s_log D s) (kept D s).
Proof.
  intros Hn Hr. destruct (frun_any fuel now ops s Hn Hr) as (p & _ & HR & [] & Hb). exists (p_pend D p).
  rewrite (kept_ok D W cfg s p HR). destruct (R_fields D W cfg s p HR) as [-> ->]. splits; auto; [eapply pending_ok; eauto|lia].
Qed.

Lemma fschedule_thm fuel now ops s id t d l : (0 <= now)%Z ->
  frun D W L dbg cfg beh fuel ops (es_new D nodata cfg now) = Ok s -> pending D W s l ->
  (length l + held D (kept D s) < cap -> (dbg = false \/ 0 < t)%Z -> exists s' l1 l2, schedule D W L dbg id t d s = Ok s' /\ l = l1 ++ l2 /\
     pending D W s' (l1 ++ (s_now D s + near24 t, (id, d))%Z :: l2) /\ s_now D s' = s_now D s /\ kept D s' = kept D s) /\
  (length l + held D (kept D s) = cap -> schedule D W L dbg id t d s = if dbg then Halt else UB).
Proof.
  intros Hn Hr Hl. destruct (frun_any fuel now ops s Hn Hr) as (p & _ & HR & HI & Hb).
  apply (pending_ok D W cfg _ _ HR) in Hl. subst l. destruct (R_fields D W cfg _ _ HR) as [En El].
  destruct Hcfg as (A & B & C & E0 & F). pose proof (schedule_sim D W L dbg cfg A B s p id t d HR) as HS.
  rewrite (kept_ok D W cfg _ _ HR). unfold sp_schedule, sp_push in HS. unfold slot in HS. rewrite Hb, Nat.add_0_r in HS. split.
  - intros Hc Hp. destruct (Nat.ltb_spec (length (p_pend D p) + held D (p_kept D p)) cap); [|lia]. cbn [bind] in HS.
    assert (sassert dbg (0 <? t)%Z = Ok tt) as Es. { destruct Hp as [-> |Hp]; [destruct (0 <? t)%Z; reflexivity|]. destruct (Z.ltb_spec 0 t); [reflexivity|lia]. }
    rewrite Es in HS. cbn [bind] in HS. destruct (schedule D W L dbg id t d s) as [s'| | | |]; cbn [sim] in HS; try contradiction.
    destruct HS as (HR' & _). destruct (R_fields D W cfg _ _ HR') as [En' El']. cbn [sp_log p_now p_log] in *.
    destruct (enqueue_split D (near24 (p_now D p)) ((p_now D p + near24 t)%Z, (id, d)) (p_pend D p)) as (l1 & l2 & E1 & E2).
    exists s', l1, l2. splits; auto; try congruence.
    + apply (pending_ok D W cfg _ _ HR'). cbn [sp_log p_pend]. rewrite En. symmetry. exact E2.
    + apply (kept_ok D W cfg _ _ HR').
  - intros Hc. destruct (Nat.ltb_spec (length (p_pend D p) + held D (p_kept D p)) cap); [lia|].
    destruct dbg; cbn [bind] in HS; destruct (schedule D W L _ id t d s) as [s'| | | |]; cbn [sim] in HS; try contradiction; reflexivity.
Qed.

Lemma ftrigger_thm fuel now ops s id d hs f b s' : (0 <= now)%Z ->
  frun D W L dbg cfg beh fuel ops (es_new D nodata cfg now) = Ok s -> handlers D W s id hs ->
  act f (ATrigger D id d) s = Ok (b, s') ->
  exists hs1 hs2, hs = hs1 ++ hs2 /\ calls_in D id d hs1 (s_log D s) (s_log D s') /\ if (b : bool) then hs1 <> [] else hs2 = [].
Proof.
  intros Hn Hr Hh Ha. destruct (frun_any fuel now ops s Hn Hr) as (p & Ep & HR & HI & Hb).
  pose proof (fact_simT f (ATrigger D id d) s p HR) as HS. rewrite Ha in HS.
  destruct (spact f (ATrigger D id d) p) as [[b' p']| | | |] eqn:E; cbn [fsim] in HS; try contradiction.
  destruct HS as (<- & HR' & _). destruct (R_fields D W cfg _ _ HR) as [_ ->]. destruct (R_fields D W cfg _ _ HR') as [_ ->].
  destruct f as [|f]; cbn [fsp_act] in E; [discriminate|]. unfold slot in E.
  destruct (Nat.ltb_spec (length (p_pend D p) + p_busy D p + held D (p_kept D p)) cap) as [Hc|]; cbn [bind] in E; [|destruct dbg; discriminate].
  match type of E with bind ?x _ = _ => destruct x as [[xb q1]| | | |] eqn:E1; cbn [bind] in E; try discriminate end. inversion E; subst.
  unfold fsp_trigger in E1. cbn [sp_busy p_hs] in E1. rewrite (R_handlers D W cfg s p id hs HR Hh) in E1.
  destruct (sassert dbg (negb (length hs =? 0))); cbn [bind] in E1; try discriminate.
  apply fcalls_shape in E1; [exact E1|apply fHidle|]. apply ginv_busy; auto. lia.
Qed.

Section Exact.
Variables T N : Z.
Hypothesis HTN : (2 ^ 24 * T + N < 2 ^ 48)%Z.
Hypothesis Hbeh : forall l, Forall (ftame D T) (beh l).

Lemma frun_inv fuel now ops s : (0 <= now)%Z -> Forall (tame D T) ops -> frun D W L dbg cfg beh fuel ops (es_new D nodata cfg now) = Ok s ->
  exists p, RR s p /\ inv D cap T N p.
Proof.
  intros Hn Ht Hr. destruct (frun_any fuel now ops s Hn Hr) as (p & E & HR & HG & Hb). exists p. split; auto.
  eapply finv_run in E; [|apply fHidle|exact HTN|exact Hbeh|exact Ht|apply inv_new; auto]. apply (proj1 E).
Qed.
Lemma ftrace_thm fuel now ops s : (0 <= now)%Z -> Forall (tame D T) ops -> frun D W L dbg cfg beh fuel ops (es_new D nodata cfg now) = Ok s ->
  (s_now D s <= N)%Z ->
  exists l, pending D W s l /\ StronglySorted (fun x y => (fst x <= fst y)%Z) l /\ once D (s_log D s) l /\ in_order D (s_log D s).
Proof.
  intros Hn Ht Hr Hs. destruct (frun_inv fuel now ops s Hn Ht Hr) as (p & HR & HI). exists (p_pend D p).
  destruct (R_fields D W cfg _ _ HR) as [En El]. destruct (i_ord _ _ _ _ _ HI ltac:(rewrite <- En; exact Hs)).
  rewrite El. splits; auto. eapply pending_ok; eauto.
Qed.
(** A loop() which no exception leaves has nothing due left, however many were left by one before *)
Lemma floop_clears fuel now ops s f s' : (0 <= now)%Z -> Forall (tame D T) ops ->
  frun D W L dbg cfg beh fuel ops (es_new D nodata cfg now) = Ok s -> act f (ALoop D) s = Ok (false, s') -> (s_now D s' <= N)%Z ->
  forall l, pending D W s' l -> Forall (fun x : pend D => near24 (s_now D s' - (if c_delay cfg then slept D (s_log D s') else 0)) < fst x)%Z l.
Proof.
  intros Hn Ht Hr Ha Hs l Hl. destruct (frun_inv fuel now ops s Hn Ht Hr) as (p & HR & HI).
  pose proof (fact_simT f (ALoop D) s p HR) as HS. rewrite Ha in HS.
  destruct (spact f (ALoop D) p) as [[b' p']| | | |] eqn:E; cbn [fsim] in HS; try contradiction. destruct HS as (<- & HR' & _).
  assert (HO : ord D p').
  { pose proof E as E'. eapply finv_act in E' as [HI' _]; [|apply fHidle|exact HTN|exact Hbeh|exact I|exact HI]. apply (i_ord _ _ _ _ _ HI').
    rewrite <- (proj1 (R_fields D W cfg _ _ HR')). exact Hs. }
  eapply finv_loop in E as (p1 & -> & _ & HF); [|apply fHidle|exact HTN|exact Hbeh|exact HI].
  destruct (R_fields D W cfg _ _ HR') as [-> ->]. apply (pending_ok D W cfg _ _ HR') in Hl. subst l.
  pose proof (i_sorted _ _ HO) as Hso. revert Hso.
  assert (Ep : p_pend D (sp_sleep D (c_delay cfg) idle (c_max_us cfg) p1) = p_pend D p1) by (unfold sp_sleep; destruct (c_delay cfg); reflexivity).
  rewrite Ep. intros Hso.
  assert (Forall (fun x : pend D => (near24 (p_now D p1) < fst x)%Z) (p_pend D p1)) as HA.
  { destruct (p_pend D p1) as [|x xs]; constructor; auto. inversion Hso as [|? ? _ Hf]; subst. eapply Forall_impl; [|exact Hf]. simpl. intros; lia. }
  unfold sp_sleep. destruct (c_delay cfg).
  - cbn [p_now p_log p_pend sp_log]. unfold slept. rewrite rev_app_distr. cbn [rev app].
    rewrite Z.add_simpl_r. exact HA.
  - rewrite Z.sub_0_r. exact HA.
Qed.
End Exact.
End Thms.
