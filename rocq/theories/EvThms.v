(** Statements about the event system from its refinement of the one over lists. *)
From Coq Require Import List Arith ZArith Bool Lia Sorting.Sorted.
From Verif Require Import Base KTimeModel KTimeProofs TimersModel VectorModel VectorSpec VectorProofs PoolModel PoolSpec PoolProofs
  EvModel EvSpec EvProofs EvTrace.
Import ListNotations.
Local Open Scope nat_scope.

Lemma rne_nonneg n d : (0 <= n -> 0 < d -> 0 <= rne n d)%Z.
Proof.
  intros Hn Hd. unfold rne. pose proof (Z.div_pos n d Hn Hd). destruct (2 * (n mod d) ?= d)%Z; try lia. destruct (Z.even (n / d)); lia.
Qed.
Lemma fquot_nonneg n d : (0 <= n -> 0 < d -> 0 <= fm (fquot n d))%Z.
Proof.
  intros Hn Hd. unfold fquot. destruct (n =? 0)%Z; cbn [fm]; [lia|]. apply rne_nonneg.
  - apply Z.mul_nonneg_nonneg; auto. apply Z.pow_nonneg. lia.
  - apply Z.mul_pos_pos; auto. apply Z.pow_pos_nonneg; lia.
Qed.
Lemma fmul_nonneg a b : (0 <= fm a -> 0 <= fm b -> 0 <= fm (fmul a b))%Z.
Proof.
  intros Ha Hb. unfold fmul. apply fquot_nonneg; [|apply Z.pow_pos_nonneg; lia].
  apply Z.mul_nonneg_nonneg; [lia|]. apply Z.pow_nonneg. lia.
Qed.
Lemma kconv_nonneg o t x : (0 <= x -> 0 <= kconv t o x)%Z.
Proof.
  intros Hx. unfold kconv, from_other. assert (0 <= fm (fmul (ratio o t) (f_of_int x)))%Z as H.
  { apply fmul_nonneg; [|apply fquot_nonneg; lia]. destruct o, t; vm_compute; discriminate. }
  unfold fround. destruct (Z.leb_spec 0 (fe (fmul (ratio o t) (f_of_int x)))) as [Hp|Hp].
  - apply Z.mul_nonneg_nonneg; auto. apply Z.pow_nonneg. lia.
  - pose proof (Z.pow_pos_nonneg 2 (- fe (fmul (ratio o t) (f_of_int x)))). apply Z.mul_nonneg_nonneg; [lia|]. apply Z.div_pos; lia.
Qed.

Section Thms.
Variable D : Type.
Variable nodata : D.
Variable W : Z.
Variable L : nat.
Variable dbg : bool.
Variable cfg : config.
Variable beh : list (entry D) -> list (act D).
Hypothesis Hcfg : cfg_ok W L cfg.
Notation idle := (kconv MS US (c_min_us cfg)).
Notation cap := (c_cap cfg).
Notation RR := (R D W cfg).
Notation RRL := (RL D W cfg).
Notation spstep := (sp_step D dbg cap (c_handler_cap cfg) (c_delay cfg) idle (c_max_us cfg) beh).
Notation sprun := (sp_run D dbg cap (c_handler_cap cfg) (c_delay cfg) idle (c_max_us cfg) beh).
Notation sprunl := (sp_loop D dbg cap (c_handler_cap cfg) (c_delay cfg) idle (c_max_us cfg) beh).

Lemma Hidle : (0 <= idle)%Z.
Proof. apply kconv_nonneg. apply Hcfg. Qed.

Lemma run_simT fuel ops s p : RR s p -> sim D (RRL s) (run D W L dbg cfg beh fuel ops s) (sprun fuel ops p).
Proof. intros. destruct Hcfg as (A & B & C & E & F). apply run_sim; auto. apply Hidle. Qed.
Lemma step_simT fuel o s p : RR s p -> sim D (RRL s) (step D W L dbg cfg beh fuel o s) (spstep fuel o p).
Proof. intros. destruct Hcfg as (A & B & C & E & F). apply step_sim; auto. apply Hidle. Qed.
Lemma new_RT now : RR (es_new D nodata cfg now) (sp_new D now (c_count cfg)).
Proof. destruct Hcfg as (A & B & C & E & F). apply new_R; auto. Qed.

(** A run and what it corresponds to *)
Lemma run_any fuel now ops s : (0 <= now)%Z -> run D W L dbg cfg beh fuel ops (es_new D nodata cfg now) = Ok s ->
  exists p, sprun fuel ops (sp_new D now (c_count cfg)) = Ok p /\ RR s p /\ ginv D cap p /\ p_busy D p = 0.
Proof.
  intros Hn Hr. pose proof (run_simT fuel ops _ _ (new_RT now)) as HS. rewrite Hr in HS.
  destruct (sprun fuel ops (sp_new D now (c_count cfg))) as [p| | | |] eqn:E; cbn [sim] in HS; try contradiction.
  exists p. splits; auto; [apply HS| |]; (eapply ginv_run in E; [| apply Hidle|apply (ginv_new D cap); auto]); tauto.
Qed.

Lemma R_fields s p : RR s p -> s_now D s = p_now D p /\ s_log D s = p_log D p.
Proof. intros (a & b & c & H). split; [apply (R_now _ _ _ _ _ _ _ _ H)|apply (R_log _ _ _ _ _ _ _ _ H)]. Qed.

Lemma pending_ok s p : RR s p -> forall l, pending D W s l <-> l = p_pend D p.
Proof.
  intros H l. split; [eapply R_pending_unique; eauto|]. intros ->. eapply R_pending; eauto.
Qed.

Lemma kept_ok s p : RR s p -> kept D s = p_kept D p.
Proof. apply R_kept_reads. Qed.

Lemma sprun_app fuel : forall ops1 p0, sprun fuel (ops1 ++ [OLoop D]) p0 = (p1 <- sprun fuel ops1 p0 ;; spstep fuel (OLoop D) p1).
Proof.
  induction ops1 as [|o ops1 IH]; intros p0; cbn [sp_run app bind]; [destruct (spstep fuel (OLoop D) p0); reflexivity|].
  destruct (spstep fuel o p0); cbn [bind]; auto.
Qed.

Lemma lost_thm fuel now ops s : (0 <= now)%Z -> run D W L dbg cfg beh fuel ops (es_new D nodata cfg now) = Ok s ->
  exists l, pending D W s l /\ none_lost D (s_log D s) l /\ hardly_early D (s_log D s) /\
    ((s_now D s <= 2 ^ 24)%Z -> not_early D (s_log D s)) /\ length l + held D (kept D s) <= cap /\ keeps D (s_log D s) (kept D s).
Proof.
  intros Hn Hr. destruct (run_any fuel now ops s Hn Hr) as (p & _ & HR & [] & Hb). exists (p_pend D p).
  rewrite (kept_ok s p HR).
  destruct (R_fields s p HR) as [-> ->]. splits; auto; [eapply pending_ok; eauto|lia].
Qed.

Section Exact.
Variables T N : Z.
Hypothesis HTN : (2 ^ 24 * T + N < 2 ^ 48)%Z.
Hypothesis Hbeh : forall l, Forall (tame D T) (beh l).

(** A run within the range and what it corresponds to *)
Lemma run_inv fuel now ops s : (0 <= now)%Z -> Forall (tame_op D T) ops -> run D W L dbg cfg beh fuel ops (es_new D nodata cfg now) = Ok s ->
  (s_now D s <= N)%Z ->
  exists p, sprun fuel ops (sp_new D now (c_count cfg)) = Ok p /\ RR s p /\ ord D p /\ ginv D cap p /\ p_busy D p = 0.
Proof.
  intros Hn Ht Hr Hs. destruct (run_any fuel now ops s Hn Hr) as (p & E & HR & HG & Hb). exists p. splits; auto.
  eapply inv_run in E; [|apply Hidle|exact HTN|exact Hbeh|exact Ht|apply inv_new; auto]. apply (proj1 E). rewrite <- (proj1 (R_fields s p HR)). exact Hs.
Qed.

Lemma trace_thm fuel now ops s : (0 <= now)%Z -> Forall (tame_op D T) ops -> run D W L dbg cfg beh fuel ops (es_new D nodata cfg now) = Ok s ->
  (s_now D s <= N)%Z ->
  exists l, pending D W s l /\ StronglySorted (fun x y => (fst x <= fst y)%Z) l /\ once D (s_log D s) l /\ in_order D (s_log D s).
Proof.
  intros Hn Ht Hr Hs. destruct (run_inv fuel now ops s Hn Ht Hr Hs) as (p & _ & HR & [] & _ & Hb). exists (p_pend D p).
  rewrite (proj2 (R_fields s p HR)). splits; auto. eapply pending_ok; eauto.
Qed.

Lemma loop_clears fuel now ops s : (0 <= now)%Z -> Forall (tame_op D T) ops ->
  run D W L dbg cfg beh fuel (ops ++ [OLoop D]) (es_new D nodata cfg now) = Ok s -> (s_now D s <= N)%Z ->
  forall l, pending D W s l -> Forall (fun x : pend D => near24 (s_now D s - (if c_delay cfg then slept D (s_log D s) else 0)) < fst x)%Z l.
Proof.
  intros Hn Ht Hr Hs l Hl. assert (Forall (tame_op D T) (ops ++ [OLoop D])) as Ht' by (apply Forall_app; split; auto; repeat constructor).
  destruct (run_inv fuel now _ s Hn Ht' Hr Hs) as (p & E & HR & HO & _).
  rewrite sprun_app in E. destruct (sprun fuel ops (sp_new D now (c_count cfg))) as [p0| | | |] eqn:E0; cbn [bind] in E; try discriminate.
  eapply inv_run in E0 as [HI _]; [|apply Hidle|exact HTN|exact Hbeh|exact Ht|apply inv_new; auto].
  cbn [sp_step] in E. eapply inv_loop in E as (p1 & -> & _ & HF); [|apply Hidle|exact HTN|exact Hbeh|exact HI].
  destruct (R_fields _ _ HR) as [-> ->]. apply (pending_ok _ _ HR) in Hl. subst l.
  pose proof (i_sorted _ _ HO) as Hso. revert Hso.
  assert (Ep : p_pend D (sp_sleep D (c_delay cfg) idle (c_max_us cfg) p1) = p_pend D p1) by (unfold sp_sleep; destruct (c_delay cfg); reflexivity).
  rewrite Ep. intros Hso.
  assert (Forall (fun x : pend D => (near24 (p_now D p1) < fst x)%Z) (p_pend D p1)) as HA.
  { destruct (p_pend D p1) as [|x xs]; constructor; auto. inversion Hso as [|? ? _ Hf]; subst. eapply Forall_impl; [|exact Hf]. simpl. intros; lia. }
  unfold sp_sleep. destruct (c_delay cfg).
  - cbn [p_now p_log p_pend sp_log]. unfold slept. rewrite rev_app_distr. cbn [rev app].
    rewrite Z.add_simpl_r. exact HA.
  - rewrite Z.sub_0_r. exact HA.
Qed.
End Exact.

(** Pipeline::expire from outside *)
Lemma expire_late s p x xs : RR s p -> p_pend D p = x :: xs -> (near24 (p_now D p) < fst x)%Z ->
  if dbg then expire D dbg s = Halt else exists s1, expire D dbg s = Ok (None, s1) /\ pending D W s1 xs.
Proof.
  intros (ptrs & pre & post & H) Ep Hx. unfold expire, vempty. pose proof (vr_size W _ _ _ _ (R_pipe _ _ _ _ _ _ _ _ H)) as Hs.
  rewrite map_length in Hs. rewrite Hs. pose proof (R_pts _ _ _ _ _ _ _ _ H) as HP. pose proof (R_now _ _ _ _ _ _ _ _ H) as Ew.
  rewrite Ep in HP. inversion HP as [|o ? qs ? HPo HPq E0]; subst ptrs.
  cbn [length Nat.eqb negb]. rewrite sassert_true. cbn [bind].
  destruct (@pop_front_vr sptr (fun _ => None) W isnull (fun _ => eq_refl) dbg (s_pipe D s) (Some o) (map Some qs) pre post (R_pipe _ _ _ _ _ _ _ _ H)) as (v' & pre' & post' & E & HR' & Hm & HC).
  rewrite E. cbn [bind]. rewrite sassert_true. cbn [bind].
  pose proof HPo as (e & E1 & E2). unfold deref. cbn [set_pipe s_objs s_now]. rewrite E1. cbn [bind]. rewrite Ew in *.
  destruct (alarm_expired_at D W L cfg (proj1 Hcfg) _ _ _ E2) as (a & Ea & Em & _). rewrite Ea. destruct (Z.leb_spec (fst x) (near24 (p_now D p))); [lia|].
  destruct dbg; cbn [sassert bind]; [reflexivity|]. eexists. split; [reflexivity|].
  exists (map Some qs). cbn [set_obj set_pipe s_pipe]. split; [eapply vr_holds; exact HR'|].
  assert (Hnin : ~ In o qs). { pose proof (R_nodup _ _ _ _ _ _ _ _ H) as N. inversion N as [|? ? N' _]; subst. intros Hi. apply N'. apply in_or_app; auto. }
  clear -HPq Hnin. induction HPq as [|q y qs ys (e' & E3 & E4 & E5 & E6 & _) _ IH]; auto. cbn [map]. rewrite IH by (intros Hi; apply Hnin; right; auto).
  f_equal. cbn [shown set_obj set_pipe s_objs]. rewrite nth_error_upd_neq by (intros ->; apply Hnin; left; auto). rewrite E3, E4, E5, E6. destruct y as [? [? ?]]; reflexivity.
Qed.

Lemma expire_thm fuel now ops s : (0 <= now)%Z ->
  run D W L dbg cfg beh fuel ops (es_new D nodata cfg now) = Ok s ->
  (pending D W s [] -> expire D dbg s = if dbg then Halt else Ok (None, s)) /\
  (forall x l, pending D W s (x :: l) -> (fst x <= near24 (s_now D s))%Z -> exists o s', expire D dbg s = Ok (Some o, s') /\
     shown D s' (Some o) = Some x /\ pending D W s' l /\ s_now D s' = s_now D s) /\
  (forall x l, pending D W s (x :: l) -> (near24 (s_now D s) < fst x)%Z -> if dbg then expire D dbg s = Halt else exists s', expire D dbg s = Ok (None, s') /\ pending D W s' l).
Proof.
  intros Hn Hr. destruct (run_any fuel now ops s Hn Hr) as (p & _ & HR & HI & Hb). destruct (R_fields _ _ HR) as [En El].
  split; [|split].
  - intros Hp. apply (pending_ok _ _ HR) in Hp. destruct HR as (ptrs & pre & post & H). pose proof (vr_size W _ _ _ _ (R_pipe _ _ _ _ _ _ _ _ H)) as Hz.
    rewrite map_length, (Forall2_length (R_pts _ _ _ _ _ _ _ _ H)), <- Hp in Hz. unfold expire, vempty. rewrite Hz. destruct dbg; reflexivity.
  - intros x l Hp Hx. apply (pending_ok _ _ HR) in Hp. rewrite En in Hx.
    destruct Hcfg as (A1 & A2 & A3 & A4 & A5).
    destruct (expire_sim D W L dbg cfg A1 s p x l HR (eq_sym Hp) Hx) as (o & s1 & e & E & Eo & Em & HR1 & _).
    exists o, s1. destruct (R_fields _ _ HR1) as [En1 El1]. splits; auto.
    + cbn [shown]. rewrite Eo. destruct Em as (-> & -> & -> & _). destruct x as [? [? ?]]; reflexivity.
    + apply (pending_ok _ _ HR1). reflexivity.
    + rewrite En1, En. reflexivity.
  - intros x l Hp Hx. apply (pending_ok _ _ HR) in Hp. rewrite En in Hx. eapply expire_late; eauto.
Qed.

(** Scheduling from outside *)
Lemma schedule_thm fuel now ops s id t d l : (0 <= now)%Z ->
  run D W L dbg cfg beh fuel ops (es_new D nodata cfg now) = Ok s -> pending D W s l ->
  (length l + held D (kept D s) < cap -> (dbg = false \/ 0 < t)%Z -> exists s', schedule D W L dbg id t d s = Ok s' /\
     pending D W s' (enqueue D (near24 (s_now D s)) (s_now D s + near24 t, (id, d)) l)%Z /\
     s_log D s' = s_log D s ++ [LSched D (s_now D s + near24 t) id d] /\ s_now D s' = s_now D s /\ kept D s' = kept D s) /\
  (length l + held D (kept D s) = cap -> schedule D W L dbg id t d s = if dbg then Halt else UB).
Proof.
  intros Hn Hr Hl. destruct (run_any fuel now ops s Hn Hr) as (p & _ & HR & HI & Hb).
  apply (pending_ok _ _ HR) in Hl. subst l. destruct (R_fields _ _ HR) as [En El].
  pose proof (step_simT 0 (OAct D (ASchedule D id t d)) s p HR) as HS. cbn [step do_act sp_step sp_act] in HS.
  rewrite (kept_ok _ _ HR). unfold sp_schedule, sp_push in HS. unfold slot in HS. rewrite Hb, Nat.add_0_r in HS. split.
  - intros Hc Hp. destruct (Nat.ltb_spec (length (p_pend D p) + held D (p_kept D p)) cap); [|lia]. cbn [bind] in HS.
    assert (sassert dbg (0 <? t)%Z = Ok tt) as Es. { destruct Hp as [-> |Hp]; [destruct (0 <? t)%Z; reflexivity|]. destruct (Z.ltb_spec 0 t); [reflexivity|lia]. }
    rewrite Es in HS. cbn [bind] in HS. destruct (schedule D W L dbg id t d s) as [s'| | | |]; cbn [sim] in HS; try contradiction.
    destruct HS as (HR' & _). exists s'. destruct (R_fields _ _ HR') as [En' El']. cbn [sp_log p_now p_log] in *. splits; auto; try congruence.
    + apply (pending_ok _ _ HR'). cbn [sp_log p_pend]. congruence.
    + apply (kept_ok _ _ HR').
  - intros Hc. destruct (Nat.ltb_spec (length (p_pend D p) + held D (p_kept D p)) cap); [lia|].
    destruct dbg; cbn [bind] in HS; destruct (schedule D W L _ id t d s) as [s'| | | |]; cbn [sim] in HS; try contradiction; reflexivity.
Qed.

Lemma enqueue_split c x : forall l, exists l1 l2, l = l1 ++ l2 /\ enqueue D c x l = l1 ++ x :: l2.
Proof.
  induction l as [|y l (l1 & l2 & E1 & E2)]; [exists [], []; auto|]. cbn [enqueue]. destruct (fst x - c <? near24 (fst y - c))%Z.
  - exists [], (y :: l). auto.
  - exists (y :: l1), l2. rewrite E2, E1 at 1. auto.
Qed.

(** ** Quiet handlers: what loop() and trigger() do exactly *)
Lemma quiet_hs : (forall l, beh l = []) -> forall fuel ops p p', sprun fuel ops p = Ok p' -> forall id hs, nth_error (p_hs D p) id = Some hs ->
  length hs <= c_handler_cap cfg ->
  nth_error (p_hs D p') id = Some (firstn (c_handler_cap cfg) (hs ++ attached D id ops)).
Proof.
  intros Hq fuel. induction ops as [|o ops IH]; intros p p' H id hs Hh Hlen; cbn [sp_run] in H.
  - inversion H; subst. simpl. rewrite app_nil_r, firstn_all2 by auto. exact Hh.
  - destruct (spstep fuel o p) as [p1| | | |] eqn:E; cbn [bind] in H; try discriminate.
    assert (Htrig : forall rec i d q q', sp_trigger D dbg beh rec i d q = Ok q' -> p_hs D q' = p_hs D q).
    { intros rec i d q q' Hq'. unfold sp_trigger in Hq'. destruct (nth_error (p_hs D q) i); [|destruct dbg; discriminate].
      destruct (sassert dbg (negb (length l =? 0))); cbn [bind] in Hq'; try discriminate. rewrite quiet_calls in Hq' by auto. inversion Hq'; reflexivity. }
    assert (Hloop : forall f q q', sprunl f q = Ok q' -> p_hs D q' = p_hs D q).
    { assert (Hsl : forall q, p_hs D (sp_sleep D (c_delay cfg) idle (c_max_us cfg) q) = p_hs D q) by (intros q; unfold sp_sleep; destruct (c_delay cfg); reflexivity).
      induction f as [|f IHf]; intros q q' Hq'; unfold sp_loop in Hq'; cbn [sp_act] in Hq'; unfold sp_loop_with in Hq';
        (destruct (p_pend D q) as [|[due [i d]] rest]; [inversion Hq'; apply Hsl|]); destruct (due <=? near24 (p_now D q))%Z; try (inversion Hq'; apply Hsl);
        match type of Hq' with bind ?x _ = _ => destruct x as [q1| | | |] eqn:E1; cbn [bind] in Hq'; try discriminate end.
      apply Htrig in E1. apply IHf in Hq'. rewrite Hq'. exact E1. }
    assert (Hsame : p_hs D p1 = p_hs D p -> attached D id (o :: ops) = attached D id ops -> nth_error (p_hs D p') id = Some (firstn (c_handler_cap cfg) (hs ++ attached D id (o :: ops)))).
    { intros E1 ->. apply (IH p1 p' H id hs); auto. now rewrite E1. }
    assert (Hpush : forall i t d q q', sp_push D dbg i t d q = Ok q' -> p_hs D q' = p_hs D q).
    { intros i t d q q' Hq'. unfold sp_push in Hq'. destruct (sassert dbg (0 <? t)%Z); cbn [bind] in Hq'; try discriminate. inversion Hq'; reflexivity. }
    destruct o as [[i t d|i d|i h|dt| |i t d|k|k|k]|]; cbn [sp_step] in E.
    + apply Hsame; [|reflexivity]. destruct fuel; cbn [sp_act] in E; unfold sp_schedule in E;
        destruct (slot D dbg cap p); cbn [bind] in E; try discriminate; eapply Hpush; eauto.
    + apply Hsame; [|reflexivity]. destruct fuel; cbn [sp_act] in E; try discriminate.
      destruct (slot D dbg cap p); cbn [bind] in E; try discriminate.
      match type of E with bind ?x _ = _ => destruct x as [q1| | | |] eqn:E1; cbn [bind] in E; try discriminate end.
      apply Htrig in E1. inversion E; subst. exact E1.
    + assert (E' : sp_attach D dbg (c_handler_cap cfg) i h p = Ok p1) by (destruct fuel; exact E). clear E. unfold sp_attach in E'.
      destruct (nth_error (p_hs D p) i) as [hi|] eqn:Ei; [|destruct dbg; discriminate].
      destruct (sassert dbg (length hi <? c_handler_cap cfg)); cbn [bind] in E'; try discriminate. inversion E'; subst p1; clear E'.
      unfold attached. cbn [flat_map]. fold (attached D id ops). destruct (Nat.eqb_spec i id) as [->|Hne].
      * rewrite Hh in Ei. inversion Ei; subst hi; clear Ei. cbn [app].
        destruct (Nat.ltb_spec (length hs) (c_handler_cap cfg)) as [Hc|Hc].
        -- rewrite (IH _ _ H id (hs ++ [h])); [rewrite <- app_assoc; reflexivity| |].
           ++ cbn [p_hs]. apply nth_error_upd_eq. apply nth_error_Some. congruence.
           ++ rewrite app_length. simpl. lia.
        -- rewrite (IH _ _ H id hs Hh Hlen). f_equal. rewrite !firstn_app. replace (c_handler_cap cfg - length hs) with 0 by lia. reflexivity.
      * cbn [app]. apply (IH _ _ H id hs); auto. destruct (length hi <? c_handler_cap cfg); auto. cbn [p_hs]. rewrite nth_error_upd_neq; auto.
    + apply Hsame; [|reflexivity]. destruct fuel; cbn [sp_act] in E; inversion E; reflexivity.
    + apply Hsame; [|reflexivity]. eapply Hloop; eauto.
    + apply Hsame; [|reflexivity]. destruct fuel; cbn [sp_act] in E; unfold sp_keep_event in E;
        destruct (length (p_pend D p) + p_busy D p + held D (p_kept D p) <? cap); [|destruct dbg; [discriminate|]| |destruct dbg; [discriminate|]]; inversion E; reflexivity.
    + apply Hsame; [|reflexivity]. destruct fuel; cbn [sp_act] in E; unfold sp_schedule_kept, sp_take in E;
        (destruct (nth_error (p_kept D p) k) as [[[[i t] d]|]|]; cbn [bind] in E; [|destruct (sassert dbg (length (p_pend D (sp_taken D k None p)) <? cap)); discriminate|discriminate]);
        apply Hpush in E; exact E.
    + apply Hsame; [|reflexivity]. destruct fuel; cbn [sp_act] in E; [discriminate|]. unfold sp_trigger_kept, sp_take in E.
      destruct (nth_error (p_kept D p) k) as [[[[i t] d]|]|]; cbn [bind] in E; [|destruct dbg; discriminate|discriminate].
      match type of E with bind ?x _ = _ => destruct x as [q1| | | |] eqn:E1; cbn [bind] in E; try discriminate end.
      apply Htrig in E1. inversion E; subst. exact E1.
    + apply Hsame; [|reflexivity]. destruct fuel; cbn [sp_act] in E; unfold sp_drop_kept, sp_take in E;
        (destruct (nth_error (p_kept D p) k); cbn [bind] in E; [|discriminate]); inversion E; reflexivity.
    + apply Hsame; [|reflexivity]. eapply Hloop; eauto.
Qed.

Lemma trigger_quiet fuel now ops s id d : (forall l, beh l = []) -> (0 <= now)%Z -> id < c_count cfg ->
  run D W L dbg cfg beh fuel ops (es_new D nodata cfg now) = Ok s ->
  forall l, pending D W s l -> length l + held D (kept D s) < cap ->
  (dbg = false \/ (attached D id ops <> [] /\ 0 < c_handler_cap cfg)) ->
  exists s', do_act D W L dbg cfg beh 1 (ATrigger D id d) s = Ok s' /\ pending D W s' l /\ s_now D s' = s_now D s /\
    s_log D s' = s_log D s ++ map (fun h => LCall D h id d (s_now D s)) (firstn (c_handler_cap cfg) (attached D id ops)).
Proof.
  intros Hq Hn Hid Hr l Hl Hc Hd. destruct (run_any fuel now ops s Hn Hr) as (p & Ep & HR & HI & Hb). rewrite (kept_ok _ _ HR) in Hc.
  apply (pending_ok _ _ HR) in Hl. subst l. destruct (R_fields _ _ HR) as [En El].
  pose proof (quiet_hs Hq fuel ops _ _ Ep id [] ) as Hh. cbn [sp_new p_hs app length] in Hh.
  specialize (Hh ltac:(apply nth_error_repeat_lt; auto) ltac:(lia)).
  pose proof (step_simT 1 (OAct D (ATrigger D id d)) s p HR) as HS. cbn [step sp_step] in HS. 
  assert (sp_act D dbg cap (c_handler_cap cfg) (c_delay cfg) idle (c_max_us cfg) beh 1 (ATrigger D id d) p =
    Ok (mkSp D (p_now D p) (p_hs D p) (p_pend D p) 0 (p_kept D p) (p_log D p ++ map (fun h => LCall D h id d (p_now D p)) (firstn (c_handler_cap cfg) (attached D id ops))))) as E.
  { cbn [sp_act]. unfold slot. rewrite Hb, Nat.add_0_r. destruct (Nat.ltb_spec (length (p_pend D p) + held D (p_kept D p)) cap); [|lia]. cbn [bind].
    unfold sp_trigger. cbn [sp_busy p_hs]. rewrite Hh.
    assert (sassert dbg (negb (length (firstn (c_handler_cap cfg) (attached D id ops)) =? 0)) = Ok tt) as ->.
    { destruct Hd as [->|[Ha Hc']]; [destruct (negb (length (firstn (c_handler_cap cfg) (attached D id ops)) =? 0)); reflexivity|].
      rewrite firstn_length. destruct (attached D id ops) as [|x xs]; [congruence|]. simpl length.
      destruct (Nat.eqb_spec (min (c_handler_cap cfg) (S (length xs))) 0); [lia|]. reflexivity. }
    cbn [bind]. rewrite quiet_calls by auto. cbn [bind]; unfold sp_busy; cbn [p_now p_hs p_pend p_log p_kept p_busy]; rewrite ?Hb. reflexivity. }
  change (spstep 1 (OAct D (ATrigger D id d)) p) with (sp_act D dbg cap (c_handler_cap cfg) (c_delay cfg) idle (c_max_us cfg) beh 1 (ATrigger D id d) p) in HS. rewrite E in HS.
  destruct (do_act D W L dbg cfg beh 1 (ATrigger D id d) s) as [s'| | | |]; cbn [sim] in HS; try contradiction.
  destruct HS as (HR' & _). exists s'. destruct (R_fields _ _ HR') as [En' El']. cbn [p_now p_log] in *. splits; auto; try congruence.
  - apply (pending_ok _ _ HR'). reflexivity.
  - rewrite El', El, En. reflexivity.
Qed.

(** What one event firing adds to the trace when handlers do nothing themselves *)
Definition fired (now : Z) (ops : list (op D)) (x : pend D) : list (entry D) :=
  LFire D (fst x) (fst (snd x)) (snd (snd x)) now ::
  map (fun h => LCall D h (fst (snd x)) (snd (snd x)) now) (firstn (c_handler_cap cfg) (attached D (fst (snd x)) ops)).
Definition sleep_for (now : Z) (l : list (pend D)) : Z :=
  match l with [] => idle | x :: _ => (Z.min (fst x - near24 now) (c_max_us cfg) mod 2 ^ 32)%Z end.

Lemma loop_quiet_sp (ops : list (op D)) : (forall l, beh l = []) -> forall l1 l2 f p, p_pend D p = l1 ++ l2 ->
  Forall (fun x : pend D => (fst x <= near24 (p_now D p))%Z /\
     nth_error (p_hs D p) (fst (snd x)) = Some (firstn (c_handler_cap cfg) (attached D (fst (snd x)) ops)) /\
     (dbg = false \/ (attached D (fst (snd x)) ops <> [] /\ 0 < c_handler_cap cfg))) l1 ->
  Forall (fun x : pend D => (near24 (p_now D p) < fst x)%Z) l2 -> length l1 <= f ->
  sprunl f p = Ok (sp_sleep D (c_delay cfg) idle (c_max_us cfg) (mkSp D (p_now D p) (p_hs D p) l2 (p_busy D p) (p_kept D p) (p_log D p ++ flat_map (fired (p_now D p) ops) l1))).
Proof.
  intros Hq. induction l1 as [|[due [id d]] l1 IH]; intros l2 f p Hp H1 H2 Hf.
  - cbn [flat_map]. rewrite app_nil_r. cbn [app] in Hp. replace (mkSp D (p_now D p) (p_hs D p) l2 (p_busy D p) (p_kept D p) (p_log D p)) with p by (destruct p; simpl in *; subst; reflexivity).
    destruct f; unfold sp_loop; cbn [sp_act]; unfold sp_loop_with; rewrite Hp; cbn [bind]; (destruct l2 as [|[due [id d]] l2]; [reflexivity|]);
      inversion H2; subst; cbn [fst] in *; (destruct (Z.leb_spec due (near24 (p_now D p))); [lia|reflexivity]).
  - inversion H1 as [|x y (Hd & Hh & Hn) H1']; subst. cbn [fst snd] in *. destruct f as [|f]; [simpl in Hf; lia|].
    unfold sp_loop; cbn [sp_act]; unfold sp_loop_with. rewrite Hp. cbn [bind app]. destruct (Z.leb_spec due (near24 (p_now D p))); [|lia].
    unfold sp_trigger at 1. cbn [sp_log p_hs]. rewrite Hh.
    assert (sassert dbg (negb (length (firstn (c_handler_cap cfg) (attached D id ops)) =? 0)) = Ok tt) as ->.
    { destruct Hn as [->|[Ha Hc']]; [destruct (negb (length (firstn (c_handler_cap cfg) (attached D id ops)) =? 0)); reflexivity|].
      rewrite firstn_length. destruct (attached D id ops) as [|x xs]; [congruence|]. simpl length.
      destruct (Nat.eqb_spec (min (c_handler_cap cfg) (S (length xs))) 0); [lia|]. reflexivity. }
    cbn [bind]. rewrite quiet_calls by auto. cbn [bind sp_log sp_busy p_now p_hs p_pend p_log p_kept p_busy].
    unfold sp_busy. unfold sp_loop in IH. rewrite IH with (l2 := l2); cbn [p_now p_hs p_pend p_log p_kept p_busy]; auto.
    + cbn [flat_map]. unfold fired at 2. cbn [fst snd]. rewrite <- !app_assoc. reflexivity.
    + simpl in Hf. lia.
Qed.

Lemma sleep_eq p : match p_pend D p with [] => True | x :: _ => (near24 (p_now D p) < fst x)%Z end ->
  sp_sleep D (c_delay cfg) idle (c_max_us cfg) p =
  if c_delay cfg then mkSp D (p_now D p + sleep_for (p_now D p) (p_pend D p)) (p_hs D p) (p_pend D p) (p_busy D p) (p_kept D p)
      (p_log D p ++ [LSleep D (sleep_for (p_now D p) (p_pend D p))]) else p.
Proof.
  intros H. unfold sp_sleep. destruct (c_delay cfg); auto. unfold sleep_for. cbn [sp_log p_now p_hs p_pend p_busy p_log].
  destruct (p_pend D p) as [|x xs]; auto. replace (Z.max 0 (fst x - near24 (p_now D p))) with (fst x - near24 (p_now D p))%Z by lia. reflexivity.
Qed.
Lemma sorted_split now (l : list (pend D)) : StronglySorted (fun x y => (fst x <= fst y)%Z) l ->
  exists l1 l2, l = l1 ++ l2 /\ l1 = filter (fun x => (fst x <=? now)%Z) l /\ l2 = filter (fun x => negb (fst x <=? now)%Z) l.
Proof.
  induction 1 as [|x l Hs (l1 & l2 & IH & E1 & E2) HF]; [exists [], []; auto|]. cbn [filter]. destruct (Z.leb_spec (fst x) now) as [Hx|Hx]; cbn [negb].
  - exists (x :: l1), l2. rewrite <- E1, <- E2. splits; auto. now rewrite IH at 1.
  - exists [], (x :: l). rewrite <- E1, <- E2. assert (l1 = []) as ->.
    { rewrite E1. clear -HF Hx. induction HF as [|y l Hy HF IH]; cbn [filter]; auto. destruct (Z.leb_spec (fst y) now); [lia|auto]. }
    splits; auto. cbn [app] in IH. congruence.
Qed.

Lemma loop_quiet T N fuel f now ops s l : (2 ^ 24 * T + N < 2 ^ 48)%Z -> (forall l, beh l = []) -> (0 <= now)%Z -> Forall (tame_op D T) ops ->
  run D W L dbg cfg beh fuel ops (es_new D nodata cfg now) = Ok s -> (s_now D s <= N)%Z -> pending D W s l -> length l <= f ->
  (forall due id d, In (due, (id, d)) l -> id < c_count cfg /\ (dbg = false \/ (attached D id ops <> [] /\ 0 < c_handler_cap cfg))) ->
  let now' := s_now D s in
  let rest := filter (fun x => negb (fst x <=? near24 now')%Z) l in
  exists s', loop D W L dbg cfg beh f s = Ok s' /\ pending D W s' rest /\
    s_log D s' = s_log D s ++ flat_map (fired now' ops) (filter (fun x => (fst x <=? near24 now')%Z) l) ++
                 (if c_delay cfg then [LSleep D (sleep_for now' rest)] else []) /\
    s_now D s' = (now' + if c_delay cfg then sleep_for now' rest else 0)%Z.
Proof.
  intros HTN Hq Hn Ht Hr Hs Hl Hf Hids now' rest.
  destruct (run_inv T N HTN ltac:(intros l0; rewrite Hq; constructor) fuel now ops s Hn Ht Hr Hs) as (p & Ep & HR & HI & _ & Hb).
  apply (pending_ok _ _ HR) in Hl. subst l. destruct (R_fields _ _ HR) as [En El].
  destruct (sorted_split (near24 now') (p_pend D p)) as (l1 & l2 & E12 & E1 & E2); [apply (i_sorted _ _ HI)|].
  pose proof (step_simT f (OLoop D) s p HR) as HS. cbn [step sp_step] in HS.
  assert (Forall (fun x : pend D => (near24 (p_now D p) < fst x)%Z) rest) as Hrest.
  { apply Forall_forall. intros x Hx. apply filter_In in Hx as [_ Hx]. unfold now' in Hx. rewrite En in Hx. destruct (Z.leb_spec (fst x) (near24 (p_now D p))); [discriminate|lia]. }
  rewrite (loop_quiet_sp ops Hq l1 l2 f p E12) in HS.
  - destruct (loop D W L dbg cfg beh f s) as [s'| | | |]; cbn [sim] in HS; try contradiction. destruct HS as (HR' & _). exists s'.
    rewrite sleep_eq in HR' by (cbn [p_now p_pend]; rewrite E2; fold rest; destruct rest; [exact I|inversion Hrest; auto]). cbn [p_now p_pend p_hs p_busy p_log] in HR'.
    destruct (R_fields _ _ HR') as [En' El']. rewrite En', El'. fold rest in E2. rewrite <- E1, E2 in *. unfold now' in *. rewrite En, El.
    splits; auto.
    + apply (pending_ok _ _ HR'). destruct (c_delay cfg); reflexivity.
    + destruct (c_delay cfg); cbn [p_log]; rewrite <- ?app_assoc, ?app_nil_r; reflexivity.
    + destruct (c_delay cfg); cbn [p_now]; lia.
  - rewrite E1. apply Forall_forall. intros [due [id d]] Hx. apply filter_In in Hx as [Hin Hx]. destruct (Hids _ _ _ Hin) as [Hid Hd]. cbn [fst snd] in *.
    splits; auto.
    + unfold now' in Hx. rewrite En in Hx. destruct (Z.leb_spec due (near24 (p_now D p))); [lia|discriminate].
    + apply (quiet_hs Hq fuel ops _ _ Ep id []); [|simpl; lia]. cbn [sp_new p_hs]. apply nth_error_repeat_lt; auto.
  - rewrite E2. exact Hrest.
  - assert (length (p_pend D p) = length (l1 ++ l2)) by congruence. rewrite app_length in *. lia.
Qed.

(** With handlers of any behaviour *)
Definition extends (l l' : list (entry D)) : Prop := exists k, l' = l ++ k.
Lemma extends_refl l : extends l l. Proof. exists []. now rewrite app_nil_r. Qed.
Lemma extends_trans a b c : extends a b -> extends b c -> extends a c.
Proof. intros [k ->] [k' ->]. exists (k ++ k'). now rewrite app_assoc. Qed.
Lemma calls_shape rec : (forall a p p', rec a p = Ok p' -> extends (p_log D p) (p_log D p')) ->
  forall id d hs p p', sp_calls D beh rec id d hs p = Ok p' -> calls_in D id d hs (p_log D p) (p_log D p').
Proof.
  intros Hrec id d. induction hs as [|h hs IH]; intros p p' H; cbn [sp_calls] in H; [inversion H; constructor|].
  match type of H with bind ?x _ = _ => destruct x as [p1| | | |] eqn:E; cbn [bind] in H; try discriminate end.
  assert (extends (p_log D p ++ [LCall D h id d (p_now D p)]) (p_log D p1)) as [k Hk].
  { clear -E Hrec. revert E. generalize (beh (p_log D (sp_log D (LCall D h id d (p_now D p)) p))).
    change (p_log D p ++ [LCall D h id d (p_now D p)]) with (p_log D (sp_log D (LCall D h id d (p_now D p)) p)).
    generalize (sp_log D (LCall D h id d (p_now D p)) p). intros q l. revert q. induction l as [|a l IH]; intros q E; simpl in E.
    - inversion E; subst. apply extends_refl.
    - destruct (rec a q) as [q1| | | |] eqn:E1; cbn [bind] in E; try discriminate. eapply extends_trans; [eapply Hrec; eauto|eauto]. }
  apply ci_cons with (now := p_now D p) (did := k). apply IH in H. rewrite Hk, <- app_assoc in H. exact H.
Qed.
Lemma calls_in_ext id d hs l l' : calls_in D id d hs l l' -> extends l l'.
Proof. induction 1; [apply extends_refl|]. eapply extends_trans; [|exact IHcalls_in]. eexists; reflexivity. Qed.
Lemma trigger_shape rec : (forall a p p', rec a p = Ok p' -> extends (p_log D p) (p_log D p')) ->
  forall id d p p', sp_trigger D dbg beh rec id d p = Ok p' ->
  exists hs, nth_error (p_hs D p) id = Some hs /\ calls_in D id d hs (p_log D p) (p_log D p').
Proof.
  intros Hrec id d p p' H. unfold sp_trigger in H. destruct (nth_error (p_hs D p) id) as [hs|]; [|destruct dbg; discriminate].
  destruct (sassert dbg (negb (length hs =? 0))); cbn [bind] in H; try discriminate. exists hs. split; auto. eapply calls_shape; eauto.
Qed.
Lemma act_ext : forall fuel a p p', sp_act D dbg cap (c_handler_cap cfg) (c_delay cfg) idle (c_max_us cfg) beh fuel a p = Ok p' -> extends (p_log D p) (p_log D p').
Proof.
  assert (Hpush : forall id t d p p', sp_push D dbg id t d p = Ok p' -> extends (p_log D p) (p_log D p')).
  { intros id t d p p' E. unfold sp_push in E. destruct (sassert dbg (0 <? t)%Z); cbn [bind] in E; try discriminate; inversion E. eexists; reflexivity. }
  assert (Hsch : forall id t d p p', sp_schedule D dbg cap id t d p = Ok p' -> extends (p_log D p) (p_log D p')).
  { intros id t d p p' E. unfold sp_schedule in E. destruct (slot D dbg cap p); cbn [bind] in E; try discriminate. eauto. }
  assert (Hke : forall id t d p p', sp_keep_event D dbg cap id t d p = Ok p' -> extends (p_log D p) (p_log D p')).
  { intros id t d p p' E. unfold sp_keep_event in E. destruct (length (p_pend D p) + p_busy D p + held D (p_kept D p) <? cap); [|destruct dbg; [discriminate|]];
      inversion E; eexists; reflexivity. }
  assert (Htk : forall k x p, extends (p_log D p) (p_log D (sp_taken D k x p))) by (intros; eexists; reflexivity).
  assert (Hsk : forall k p p', sp_schedule_kept D dbg cap k p = Ok p' -> extends (p_log D p) (p_log D p')).
  { intros k p p' E. unfold sp_schedule_kept, sp_take in E. destruct (nth_error (p_kept D p) k) as [[[[id t] d]|]|]; cbn [bind] in E;
      [|destruct (sassert dbg (length (p_pend D (sp_taken D k None p)) <? cap)); discriminate|discriminate].
    eapply extends_trans; [apply Htk|eapply Hpush; exact E]. }
  assert (Hdk : forall k p p', sp_drop_kept D k p = Ok p' -> extends (p_log D p) (p_log D p')).
  { intros k p p' E. unfold sp_drop_kept, sp_take in E. destruct (nth_error (p_kept D p) k); cbn [bind] in E; [|discriminate]. inversion E; subst. apply Htk. }
  assert (Hatt : forall id h p p', sp_attach D dbg (c_handler_cap cfg) id h p = Ok p' -> extends (p_log D p) (p_log D p')).
  { intros id h p p' E. unfold sp_attach in E. destruct (nth_error (p_hs D p) id) as [hi|]; [|destruct dbg; discriminate].
    destruct (sassert dbg (length hi <? c_handler_cap cfg)); cbn [bind] in E; try discriminate. inversion E. destruct (length hi <? c_handler_cap cfg); apply extends_refl. }
  assert (Hlw : forall rec, (forall a p p', rec a p = Ok p' -> extends (p_log D p) (p_log D p')) ->
    forall p p', sp_loop_with D dbg (c_delay cfg) idle (c_max_us cfg) beh rec p = Ok p' -> extends (p_log D p) (p_log D p')).
  { intros rec Hrec p p' E. unfold sp_loop_with in E.
    assert (Hsl : extends (p_log D p) (p_log D (sp_sleep D (c_delay cfg) idle (c_max_us cfg) p))).
    { unfold sp_sleep. destruct (c_delay cfg); [eexists; reflexivity|apply extends_refl]. }
    destruct (p_pend D p) as [|[due [id d]] rest]; [inversion E; subst; exact Hsl|]. destruct (due <=? near24 (p_now D p))%Z; [|inversion E; subst; exact Hsl].
    match type of E with bind ?x _ = _ => destruct x as [q1| | | |] eqn:E1; cbn [bind] in E; try discriminate end.
    apply (trigger_shape _ Hrec) in E1 as (hs & _ & Hc). apply calls_in_ext in Hc. apply Hrec in E. cbn [sp_busy sp_log p_log] in *.
    eapply extends_trans; [|exact E]. eapply extends_trans; [|exact Hc]. eexists; reflexivity. }
  induction fuel as [|fuel IH]; intros a p p' H; destruct a as [id t d|id d|id h|dt| |id t d|k|k|k]; cbn [sp_act] in H; try discriminate; eauto;
    try (inversion H; apply extends_refl).
  { eapply Hlw; [|exact H]. discriminate. }
  2:{ unfold sp_trigger_kept, sp_take in H. destruct (nth_error (p_kept D p) k) as [[[[id t] d]|]|]; cbn [bind] in H; [|destruct dbg; discriminate|discriminate].
      match type of H with bind ?x _ = _ => destruct x as [q1| | | |] eqn:E1; cbn [bind] in H; try discriminate end.
      apply (trigger_shape _ IH) in E1 as (hs & _ & Hc). apply calls_in_ext in Hc. inversion H; subst.
      eapply extends_trans; [apply (Htk k (Some (id, t, d)))|]. eapply extends_trans; [exact Hc|]. eexists; reflexivity. }
  destruct (slot D dbg cap p); cbn [bind] in H; try discriminate.
  match type of H with bind ?x _ = _ => destruct x as [q1| | | |] eqn:E1; cbn [bind] in H; try discriminate end.
  apply (trigger_shape _ IH) in E1 as (hs & _ & Hc). apply calls_in_ext in Hc. inversion H; subst. exact Hc.
Qed.

(** The handlers of an id, as trigger() finds them *)
Definition handlers (s : es D) (id : nat) (hs : list nat) : Prop :=
  exists v, nth_error (s_map D s) id = Some v /\ vholds W v (map Some hs).

Lemma R_handlers s p id hs : RR s p -> handlers s id hs -> nth_error (p_hs D p) id = Some hs.
Proof.
  intros (a & b & c & H) (v & Ev & Hv). pose proof (Forall2_nth _ _ _ id (R_map _ _ _ _ _ _ _ _ H)) as HN. rewrite Ev in HN.
  destruct (nth_error (p_hs D p) id) as [hs'|]; [|contradiction]. destruct HN as (po & V & _).
  pose proof (vr_holds_unique W _ _ _ _ _ V Hv) as E. f_equal. clear -E.
  revert hs' E. induction hs as [|x hs IH]; intros [|y hs'] E; try discriminate; auto. inversion E; subst. f_equal; auto.
Qed.

Lemma trigger_any fuel now ops s id d hs f s' : (0 <= now)%Z ->
  run D W L dbg cfg beh fuel ops (es_new D nodata cfg now) = Ok s -> handlers s id hs ->
  do_act D W L dbg cfg beh f (ATrigger D id d) s = Ok s' ->
  calls_in D id d hs (s_log D s) (s_log D s').
Proof.
  intros Hn Hr Hh Ha.
  destruct (run_any fuel now ops s Hn Hr) as (p & Ep & HR & HI & Hb).
  pose proof (step_simT f (OAct D (ATrigger D id d)) s p HR) as HS.
  change (step D W L dbg cfg beh f (OAct D (ATrigger D id d)) s) with (do_act D W L dbg cfg beh f (ATrigger D id d) s) in HS.
  rewrite Ha in HS. change (spstep f (OAct D (ATrigger D id d)) p) with (sp_act D dbg cap (c_handler_cap cfg) (c_delay cfg) idle (c_max_us cfg) beh f (ATrigger D id d) p) in HS.
  destruct (sp_act D dbg cap (c_handler_cap cfg) (c_delay cfg) idle (c_max_us cfg) beh f (ATrigger D id d) p) as [p'| | | |] eqn:E; cbn [sim] in HS; try contradiction.
  destruct HS as (HR' & _). destruct (R_fields _ _ HR) as [_ ->]. destruct (R_fields _ _ HR') as [_ ->].
  destruct f as [|f]; cbn [sp_act] in E; [discriminate|]. destruct (slot D dbg cap p); cbn [bind] in E; try discriminate.
  match type of E with bind ?x _ = _ => destruct x as [q1| | | |] eqn:E1; cbn [bind] in E; try discriminate end.
  apply (trigger_shape _ (act_ext f)) in E1 as (hs' & Eh & Hc). cbn [sp_busy p_hs p_log] in *. inversion E; subst. cbn [sp_busy p_log].
  rewrite (R_handlers s p id hs HR Hh) in Eh. inversion Eh; subst. exact Hc.
Qed.

(** ** Events in the user's hands *)
(** One call from outside, seen over lists *)
Lemma act_simT f a s p : RR s p ->
  sim D (RRL s) (do_act D W L dbg cfg beh f a s) (sp_act D dbg cap (c_handler_cap cfg) (c_delay cfg) idle (c_max_us cfg) beh f a p).
Proof. intros HR. exact (step_simT f (OAct D a) s p HR). Qed.

Lemma keep_thm fuel now ops s id t d l f : (0 <= now)%Z ->
  run D W L dbg cfg beh fuel ops (es_new D nodata cfg now) = Ok s -> pending D W s l ->
  (length l + held D (kept D s) < cap -> exists s', do_act D W L dbg cfg beh f (AKeep D id t d) s = Ok s' /\
     kept D s' = kept D s ++ [Some (id, t, d)] /\ pending D W s' l /\ s_now D s' = s_now D s) /\
  (length l + held D (kept D s) = cap ->
     if dbg then do_act D W L dbg cfg beh f (AKeep D id t d) s = Halt
     else exists s', do_act D W L dbg cfg beh f (AKeep D id t d) s = Ok s' /\ kept D s' = kept D s ++ [None] /\ pending D W s' l).
Proof.
  intros Hn Hr Hl. destruct (run_any fuel now ops s Hn Hr) as (p & _ & HR & HI & Hb).
  apply (pending_ok _ _ HR) in Hl. subst l. destruct (R_fields _ _ HR) as [En El].
  pose proof (act_simT f (AKeep D id t d) s p HR) as HS.
  assert (forall a, sp_act D dbg cap (c_handler_cap cfg) (c_delay cfg) idle (c_max_us cfg) beh a (AKeep D id t d) p = sp_keep_event D dbg cap id t d p) as Ea by (intros []; reflexivity).
  rewrite Ea in HS. clear Ea. rewrite (kept_ok _ _ HR). unfold sp_keep_event in HS. rewrite Hb, Nat.add_0_r in HS.
  destruct (do_act D W L dbg cfg beh f (AKeep D id t d) s) as [s'| | | |] eqn:E; (split; intros Hc;
    [destruct (Nat.ltb_spec (length (p_pend D p) + held D (p_kept D p)) cap); [|lia]
    |destruct (Nat.ltb_spec (length (p_pend D p) + held D (p_kept D p)) cap); [lia|]; destruct dbg]); cbn [sim] in HS; try contradiction; try reflexivity.
  - destruct HS as (HR' & _). destruct (R_fields _ _ HR') as [En' El']. exists s'. splits; auto.
    + apply (kept_ok _ _ HR').
    + apply (pending_ok _ _ HR'). reflexivity.
    + rewrite En', En. reflexivity.
  - destruct HS as (HR' & _). exists s'. splits; auto; [apply (kept_ok _ _ HR')|apply (pending_ok _ _ HR'); reflexivity].
Qed.

Lemma taken_mid ks1 x ks2 p : p_kept D p = ks1 ++ x :: ks2 ->
  sp_take D (length ks1) p = Ok (x, sp_log D (LTake D (length ks1) x) (sp_kept D (ks1 ++ ks2) p)).
Proof. intros E. unfold sp_take, sp_taken. rewrite E, nth_mid, cut_mid. reflexivity. Qed.

Lemma schedule_kept_thm fuel now ops s ks1 ks2 id t d l f : (0 <= now)%Z ->
  run D W L dbg cfg beh fuel ops (es_new D nodata cfg now) = Ok s -> pending D W s l ->
  kept D s = ks1 ++ Some (id, t, d) :: ks2 -> (dbg = false \/ 0 < t)%Z ->
  exists s', do_act D W L dbg cfg beh f (AScheduleKept D (length ks1)) s = Ok s' /\ kept D s' = ks1 ++ ks2 /\
    pending D W s' (enqueue D (near24 (s_now D s)) (s_now D s + near24 t, (id, d)) l)%Z /\
    s_log D s' = s_log D s ++ [LTake D (length ks1) (Some (id, t, d)); LSched D (s_now D s + near24 t) id d] /\ s_now D s' = s_now D s.
Proof.
  intros Hn Hr Hl Hk Hp. destruct (run_any fuel now ops s Hn Hr) as (p & _ & HR & HI & Hb).
  apply (pending_ok _ _ HR) in Hl. subst l. destruct (R_fields _ _ HR) as [En El]. rewrite (kept_ok _ _ HR) in Hk.
  pose proof (act_simT f (AScheduleKept D (length ks1)) s p HR) as HS.
  assert (forall a, sp_act D dbg cap (c_handler_cap cfg) (c_delay cfg) idle (c_max_us cfg) beh a (AScheduleKept D (length ks1)) p = sp_schedule_kept D dbg cap (length ks1) p) as Ea by (intros []; reflexivity).
  rewrite Ea in HS. clear Ea. unfold sp_schedule_kept in HS. rewrite (taken_mid _ _ _ _ Hk) in HS. cbn [bind] in HS. unfold sp_push in HS.
  assert (sassert dbg (0 <? t)%Z = Ok tt) as Es. { destruct Hp as [-> |Hp]; [destruct (0 <? t)%Z; reflexivity|]. destruct (Z.ltb_spec 0 t); [reflexivity|lia]. }
  rewrite Es in HS. cbn [bind] in HS.
  destruct (do_act D W L dbg cfg beh f (AScheduleKept D (length ks1)) s) as [s'| | | |]; cbn [sim] in HS; try contradiction.
  destruct HS as (HR' & _). destruct (R_fields _ _ HR') as [En' El']. cbn [sp_log sp_kept p_now p_log p_pend p_kept] in *. exists s'. splits; auto.
  - rewrite (kept_ok _ _ HR'). reflexivity.
  - apply (pending_ok _ _ HR'). cbn [sp_log p_pend]. now rewrite En.
  - rewrite El', El, En, <- app_assoc. reflexivity.
  - congruence.
Qed.

Lemma drop_kept_thm fuel now ops s ks1 x ks2 l f : (0 <= now)%Z ->
  run D W L dbg cfg beh fuel ops (es_new D nodata cfg now) = Ok s -> pending D W s l -> kept D s = ks1 ++ x :: ks2 ->
  exists s', do_act D W L dbg cfg beh f (ADropKept D (length ks1)) s = Ok s' /\ kept D s' = ks1 ++ ks2 /\ pending D W s' l /\
    s_log D s' = s_log D s ++ [LTake D (length ks1) x] /\ s_now D s' = s_now D s.
Proof.
  intros Hn Hr Hl Hk. destruct (run_any fuel now ops s Hn Hr) as (p & _ & HR & HI & Hb).
  apply (pending_ok _ _ HR) in Hl. subst l. destruct (R_fields _ _ HR) as [En El]. rewrite (kept_ok _ _ HR) in Hk.
  pose proof (act_simT f (ADropKept D (length ks1)) s p HR) as HS.
  assert (forall a, sp_act D dbg cap (c_handler_cap cfg) (c_delay cfg) idle (c_max_us cfg) beh a (ADropKept D (length ks1)) p = sp_drop_kept D (length ks1) p) as Ea by (intros []; reflexivity).
  rewrite Ea in HS. clear Ea. unfold sp_drop_kept in HS. rewrite (taken_mid _ _ _ _ Hk) in HS. cbn [bind] in HS.
  destruct (do_act D W L dbg cfg beh f (ADropKept D (length ks1)) s) as [s'| | | |]; cbn [sim] in HS; try contradiction.
  destruct HS as (HR' & _). destruct (R_fields _ _ HR') as [En' El']. cbn [sp_log sp_kept p_now p_log p_pend p_kept] in *. exists s'. splits; auto.
  - rewrite (kept_ok _ _ HR'). reflexivity.
  - apply (pending_ok _ _ HR'). reflexivity.
  - now rewrite El', El.
  - congruence.
Qed.

Lemma trigger_kept_thm fuel now ops s ks1 ks2 id t d hs f s' : (0 <= now)%Z ->
  run D W L dbg cfg beh fuel ops (es_new D nodata cfg now) = Ok s -> handlers s id hs ->
  kept D s = ks1 ++ Some (id, t, d) :: ks2 ->
  do_act D W L dbg cfg beh f (ATriggerKept D (length ks1)) s = Ok s' ->
  exists lg ks', calls_in D id d hs (s_log D s ++ [LTake D (length ks1) (Some (id, t, d))]) lg /\
    s_log D s' = lg ++ [LKeep D (Some (id, t, d))] /\ kept D s' = ks' ++ [Some (id, t, d)].
Proof.
  intros Hn Hr Hh Hk Ha. destruct (run_any fuel now ops s Hn Hr) as (p & _ & HR & HI & Hb).
  destruct (R_fields _ _ HR) as [En El]. rewrite (kept_ok _ _ HR) in Hk.
  pose proof (act_simT f (ATriggerKept D (length ks1)) s p HR) as HS. rewrite Ha in HS.
  destruct (sp_act D dbg cap (c_handler_cap cfg) (c_delay cfg) idle (c_max_us cfg) beh f (ATriggerKept D (length ks1)) p) as [p'| | | |] eqn:E; cbn [sim] in HS; try contradiction.
  destruct HS as (HR' & _). destruct (R_fields _ _ HR') as [_ El']. rewrite (kept_ok _ _ HR'), El, El'.
  destruct f as [|f]; cbn [sp_act] in E; [discriminate|]. unfold sp_trigger_kept in E. rewrite (taken_mid _ _ _ _ Hk) in E. cbn [bind] in E.
  match type of E with bind ?x _ = _ => destruct x as [q1| | | |] eqn:E1; cbn [bind] in E; try discriminate end.
  apply (trigger_shape _ (act_ext f)) in E1 as (hs' & Eh & Hc). cbn [sp_busy sp_log sp_kept p_hs p_log] in *. inversion E; subst.
  rewrite (R_handlers s p id hs HR Hh) in Eh. inversion Eh; subst. exists (p_log D q1), (p_kept D q1). splits; auto.
Qed.

(** A null pointer among those kept: a release build, which gives it back when there is no slot *)
Lemma null_kept_thm fuel now ops s ks1 ks2 f : (0 <= now)%Z ->
  run D W L dbg cfg beh fuel ops (es_new D nodata cfg now) = Ok s -> kept D s = ks1 ++ None :: ks2 -> dbg = false ->
  do_act D W L dbg cfg beh f (AScheduleKept D (length ks1)) s = UB.
Proof.
  intros Hn Hr Hk Hd. destruct (run_any fuel now ops s Hn Hr) as (p & _ & HR & HI & Hb). rewrite (kept_ok _ _ HR) in Hk.
  pose proof (act_simT f (AScheduleKept D (length ks1)) s p HR) as HS.
  assert (forall a, sp_act D dbg cap (c_handler_cap cfg) (c_delay cfg) idle (c_max_us cfg) beh a (AScheduleKept D (length ks1)) p = sp_schedule_kept D dbg cap (length ks1) p) as Ea by (intros []; reflexivity).
  rewrite Ea in HS. clear Ea. unfold sp_schedule_kept in HS. rewrite (taken_mid _ _ _ _ Hk), Hd in HS. cbn [bind sassert] in HS.
  cbn [sp_log sp_kept p_pend] in HS. rewrite Hd. destruct (length (p_pend D p) <? cap); change (sim D (RRL s) (do_act D W L false cfg beh f (AScheduleKept D (length ks1)) s) UB) in HS;
    destruct (do_act D W L false cfg beh f (AScheduleKept D (length ks1)) s) as [s'| | | |]; cbn [sim] in HS; try contradiction; reflexivity.
Qed.

(** attach: appended, or no room *)
Lemma attach_thm fuel now ops s id h hs : (0 <= now)%Z ->
  run D W L dbg cfg beh fuel ops (es_new D nodata cfg now) = Ok s -> handlers s id hs ->
  length hs <= c_handler_cap cfg /\
  (length hs < c_handler_cap cfg -> exists s', attach D W dbg cfg id h s = Ok s' /\ handlers s' id (hs ++ [h]) /\
     (forall id' hs', id' <> id -> handlers s id' hs' -> handlers s' id' hs')) /\
  (length hs = c_handler_cap cfg -> attach D W dbg cfg id h s = if dbg then Halt else Ok s).
Proof.
  intros Hn Hr Hh. destruct (run_any fuel now ops s Hn Hr) as (p & Ep & HR & HI & Hb). pose proof HR as (a & b & c & H).
  pose proof (R_handlers s p id hs HR Hh) as Eh.
  pose proof (Forall2_nth _ _ _ id (R_map _ _ _ _ _ _ _ _ H)) as HN. rewrite Eh in HN.
  destruct (nth_error (s_map D s) id) as [v|] eqn:Ev; [|contradiction]. destruct HN as (po & V & M).
  assert (length hs <= c_handler_cap cfg) as Hle.
  { pose proof (vr_max W _ _ _ _ V) as Hm. rewrite M, map_length in Hm. simpl in Hm. lia. }
  split; [exact Hle|]. destruct Hcfg as (A1 & A2 & A3 & A4 & A5).
  pose proof (attach_sim D W L dbg cfg A1 s p id h HR) as HS. unfold sp_attach in HS. rewrite Eh in HS. split.
  - intros Hlt. destruct (Nat.ltb_spec (length hs) (c_handler_cap cfg)); [|lia]. rewrite sassert_true in HS. cbn [bind] in HS.
    destruct (attach D W dbg cfg id h s) as [s'| | | |]; cbn [sim] in HS; try contradiction. exists s'. split; [reflexivity|].
    destruct HS as ((a' & b' & c' & H') & _).
    assert (Hget : forall i hs', nth_error (upd (p_hs D p) id (hs ++ [h])) i = Some hs' -> handlers s' i hs').
    { intros i hs' Ei. pose proof (Forall2_nth _ _ _ i (R_map _ _ _ _ _ _ _ _ H')) as HN'. cbn [p_hs] in HN'. rewrite Ei in HN'.
      destruct (nth_error (s_map D s') i) as [v'|] eqn:Ev'; [|contradiction]. destruct HN' as (po' & V' & _). exists v'. split; auto.
      eapply vr_holds; eauto. }
    split; [apply Hget; apply nth_error_upd_eq; apply nth_error_Some; congruence|].
    intros id' hs' Hne Hh'. apply Hget. rewrite nth_error_upd_neq by auto. eapply R_handlers; eauto.
  - intros Hfull. unfold attach. assert (id < length (s_map D s)) by (apply nth_error_Some; congruence).
    destruct (Nat.ltb_spec id (length (s_map D s))); [|lia]. rewrite sassert_true. cbn [bind]. rewrite Ev.
    pose proof (vr_size W _ _ _ _ V) as Hsz. rewrite map_length in Hsz. rewrite Hsz. destruct (Nat.ltb_spec (length hs) (c_handler_cap cfg)); [lia|].
    destruct dbg; [reflexivity|]. cbn [sassert bind].
    assert (po = []) as ->. { pose proof (vr_max W _ _ _ _ V) as Hm. rewrite M, map_length in Hm. simpl in Hm. destruct po; [reflexivity|simpl in Hm; lia]. }
    destruct (@push_back_full sptr None W false v (map Some hs) V) as [_ E]. rewrite E. cbn [bind].
    assert (upd (s_map D s) id v = s_map D s) as ->.
    { clear -Ev. revert id Ev. induction (s_map D s) as [|y m IH]; intros [|id] Ev; simpl in *; try discriminate; [congruence|]. f_equal. auto. }
    destruct s; reflexivity.
Qed.

(** ** Sleeping *)
Lemma sleep_thm fuel now ops s : (0 <= now)%Z -> c_delay cfg = true ->
  run D W L dbg cfg beh fuel (ops ++ [OLoop D]) (es_new D nodata cfg now) = Ok s ->
  forall l, pending D W s l -> exists lg ms, s_log D s = lg ++ [LSleep D ms] /\
    ms = sleep_for (s_now D s - ms) l /\
    match l with [] => True | x :: _ => near24 (s_now D s - ms) < fst x end%Z.
Proof.
  intros Hn Hdl Hr l Hl. destruct (run_any fuel now _ s Hn Hr) as (p & E & HR & _ & _).
  rewrite sprun_app in E. destruct (sprun fuel ops (sp_new D now (c_count cfg))) as [p0| | | |] eqn:E0; cbn [bind] in E; try discriminate.
  eapply ginv_run in E0 as [HI _]; [|apply Hidle|apply (ginv_new D cap); auto].
  cbn [sp_step] in E. eapply ginv_loop in E as (p1 & -> & _ & HF); [|apply Hidle|exact HI].
  rewrite sleep_eq in HR by exact HF. rewrite Hdl in HR.
  destruct (R_fields _ _ HR) as [-> ->]. apply (pending_ok _ _ HR) in Hl. subst l.
  cbn [p_now p_log p_pend]. do 2 eexists. split; [reflexivity|]. rewrite Z.add_simpl_r. auto.
Qed.

Lemma slept_from fuel now ops s : (0 <= now)%Z -> c_delay cfg = true ->
  run D W L dbg cfg beh fuel (ops ++ [OLoop D]) (es_new D nodata cfg now) = Ok s ->
  exists lg ms, s_log D s = lg ++ [LSleep D ms] /\ (0 <= s_now D s - ms)%Z.
Proof.
  intros Hn Hdl Hr. destruct (run_any fuel now _ s Hn Hr) as (p & E & HR & _ & _).
  rewrite sprun_app in E. destruct (sprun fuel ops (sp_new D now (c_count cfg))) as [p0| | | |] eqn:E0; cbn [bind] in E; try discriminate.
  eapply ginv_run in E0 as [HI _]; [|apply Hidle|apply (ginv_new D cap); auto].
  cbn [sp_step] in E. eapply ginv_loop in E as (p1 & -> & HI1 & HF); [|apply Hidle|exact HI].
  rewrite sleep_eq in HR by exact HF. rewrite Hdl in HR.
  destruct (R_fields _ _ HR) as [-> ->]. cbn [p_now p_log p_pend]. do 2 eexists. split; [reflexivity|].
  rewrite Z.add_simpl_r. apply (g_pos _ _ _ HI1).
Qed.
End Thms.
