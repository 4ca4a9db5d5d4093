(** Invariants of the event system over lists. *)
From Coq Require Import List Arith ZArith Bool Lia Sorting.Sorted Permutation.
From Verif Require Import Base KTimeProofs EvModel EvSpec.
Import ListNotations.
Local Open Scope nat_scope.

Section Trace.
Variable D : Type.
Variable dbg : bool.
Variables cap hcap : nat.
Variable sleeps : bool.
Variables idle max_sleep : Z.
Variable beh : list (entry D) -> list (act D).
Notation sp := (sp D).

Definition sorted (l : list (pend D)) : Prop := StronglySorted (fun x y => (fst x <= fst y)%Z) l.

Lemma due_at_app k a b : due_at D k (a ++ b) = due_at D k a ++ due_at D k b.
Proof. apply filter_app. Qed.
Lemma scheds_app a b : scheds D (a ++ b) = scheds D a ++ scheds D b.
Proof. apply flat_map_app. Qed.
Lemma fires_app a b : fires D (a ++ b) = fires D a ++ fires D b.
Proof. apply flat_map_app. Qed.

Lemma due_at_none k l : Forall (fun x : pend D => k < fst x)%Z l -> due_at D k l = [].
Proof. induction 1 as [|x l Hx _ IH]; simpl; auto. destruct (Z.eqb_spec (fst x) k); [lia|auto]. Qed.

Lemma insort_in x y l : In y (insort D x l) <-> y = x \/ In y l.
Proof. induction l as [|z l IH]; simpl; [intuition|]. destruct (fst x <? fst z)%Z; simpl; [intuition|]. rewrite IH. intuition. Qed.

Lemma insort_sorted x l : sorted l -> sorted (insort D x l).
Proof.
  induction 1 as [|y l Hs IH Hf]; simpl; [repeat constructor|]. destruct (Z.ltb_spec (fst x) (fst y)).
  - constructor; [constructor; auto|]. constructor; [lia|]. eapply Forall_impl; [|exact Hf]. simpl. intros. lia.
  - constructor; auto. apply Forall_forall. intros z Hz. apply insort_in in Hz as [->|Hz]; [lia|]. rewrite Forall_forall in Hf. auto.
Qed.

Lemma insort_due k x l : sorted l -> due_at D k (insort D x l) = due_at D k l ++ (if (fst x =? k)%Z then [x] else []).
Proof.
  induction 1 as [|y l Hs IH Hf]; simpl; [destruct (fst x =? k)%Z; reflexivity|]. destruct (Z.ltb_spec (fst x) (fst y)) as [H|H].
  - simpl. destruct (Z.eqb_spec (fst x) k) as [E|E]; [|now rewrite app_nil_r].
    rewrite due_at_none by (eapply Forall_impl; [|exact Hf]; simpl; intros; lia). destruct (Z.eqb_spec (fst y) k); [lia|]. reflexivity.
  - simpl. rewrite IH. destruct (fst y =? k)%Z; reflexivity.
Qed.

Lemma insort_length x l : length (insort D x l) = S (length l).
Proof. induction l as [|y l IH]; simpl; auto. destruct (fst x <? fst y)%Z; simpl; auto. Qed.

(** Adding to the log *)
Lemma snoc_split {A} (l l1 l2 : list A) x y : l ++ [x] = l1 ++ y :: l2 -> (l2 = [] /\ x = y /\ l1 = l) \/ exists l3, l2 = l3 ++ [x] /\ l = l1 ++ y :: l3.
Proof.
  destruct l2 as [|z l2 _] using rev_ind; intros H.
  - left. apply app_inj_tail in H as [-> ->]. auto.
  - right. exists l2. rewrite app_comm_cons, app_assoc in H. apply app_inj_tail in H as [-> ->]. auto.
Qed.

Lemma in_order_snoc l x : in_order D l -> (forall due id d now, x = LFire D due id d now -> forall k, (k < due)%Z -> due_at D k (scheds D l) = due_at D k (fires D l)) ->
  in_order D (l ++ [x]).
Proof.
  intros H Hx l1 due id d now l2 E k Hk. apply snoc_split in E as [(-> & -> & ->)|(l3 & -> & ->)]; [eapply Hx; eauto|eapply H; eauto].
Qed.

Lemma not_early_snoc l x : not_early D l -> (forall due id d now, x = LFire D due id d now -> (due <= now)%Z) -> not_early D (l ++ [x]).
Proof. intros H Hx due id d now Hi. apply in_app_or in Hi as [Hi|[Hi|[]]]; eauto. Qed.

(** ** Invariants: what each single step keeps holds throughout *)
Section Keep.
Variable P : sp -> Prop.
Variable ok : act D -> Prop.
Hypothesis Hbeh : forall l, Forall ok (beh l).
Hypothesis ok_loop : ok (ALoop D).
Hypothesis P_cap : forall p, P p -> length (p_pend D p) + p_busy D p + held D (p_kept D p) <= cap.
Variable okd : Z -> Prop.
Hypothesis ok_sched : forall id t d, ok (ASchedule D id t d) -> okd t.
Hypothesis ok_keep : forall id t d, ok (AKeep D id t d) -> okd t.
Hypothesis P_kept : forall p id t d, P p -> In (Some (id, t, d)) (p_kept D p) -> okd t.
Hypothesis P_push : forall id t d p p', okd t -> P p -> length (p_pend D p) + p_busy D p + held D (p_kept D p) < cap -> sp_push D dbg id t d p = Ok p' -> P p'.
Hypothesis P_keep : forall x p, P p -> match x with Some (_, t, _) => okd t | None => True end ->
  length (p_pend D p) + p_busy D p + held D (p_kept D p ++ [x]) <= cap -> P (sp_keep D x p).
Hypothesis P_take : forall k x p, P p -> nth_error (p_kept D p) k = Some x -> P (sp_taken D k x p).
Hypothesis P_hs : forall hs p, P p -> P (mkSp D (p_now D p) hs (p_pend D p) (p_busy D p) (p_kept D p) (p_log D p)).
Hypothesis P_wait : forall dt p, (0 <= dt)%Z -> P p -> P (mkSp D (p_now D p + dt) (p_hs D p) (p_pend D p) (p_busy D p) (p_kept D p) (p_log D p)).
Hypothesis P_log : forall x p, P p -> match x with LCall _ _ _ _ _ => True | LSleep _ _ => True | _ => False end -> P (sp_log D x p).
Hypothesis P_busy : forall n p, P p -> length (p_pend D p) + n + held D (p_kept D p) <= cap -> P (sp_busy D n p).
Hypothesis P_fire : forall p due id d rest, P p -> p_pend D p = (due, (id, d)) :: rest -> (due <= near24 (p_now D p))%Z ->
  P (sp_log D (LFire D due id d (p_now D p)) (mkSp D (p_now D p) (p_hs D p) rest (S (p_busy D p)) (p_kept D p) (p_log D p))).
Hypothesis Hidle : (0 <= idle)%Z.

Lemma push_busy id t d p p' : sp_push D dbg id t d p = Ok p' -> p_busy D p' = p_busy D p.
Proof. unfold sp_push. destruct (sassert dbg (0 <? t)%Z); cbn [bind]; try discriminate. intros H; inversion H; reflexivity. Qed.

Lemma keep_sched id t d p p' : ok (ASchedule D id t d) -> P p -> sp_schedule D dbg cap id t d p = Ok p' -> P p' /\ p_busy D p' = p_busy D p.
Proof.
  unfold sp_schedule, slot. intros Ho HI H. destruct (Nat.ltb_spec (length (p_pend D p) + p_busy D p + held D (p_kept D p)) cap) as [Hc|]; cbn [bind] in H; [|destruct dbg; discriminate].
  split; [eapply P_push; eauto|eapply push_busy; eauto].
Qed.

Lemma held_app a b : held D (a ++ b) = held D a + held D b.
Proof. unfold held. rewrite flat_map_app, app_length. reflexivity. Qed.
Lemma held_cut k x l : nth_error l k = Some x -> held D (firstn k l ++ skipn (S k) l) + held D [x] = held D l.
Proof.
  intros H. apply nth_error_split in H as (l1 & l2 & -> & <-). rewrite firstn_app, Nat.sub_diag, firstn_all. cbn [firstn]. rewrite app_nil_r.
  assert (skipn (S (length l1)) (l1 ++ x :: l2) = l2) as -> by (induction l1 as [|a l1 IH]; [reflexivity|exact IH]).
  change (x :: l2) with ([x] ++ l2). rewrite !held_app. lia.
Qed.

Lemma keep_keep_event id t d p p' : ok (AKeep D id t d) -> P p -> sp_keep_event D dbg cap id t d p = Ok p' -> P p' /\ p_busy D p' = p_busy D p.
Proof.
  unfold sp_keep_event. intros Ho HI H. pose proof (P_cap p HI).
  destruct (Nat.ltb_spec (length (p_pend D p) + p_busy D p + held D (p_kept D p)) cap) as [Hc|].
  - inversion H; subst. split; [|reflexivity]. apply P_keep; [auto|eauto|]. rewrite held_app. change (held D [Some (id, t, d)]) with 1. lia.
  - destruct dbg; [discriminate|]. inversion H; subst. split; [|reflexivity]. apply P_keep; [auto|exact I|]. rewrite held_app. change (held D [None]) with 0. lia.
Qed.
Lemma keep_schedule_kept k p p' : P p -> sp_schedule_kept D dbg cap k p = Ok p' -> P p' /\ p_busy D p' = p_busy D p.
Proof.
  unfold sp_schedule_kept, sp_take. intros HI H. destruct (nth_error (p_kept D p) k) as [x|] eqn:E; cbn [bind] in H; [|discriminate].
  destruct x as [[[id t] d]|]; [|destruct (sassert dbg (length (p_pend D (sp_taken D k None p)) <? cap)); discriminate].
  split; [|apply push_busy in H; exact H]. eapply P_push; [| |  |exact H].
  - eapply P_kept; [exact HI|]. eapply nth_error_In; eauto.
  - apply P_take; auto.
  - cbn [sp_taken sp_log sp_kept p_pend p_busy p_kept]. pose proof (P_cap p HI). pose proof (held_cut k _ _ E) as Hc. change (held D [Some (id, t, d)]) with 1 in Hc. lia.
Qed.
Lemma keep_drop_kept k p p' : P p -> sp_drop_kept D k p = Ok p' -> P p' /\ p_busy D p' = p_busy D p.
Proof.
  unfold sp_drop_kept, sp_take. intros HI H. destruct (nth_error (p_kept D p) k) as [x|] eqn:E; cbn [bind] in H; [|discriminate].
  inversion H; subst. split; [apply P_take; auto|reflexivity].
Qed.

Lemma keep_attach id h p p' : P p -> sp_attach D dbg hcap id h p = Ok p' -> P p' /\ p_busy D p' = p_busy D p.
Proof.
  intros HI H. unfold sp_attach in H. destruct (nth_error (p_hs D p) id) as [hs|]; [|destruct dbg; discriminate].
  destruct (sassert dbg (length hs <? hcap)); cbn [bind] in H; try discriminate. inversion H; subst; clear H.
  destruct (length hs <? hcap); auto.
Qed.

Section Rec.
Variable rec : act D -> sp -> outcome sp.
Hypothesis Hrec : forall a p p', ok a -> P p -> rec a p = Ok p' -> P p' /\ p_busy D p' = p_busy D p.
Lemma keep_acts l : Forall ok l -> forall p p', P p -> sp_acts D rec l p = Ok p' -> P p' /\ p_busy D p' = p_busy D p.
Proof.
  induction 1 as [|a l Ha _ IH]; intros p p' HI H; simpl in H; [inversion H; subst; auto|].
  destruct (rec a p) as [p1| | | |] eqn:E; cbn [bind] in H; try discriminate. destruct (Hrec a p p1 Ha HI E) as [H1 E1].
  destruct (IH p1 p' H1 H) as [H2 E2]. split; auto. congruence.
Qed.
Lemma keep_calls id d hs : forall p p', P p -> sp_calls D beh rec id d hs p = Ok p' -> P p' /\ p_busy D p' = p_busy D p.
Proof.
  induction hs as [|h hs IH]; intros p p' HI H; cbn [sp_calls] in H; [inversion H; subst; auto|].
  match type of H with bind ?x _ = _ => destruct x as [p1| | | |] eqn:E; cbn [bind] in H; try discriminate end.
  apply keep_acts in E as [H1 E1]; [|apply Hbeh|apply P_log; auto; exact I].
  destruct (IH p1 p' H1 H) as [H2 E2]. split; auto. rewrite E2, E1. reflexivity.
Qed.
Lemma keep_trigger id d p p' : P p -> sp_trigger D dbg beh rec id d p = Ok p' -> P p' /\ p_busy D p' = p_busy D p.
Proof.
  unfold sp_trigger. intros HI H. destruct (nth_error (p_hs D p) id) as [hs|]; [|destruct dbg; discriminate].
  destruct (sassert dbg (negb (length hs =? 0))); cbn [bind] in H; try discriminate. eapply keep_calls; eauto.
Qed.
Lemma keep_trigger_kept k p p' : P p -> sp_trigger_kept D dbg beh rec k p = Ok p' -> P p' /\ p_busy D p' = p_busy D p.
Proof.
  unfold sp_trigger_kept, sp_take. intros HI H. destruct (nth_error (p_kept D p) k) as [x|] eqn:E; cbn [bind] in H; [|discriminate].
  destruct x as [[[id t] d]|]; [|destruct dbg; discriminate].
  match type of H with bind ?x _ = _ => destruct x as [p1| | | |] eqn:E1; cbn [bind] in H; try discriminate end.
  pose proof (P_cap p HI). pose proof (held_cut k _ _ E) as Hc. change (held D [Some (id, t, d)]) with 1 in Hc.
  apply keep_trigger in E1 as [H1 B1]; [|apply P_busy; [apply P_take; auto|cbn [sp_taken sp_log sp_kept p_pend p_busy p_kept]; lia]].
  cbn [sp_busy p_busy] in B1. inversion H; subst. split; [|reflexivity]. pose proof (P_cap p1 H1).
  apply P_keep.
  - apply P_busy; auto. lia.
  - eapply P_kept; [exact HI|]. eapply nth_error_In; eauto.
  - cbn [sp_busy p_pend p_busy p_kept]. rewrite held_app. change (held D [Some (id, t, d)]) with 1. lia.
Qed.
End Rec.

Lemma keep_sleep p : P p -> P (sp_sleep D sleeps idle max_sleep p).
Proof.
  intros HI. unfold sp_sleep. destruct sleeps; auto. apply P_wait; [|apply P_log; auto; exact I].
  destruct (p_pend D p); auto. apply Z.mod_pos_bound. reflexivity.
Qed.

Lemma keep_loop_with rec : (forall a p p', ok a -> P p -> rec a p = Ok p' -> P p' /\ p_busy D p' = p_busy D p) ->
  forall p p', P p -> sp_loop_with D dbg sleeps idle max_sleep beh rec p = Ok p' -> P p' /\ p_busy D p' = p_busy D p.
Proof.
  intros Hrec p p' HI H. unfold sp_loop_with in H.
  assert (HS : Ok (sp_sleep D sleeps idle max_sleep p) = Ok p' -> P p' /\ p_busy D p' = p_busy D p).
  { intros E. inversion E; subst. split; [apply keep_sleep; auto|unfold sp_sleep; destruct sleeps; reflexivity]. }
  destruct (p_pend D p) as [|[due [id d]] rest] eqn:Ep; [auto|]. destruct (Z.leb_spec due (near24 (p_now D p))) as [Hd|Hd]; [|auto].
  match type of H with bind ?x _ = _ => destruct x as [p1| | | |] eqn:E; cbn [bind] in H; try discriminate end.
  apply (keep_trigger _ Hrec) in E as [H1 E1]; [|apply P_fire; auto].
  apply Hrec in H; [|exact ok_loop|apply P_busy; auto; cbn [sp_log p_busy] in E1; apply P_cap in H1; lia].
  destruct H as (A & B). split; auto.
Qed.

Lemma keep_act : forall fuel a p p', ok a -> P p -> sp_act D dbg cap hcap sleeps idle max_sleep beh fuel a p = Ok p' -> P p' /\ p_busy D p' = p_busy D p.
Proof.
  induction fuel as [|fuel IH]; intros a p p' Ha HI; destruct a as [id t d|id d|id h|dt| |id t d|k|k|k]; cbn [sp_act]; intros H; try discriminate;
    try (eapply keep_sched; eassumption); try (eapply keep_attach; eassumption); try (eapply keep_keep_event; eassumption);
    try (eapply keep_schedule_kept; eassumption); try (eapply keep_drop_kept; eassumption); try (eapply keep_trigger_kept; eassumption);
    try (inversion H; subst; split; [apply P_wait; auto; lia|reflexivity]).
  - eapply keep_loop_with in H; eauto. discriminate.
  - unfold slot in H. destruct (Nat.ltb_spec (length (p_pend D p) + p_busy D p + held D (p_kept D p)) cap) as [Hc|]; cbn [bind] in H; [|destruct dbg; discriminate].
    match type of H with bind ?x _ = _ => destruct x as [p1| | | |] eqn:E; cbn [bind] in H; try discriminate end.
    apply (keep_trigger _ IH) in E as [H1 E1]; [|apply P_busy; auto; lia]. inversion H; subst. split; [|reflexivity].
    apply P_busy; auto. cbn [sp_busy p_busy] in E1. apply P_cap in H1. lia.
  - eapply keep_loop_with in H; eauto.
Qed.

Lemma keep_loop : forall fuel p p', P p -> sp_loop D dbg cap hcap sleeps idle max_sleep beh fuel p = Ok p' ->
  exists p1, p' = sp_sleep D sleeps idle max_sleep p1 /\ P p1 /\ match p_pend D p1 with [] => True | x :: _ => (near24 (p_now D p1) < fst x)%Z end.
Proof.
  induction fuel as [|fuel IH]; intros p p' HI H; unfold sp_loop in H; cbn [sp_act] in H; unfold sp_loop_with in H.
  - destruct (p_pend D p) as [|[due [id d]] rest] eqn:Ep; [inversion H; exists p; rewrite Ep; auto|].
    destruct (Z.leb_spec due (near24 (p_now D p))); [|inversion H; exists p; rewrite Ep; auto].
    match type of H with bind ?x _ = _ => destruct x; discriminate end.
  - destruct (p_pend D p) as [|[due [id d]] rest] eqn:Ep; [inversion H; exists p; rewrite Ep; auto|].
    destruct (Z.leb_spec due (near24 (p_now D p))) as [Hd|Hd]; [|inversion H; exists p; rewrite Ep; auto].
    match type of H with bind ?x _ = _ => destruct x as [p1| | | |] eqn:E; cbn [bind] in H; try discriminate end.
    apply (keep_trigger _ (keep_act fuel)) in E as [H1 E1]; [|apply P_fire; auto].
    apply IH in H; auto. apply P_busy; auto. cbn [sp_log p_busy] in E1. apply P_cap in H1. lia.
Qed.

Definition ok_op (o : op D) : Prop := match o with OAct _ a => ok a | OLoop _ => True end.
Lemma keep_step fuel o p p' : ok_op o -> P p -> sp_step D dbg cap hcap sleeps idle max_sleep beh fuel o p = Ok p' -> P p' /\ p_busy D p' = p_busy D p.
Proof. intros Ho HI H. destruct o; (eapply keep_act; [| |exact H]); auto. Qed.

Lemma keep_run fuel : forall ops, Forall ok_op ops -> forall p p', P p -> sp_run D dbg cap hcap sleeps idle max_sleep beh fuel ops p = Ok p' -> P p' /\ p_busy D p' = p_busy D p.
Proof.
  induction 1 as [|o ops Ho _ IH]; intros p p' HI H; cbn [sp_run] in H; [inversion H; subst; auto|].
  match type of H with bind ?x _ = _ => destruct x as [p1| | | |] eqn:E; cbn [bind] in H; try discriminate end.
  apply keep_step in E as [H1 E1]; auto. apply IH in H as [H2 E2]; auto. split; auto; congruence.
Qed.
End Keep.

(** ** Whatever the clock and the delays *)
Record ginv (p : sp) : Prop := {
  g_lost : none_lost D (p_log D p) (p_pend D p);
  g_hardly : hardly_early D (p_log D p);
  g_early : (p_now D p <= 2 ^ 24)%Z -> not_early D (p_log D p);
  g_cap : length (p_pend D p) + p_busy D p + held D (p_kept D p) <= cap;
  g_keeps : keeps D (p_log D p) (p_kept D p);
  g_pos : (0 <= p_now D p)%Z
}.

Lemma enqueue_perm c x l : Permutation (enqueue D c x l) (x :: l).
Proof.
  induction l as [|y l IH]; simpl; auto. destruct (fst x - c <? near24 (fst y - c))%Z; auto.
  rewrite IH. constructor.
Qed.

Lemma hardly_snoc l x : hardly_early D l -> (forall due id d now, x = LFire D due id d now -> (2 ^ 24 * (due - now) <= now)%Z) -> hardly_early D (l ++ [x]).
Proof. intros H Hx due id d now Hi. apply in_app_or in Hi as [Hi|[Hi|[]]]; eauto. Qed.

Lemma ginv_push id t d p p' : ginv p -> length (p_pend D p) + p_busy D p + held D (p_kept D p) < cap -> sp_push D dbg id t d p = Ok p' -> ginv p'.
Proof.
  intros [] Hc H. unfold sp_push in H.
  destruct (sassert dbg (0 <? t)%Z); cbn [bind] in H; try discriminate. inversion H; subst; clear H.
  constructor; cbn [sp_log p_log p_pend p_busy p_kept p_now].
  - unfold none_lost in *. rewrite scheds_app, fires_app. cbn [scheds fires flat_map app]. rewrite app_nil_r, enqueue_perm, g_lost0.
    rewrite <- app_assoc. apply Permutation_app_head. symmetry. apply Permutation_cons_append.
  - apply hardly_snoc; auto. discriminate.
  - intros Hn. apply not_early_snoc; auto. discriminate.
  - rewrite (Permutation_length (enqueue_perm _ _ _)). simpl. lia.
  - constructor; auto; discriminate.
  - exact g_pos0.
Qed.
Lemma ginv_keep x p : ginv p -> length (p_pend D p) + p_busy D p + held D (p_kept D p ++ [x]) <= cap -> ginv (sp_keep D x p).
Proof.
  intros [] Hc. constructor; cbn [sp_keep sp_kept sp_log p_log p_pend p_busy p_kept p_now]; auto.
  - unfold none_lost in *. rewrite scheds_app, fires_app. simpl. rewrite !app_nil_r. auto.
  - apply hardly_snoc; auto. discriminate.
  - intros Hn. apply not_early_snoc; auto. discriminate.
  - constructor; auto.
Qed.
Lemma ginv_take k x p : ginv p -> nth_error (p_kept D p) k = Some x -> ginv (sp_taken D k x p).
Proof.
  intros [] Hx. constructor; cbn [sp_taken sp_kept sp_log p_log p_pend p_busy p_kept p_now]; auto.
  - unfold none_lost in *. rewrite scheds_app, fires_app. simpl. rewrite !app_nil_r. auto.
  - apply hardly_snoc; auto. discriminate.
  - intros Hn. apply not_early_snoc; auto. discriminate.
  - pose proof (held_cut k _ _ Hx). lia.
  - apply nth_error_split in Hx as (l1 & l2 & E & <-). rewrite E in *. rewrite firstn_app, Nat.sub_diag, firstn_all. cbn [firstn]. rewrite app_nil_r.
    assert (skipn (S (length l1)) (l1 ++ x :: l2) = l2) as -> by (clear; induction l1 as [|a l1 IH]; [reflexivity|exact IH]).
    constructor. exact g_keeps0.
Qed.
Lemma ginv_hs hs p : ginv p -> ginv (mkSp D (p_now D p) hs (p_pend D p) (p_busy D p) (p_kept D p) (p_log D p)).
Proof. intros []. constructor; auto. Qed.
Lemma ginv_wait dt p : (0 <= dt)%Z -> ginv p -> ginv (mkSp D (p_now D p + dt) (p_hs D p) (p_pend D p) (p_busy D p) (p_kept D p) (p_log D p)).
Proof. intros Hd []. constructor; cbn [p_now p_log p_pend p_busy p_kept]; auto; intros; [apply g_early0|]; lia. Qed.
Lemma ginv_log x p : ginv p -> match x with LCall _ _ _ _ _ => True | LSleep _ _ => True | _ => False end -> ginv (sp_log D x p).
Proof.
  intros [] Hx. constructor; cbn [sp_log p_log p_pend p_busy p_kept p_now]; auto.
  - unfold none_lost in *. rewrite scheds_app, fires_app. destruct x; simpl in Hx; try contradiction; simpl; rewrite !app_nil_r; auto.
  - apply hardly_snoc; auto. intros; subst; contradiction.
  - intros. apply not_early_snoc; auto. intros; subst; contradiction.
  - constructor; auto; intros; intros ->; contradiction.
Qed.
Lemma ginv_busy n p : ginv p -> length (p_pend D p) + n + held D (p_kept D p) <= cap -> ginv (sp_busy D n p).
Proof. intros [] H. constructor; auto. Qed.
Lemma ginv_fire p due id d rest : ginv p -> p_pend D p = (due, (id, d)) :: rest -> (due <= near24 (p_now D p))%Z ->
  ginv (sp_log D (LFire D due id d (p_now D p)) (mkSp D (p_now D p) (p_hs D p) rest (S (p_busy D p)) (p_kept D p) (p_log D p))).
Proof.
  intros [] E Hd. unfold none_lost in *. rewrite E in *.
  constructor; cbn [sp_log p_log p_pend p_busy p_kept p_now]; auto.
  - unfold none_lost. rewrite scheds_app, fires_app. cbn [scheds fires flat_map app]. rewrite app_nil_r, g_lost0, <- app_assoc. reflexivity.
  - apply hardly_snoc; auto. intros due' id' d' now' Ex. inversion Ex; subst. pose proof (near24_error (p_now D p)). lia.
  - intros Hn. apply not_early_snoc; auto. intros due' id' d' now' Ex. inversion Ex; subst. rewrite near24_id in Hd; lia.
  - simpl in g_cap0. lia.
  - constructor; auto; discriminate.
Qed.
Lemma ginv_new now count : (0 <= now)%Z -> ginv (sp_new D now count).
Proof.
  intros Hn. constructor; cbn [sp_new p_log p_pend p_busy p_kept p_now]; auto.
  - apply Permutation_refl.
  - intros ? ? ? ? [].
  - intros _ ? ? ? ? [].
  - unfold held. simpl. lia.
  - constructor.
Qed.

(** ** Delays up to [T] and a clock up to [N] between which comparisons are exact *)
Section Exact.
Variables T N : Z.
Hypothesis HTN : (2 ^ 24 * T + N < 2 ^ 48)%Z.
Record ord (p : sp) : Prop := {
  i_once : once D (p_log D p) (p_pend D p);
  i_order : in_order D (p_log D p);
  i_sorted : sorted (p_pend D p)
}.
Record inv (p : sp) : Prop := {
  i_cap : length (p_pend D p) + p_busy D p + held D (p_kept D p) <= cap;
  i_pos : (0 <= p_now D p)%Z;
  i_kept : forall id t d, In (Some (id, t, d)) (p_kept D p) -> (0 <= t <= T)%Z;
  i_ord : (p_now D p <= N)%Z -> ord p
}.

Lemma enqueue_insort now t x l : (0 <= now <= N)%Z -> (0 <= t <= T)%Z -> fst x = (now + t)%Z -> enqueue D (near24 now) x l = insort D x l.
Proof.
  intros Hn Ht Hx. induction l as [|y l IH]; simpl; auto. rewrite IH.
  assert ((fst x - near24 now <? near24 (fst y - near24 now)) = (fst x <? fst y))%Z as ->; [|reflexivity].
  pose proof (near24_error now) as He. assert (- 2 ^ 24 < fst x - near24 now < 2 ^ 24)%Z as Hb by lia.
  pose proof (near24_id (fst x - near24 now) ltac:(lia)) as E1.
  destruct (Z.ltb_spec (fst x) (fst y)) as [H|H].
  - apply Z.ltb_lt. destruct (Z.le_gt_cases (fst y - near24 now) (2 ^ 24)) as [Hy|Hy].
    + rewrite (near24_id (fst y - near24 now)) by lia. lia.
    + pose proof (near24_mono (2 ^ 24) (fst y - near24 now) ltac:(lia)). rewrite (near24_id (2 ^ 24)) in * by lia. lia.
  - apply Z.ltb_ge. rewrite <- E1. apply near24_mono. lia.
Qed.

Lemma inv_push id t d p p' : (0 <= t <= T)%Z -> inv p -> length (p_pend D p) + p_busy D p + held D (p_kept D p) < cap -> sp_push D dbg id t d p = Ok p' -> inv p'.
Proof.
  intros Ht [] Hc H. unfold sp_push in H.
  destruct (sassert dbg (0 <? t)%Z); cbn [bind] in H; try discriminate. inversion H; subst; clear H.
  constructor; cbn [sp_log p_log p_pend p_busy p_kept p_now]; auto.
  { rewrite (Permutation_length (enqueue_perm _ _ _)). simpl. lia. }
  intros HN. destruct (i_ord0 HN).
  rewrite (near24_id t) by lia. constructor; cbn [sp_log p_log p_pend p_busy p_kept p_now].
  - intros k. rewrite (enqueue_insort (p_now D p) t) by (auto; cbn [fst]; lia).
    rewrite scheds_app, fires_app. simpl. rewrite app_nil_r, due_at_app, i_once0, insort_due by auto. simpl.
    destruct (p_now D p + t =? k)%Z; rewrite <- app_assoc; reflexivity.
  - apply in_order_snoc; auto. intros; discriminate.
  - rewrite (enqueue_insort (p_now D p) t) by (auto; cbn [fst]; lia). apply insort_sorted; auto.
Qed.
Lemma ord_quiet x p p' : ord p -> p_log D p' = p_log D p ++ [x] -> p_pend D p' = p_pend D p ->
  match x with LSched _ _ _ _ | LFire _ _ _ _ _ => False | _ => True end -> ord p'.
Proof.
  intros [] El Ep Hx. constructor; rewrite ?El, ?Ep; auto.
  - intros k. rewrite scheds_app, fires_app. destruct x; simpl in Hx; try contradiction; simpl; rewrite !app_nil_r; apply i_once0.
  - apply in_order_snoc; auto. intros; subst; contradiction.
Qed.
Lemma inv_keep x p : inv p -> match x with Some (_, t, _) => (0 <= t <= T)%Z | None => True end ->
  length (p_pend D p) + p_busy D p + held D (p_kept D p ++ [x]) <= cap -> inv (sp_keep D x p).
Proof.
  intros [] Hx Hc. constructor; auto.
  - intros id t d Hi. cbn [sp_keep sp_log sp_kept p_kept] in Hi. apply in_app_iff in Hi as [Hi|[Hi|[]]]; [eauto|]. subst x. exact Hx.
  - intros HN. eapply ord_quiet; [exact (i_ord0 HN)|reflexivity|reflexivity|exact I].
Qed.
Lemma inv_take k x p : inv p -> nth_error (p_kept D p) k = Some x -> inv (sp_taken D k x p).
Proof.
  intros [] Hx. constructor; auto.
  - cbn [sp_taken sp_log sp_kept p_pend p_busy p_kept]. pose proof (held_cut k _ _ Hx). lia.
  - intros id t d Hi. cbn [sp_taken sp_log sp_kept p_kept] in Hi. apply (i_kept0 id t d). apply in_app_iff in Hi as [Hi|Hi].
    + rewrite <- (firstn_skipn k (p_kept D p)). apply in_app_iff. auto.
    + rewrite <- (firstn_skipn (S k) (p_kept D p)). apply in_app_iff. auto.
  - intros HN. eapply ord_quiet; [exact (i_ord0 HN)|reflexivity|reflexivity|exact I].
Qed.
Lemma inv_hs hs p : inv p -> inv (mkSp D (p_now D p) hs (p_pend D p) (p_busy D p) (p_kept D p) (p_log D p)).
Proof. intros []. constructor; auto. intros H. destruct (i_ord0 H). constructor; auto. Qed.
Lemma inv_wait dt p : (0 <= dt)%Z -> inv p -> inv (mkSp D (p_now D p + dt) (p_hs D p) (p_pend D p) (p_busy D p) (p_kept D p) (p_log D p)).
Proof.
  intros Hd []. constructor; cbn [p_now p_log p_pend p_busy p_kept]; auto; [lia|]. intros H. destruct (i_ord0 ltac:(lia)). constructor; auto.
Qed.
Lemma inv_log x p : inv p -> match x with LCall _ _ _ _ _ => True | LSleep _ _ => True | _ => False end -> inv (sp_log D x p).
Proof.
  intros [] Hx. constructor; cbn [sp_log p_log p_pend p_busy p_kept p_now]; auto. intros H. destruct (i_ord0 H).
  constructor; cbn [sp_log p_log p_pend p_busy p_kept p_now]; auto.
  - intros k. rewrite scheds_app, fires_app. destruct x; simpl in Hx; try contradiction; simpl; rewrite !app_nil_r; apply i_once0.
  - apply in_order_snoc; auto. intros; subst; contradiction.
Qed.
Lemma inv_busy n p : inv p -> length (p_pend D p) + n + held D (p_kept D p) <= cap -> inv (sp_busy D n p).
Proof. intros [] H. constructor; auto. intros HN. destruct (i_ord0 HN). constructor; auto. Qed.
(** Taking out the front *)
Lemma inv_fire p due id d rest : inv p -> p_pend D p = (due, (id, d)) :: rest -> (due <= near24 (p_now D p))%Z ->
  inv (sp_log D (LFire D due id d (p_now D p)) (mkSp D (p_now D p) (p_hs D p) rest (S (p_busy D p)) (p_kept D p) (p_log D p))).
Proof.
  intros [] E Hd. constructor; cbn [sp_log p_log p_pend p_busy p_kept p_now]; auto.
  { rewrite E in i_cap0. simpl in i_cap0. lia. }
  intros HN. destruct (i_ord0 HN). rewrite E in *. inversion i_sorted0 as [|? ? Hs Hf]; subst.
  constructor; cbn [sp_log p_log p_pend p_busy p_kept p_now]; auto.
  - intros k. rewrite scheds_app, fires_app. simpl. rewrite app_nil_r, i_once0, due_at_app. simpl. destruct (due =? k)%Z; [now rewrite <- app_assoc|now rewrite app_nil_r].
  - apply in_order_snoc; auto. intros due' id' d' now' Ex k Hk. inversion Ex; subst. rewrite i_once0. simpl.
    destruct (Z.eqb_spec due' k); [lia|]. rewrite (due_at_none k rest); [apply app_nil_r|]. eapply Forall_impl; [|exact Hf]. simpl. intros; lia.
Qed.
Lemma inv_new now count : (0 <= now)%Z -> inv (sp_new D now count).
Proof.
  intros Hn. constructor; cbn [sp_new p_log p_pend p_busy p_kept p_now]; auto; [unfold held; simpl; lia|intros ? ? ? []|]. intros _. constructor.
  - intros k. reflexivity.
  - intros [|? ?] ? ? ? ? ? E; discriminate.
  - constructor.
Qed.
End Exact.

Section Runs.
Hypothesis Hidle : (0 <= idle)%Z.
Lemma ginv_act fuel a p p' : ginv p -> sp_act D dbg cap hcap sleeps idle max_sleep beh fuel a p = Ok p' -> ginv p' /\ p_busy D p' = p_busy D p.
Proof.
  intros H E. eapply (keep_act ginv (fun _ => True)) with (okd := fun _ => True);
    eauto using ginv_push, ginv_keep, ginv_take, ginv_hs, ginv_wait, ginv_log, ginv_busy, ginv_fire, g_cap.
  intros l. apply Forall_forall. auto.
Qed.
Lemma ginv_run fuel ops p p' : ginv p -> sp_run D dbg cap hcap sleeps idle max_sleep beh fuel ops p = Ok p' -> ginv p' /\ p_busy D p' = p_busy D p.
Proof.
  intros H E. assert (Ho : Forall (ok_op (fun _ => True)) ops) by (clear; induction ops as [|[|] ops IH]; constructor; simpl; auto).
  eapply (keep_run ginv (fun _ => True)) with (okd := fun _ => True);
    eauto using ginv_push, ginv_keep, ginv_take, ginv_hs, ginv_wait, ginv_log, ginv_busy, ginv_fire, g_cap.
  intros l. apply Forall_forall. auto.
Qed.
Lemma ginv_loop fuel p p' : ginv p -> sp_loop D dbg cap hcap sleeps idle max_sleep beh fuel p = Ok p' ->
  exists p1, p' = sp_sleep D sleeps idle max_sleep p1 /\ ginv p1 /\ match p_pend D p1 with [] => True | x :: _ => (near24 (p_now D p1) < fst x)%Z end.
Proof.
  intros H E. eapply (keep_loop ginv (fun _ => True)) with (okd := fun _ => True);
    eauto using ginv_push, ginv_keep, ginv_take, ginv_hs, ginv_wait, ginv_log, ginv_busy, ginv_fire, g_cap.
  intros l. apply Forall_forall. auto.
Qed.

Variables T N : Z.
Hypothesis HTN : (2 ^ 24 * T + N < 2 ^ 48)%Z.
Hypothesis Hbeh : forall l, Forall (tame D T) (beh l).
Lemma inv_run fuel ops p p' : Forall (tame_op D T) ops -> inv T N p -> sp_run D dbg cap hcap sleeps idle max_sleep beh fuel ops p = Ok p' ->
  inv T N p' /\ p_busy D p' = p_busy D p.
Proof.
  intros Ho H E. eapply (keep_run (inv T N) (tame D T)) with (okd := fun t => (0 <= t <= T)%Z);
    eauto using inv_push, inv_keep, inv_take, inv_hs, inv_wait, inv_log, inv_busy, inv_fire, i_cap, i_kept; try exact I.
Qed.
Lemma inv_loop fuel p p' : inv T N p -> sp_loop D dbg cap hcap sleeps idle max_sleep beh fuel p = Ok p' ->
  exists p1, p' = sp_sleep D sleeps idle max_sleep p1 /\ inv T N p1 /\ match p_pend D p1 with [] => True | x :: _ => (near24 (p_now D p1) < fst x)%Z end.
Proof.
  intros H E. eapply (keep_loop (inv T N) (tame D T)) with (okd := fun t => (0 <= t <= T)%Z);
    eauto using inv_push, inv_keep, inv_take, inv_hs, inv_wait, inv_log, inv_busy, inv_fire, i_cap, i_kept; try exact I.
Qed.
End Runs.

(** ** Handlers which only take notice *)
Lemma quiet_calls rec id d : (forall l, beh l = []) -> forall hs p,
  sp_calls D beh rec id d hs p = Ok (mkSp D (p_now D p) (p_hs D p) (p_pend D p) (p_busy D p) (p_kept D p) (p_log D p ++ map (fun h => LCall D h id d (p_now D p)) hs)).
Proof.
  intros Hb. induction hs as [|h hs IH]; intros p; cbn [sp_calls map]; [rewrite app_nil_r; destruct p; reflexivity|].
  rewrite Hb. cbn [sp_acts bind]. rewrite IH. cbn [sp_log p_now p_hs p_pend p_busy p_kept p_log]. rewrite <- app_assoc. reflexivity.
Qed.
End Trace.
