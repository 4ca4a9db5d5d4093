(** Properties C25-C29, C107: eventsystem/pipeline.{hpp,cpp}, eventsystem/eventsystem.{hpp,cpp}. *)
From Coq Require Import List Arith ZArith Lia Bool Sorting.Sorted.
From Verif Require Import Base KTimeModel KTimeSpec KTimeProofs TimersModel VectorModel VectorSpec PoolModel EvModel EvSpec EvProofs EvTrace EvThms PoolProps.
Import ListNotations.
Local Open Scope nat_scope.

(** Throughout: [ops] is any program of schedule, trigger, attach, loop, passing time, and of events got with event() which are
    kept, and scheduled, triggered or dropped later, run on a new event system; [beh] says
    what the handlers do, which may be any of these again, loop() included, depending on everything observed so far.
    The kernel's time arithmetic rounds right hand operands to single precision ([near24], C30), so that the clock an event is
    compared with is off by at most its 2^24th part and exact up to 2^24 milliseconds (4.6 hours). Where the order of the
    pending events matters, delays are at most [T] and the clock at most [N] milliseconds, with 2^24 T + N < 2^48: for example
    delays up to 2^23 milliseconds (2.3 hours) and clocks up to 2^47 (4000 years). *)
Theorem C26_clock : forall t, nearest_f32 t (near24 t) /\ (Z.abs t <= 2 ^ 24 -> near24 t = t)%Z /\ (2 ^ 24 * Z.abs (near24 t - t) <= Z.abs t)%Z.
Proof. intros t. splits; [apply near24_nearest|apply near24_id|apply near24_error]. Qed.
Print Assumptions C26_clock.
Example C26_clock_case : near24 16777219 = 16777220%Z /\ near24 16777215 = 16777215%Z.
Proof. split; reflexivity. Qed.
Example C26_range_case : (2 ^ 24 * 2 ^ 23 + 2 ^ 46 < 2 ^ 48)%Z.
Proof. lia. Qed.

(** For the examples: *)
Definition ecfg : config := mkCfg 3 4 2 true 500 1000000.
Definition quiet : list (entry nat) -> list (act nat) := fun _ => [].
Definition sched (id : nat) (t : Z) (d : nat) : op nat := OAct nat (ASchedule nat id t d).
Definition wait (dt : Z) : op nat := OAct nat (AWait nat (Z.to_N dt)).
Definition att (id h : nat) : op nat := OAct nat (AAttach nat id h).
Definition erun (dbg : bool) (cfg : config) (beh : list (entry nat) -> list (act nat)) (ops : list (op nat)) : outcome (es nat) :=
  run nat 64 u16 dbg cfg beh 20 ops (es_new nat 0 cfg 0).
(** The pending events as a list *)
Definition plist (s : es nat) : list (option (pend nat)) := map (shown nat s) (firstn (vsize (s_pipe nat s)) (skipn (vh (s_pipe nat s)) (vst (s_pipe nat s)))).

Lemma ecfg_ok : cfg_ok 64 u16 ecfg.
Proof. unfold cfg_ok, ecfg, u16; cbn [c_cap c_handler_cap c_min_us c_max_us]. repeat split; lia. Qed.
Lemma quiet_tame : forall T l, Forall (tame nat T) (quiet l).
Proof. constructor. Qed.

(** C25. The pending events are in the order of their due times; for each due time, the events scheduled so far are those fired
    followed by those pending, in the order they were scheduled. Missing: later clocks and longer delays, see
    C25_order_refuted. *)
Theorem C25_ordered_partial :
  forall D nodata W L dbg cfg beh, cfg_ok W L cfg ->
  forall T N, (2 ^ 24 * T + N < 2 ^ 48)%Z -> (forall l, Forall (tame D T) (beh l)) ->
  forall fuel now ops s, (0 <= now)%Z -> Forall (tame_op D T) ops ->
  run D W L dbg cfg beh fuel ops (es_new D nodata cfg now) = Ok s -> (s_now D s <= N)%Z ->
  exists l, pending D W s l /\ StronglySorted (fun x y => (fst x <= fst y)%Z) l /\
    forall k, due_at D k (scheds D (s_log D s)) = due_at D k (fires D (s_log D s)) ++ due_at D k l.
Proof.
  intros. edestruct trace_thm as (l & A & B & C & _); eauto.
Qed.
Print Assumptions C25_ordered_partial.
Definition eprog : list (op nat) := [sched 0 30 1; sched 1 10 2; sched 2 20 3; wait 5; sched 0 25 4].
Example C25_ordered_case : Forall (tame_op nat 30) eprog /\ exists s, erun true ecfg quiet eprog = Ok s /\ s_now nat s = 5%Z /\
  map (option_map fst) (plist s) = [Some 10; Some 20; Some 30; Some 30]%Z /\
  due_at nat 30 (scheds nat (s_log nat s)) = [(30%Z, (0, 1)); (30%Z, (0, 4))].
Proof. split; [repeat constructor; simpl; lia|]. eexists. split; [vm_compute; reflexivity|]. split; [|split]; vm_compute; reflexivity. Qed.

(** A year after the start *)
Example C25_ordered_late_case : (2 ^ 24 * 30 + 31536000005 < 2 ^ 48)%Z /\ exists s,
  run nat 64 u16 true ecfg quiet 20 eprog (es_new nat 0 ecfg 31536000000) = Ok s /\ s_now nat s = 31536000005%Z /\
  map (option_map fst) (plist s) = [Some 31536000010; Some 31536000020; Some 31536000030; Some 31536000030]%Z.
Proof. split; [lia|]. eexists. split; [vm_compute; reflexivity|]. split; vm_compute; reflexivity. Qed.

(** The pending events are well defined. *)
Theorem C25_pending_unique :
  forall D nodata W L dbg cfg beh, cfg_ok W L cfg ->
  forall fuel now ops s, (0 <= now)%Z ->
  run D W L dbg cfg beh fuel ops (es_new D nodata cfg now) = Ok s ->
  forall l l', pending D W s l -> pending D W s l' -> l = l'.
Proof.
  intros. edestruct run_any as (p & _ & HR & _); eauto. transitivity (p_pend D p); [|symmetry]; eapply R_pending_unique; eauto.
Qed.
Print Assumptions C25_pending_unique.
Example C25_pending_unique_case : exists s, erun true ecfg quiet [sched 1 10 2] = Ok s /\ pending nat 64 s [(10%Z, (1, 2))].
Proof.
  eexists. split; [vm_compute; reflexivity|]. exists [Some 0]. split; [|vm_compute; reflexivity].
  repeat split; try reflexivity; try (repeat constructor; fail); vm_compute; intros; try discriminate; try lia.
Qed.

(** Whatever the clock and the delay, a new event goes somewhere among those pending, which stay in order; it is due at the clock
    plus the delay as rounded. *)
Theorem C25_schedule :
  forall D nodata W L dbg cfg beh, cfg_ok W L cfg ->
  forall fuel now ops s id t d l, (0 <= now)%Z ->
  run D W L dbg cfg beh fuel ops (es_new D nodata cfg now) = Ok s ->
  pending D W s l -> length l + held D (kept D s) < c_cap cfg -> (dbg = false \/ 0 < t)%Z ->
  exists s' l1 l2, schedule D W L dbg id t d s = Ok s' /\ l = l1 ++ l2 /\
    pending D W s' (l1 ++ (s_now D s + near24 t, (id, d))%Z :: l2) /\ s_now D s' = s_now D s.
Proof.
  intros D nodata W L dbg cfg beh Hcfg fuel now ops s id t d l Hn Hr Hp Hl Ha.
  destruct (schedule_thm D nodata W L dbg cfg beh Hcfg fuel now ops s id t d l Hn Hr Hp) as [HA _].
  destruct (HA Hl Ha) as (s' & E & Hp' & _ & En & _). destruct (enqueue_split D (near24 (s_now D s)) ((s_now D s + near24 t)%Z, (id, d)) l) as (l1 & l2 & E1 & E2).
  rewrite E2 in Hp'. exists s', l1, l2. auto.
Qed.
Print Assumptions C25_schedule.
Example C25_schedule_any_case : exists s s', erun true ecfg quiet [sched 0 16777219 1; sched 1 10 2] = Ok s /\
  plist s = [Some (10%Z, (1, 2)); Some (16777220%Z, (0, 1))] /\ schedule nat 64 u16 true 2 16777221 3 s = Ok s' /\
  plist s' = [Some (10%Z, (1, 2)); Some (16777220%Z, (0, 1)); Some (16777220%Z, (2, 3))].
Proof. do 2 eexists. split; [vm_compute; reflexivity|]. split; [vm_compute; reflexivity|]. split; vm_compute; reflexivity. Qed.

(** A new event goes after all those due at the same time or earlier and before all those due later. *)
Theorem C25_schedule_partial :
  forall D nodata W L dbg cfg beh, cfg_ok W L cfg ->
  forall T N, (2 ^ 24 * T + N < 2 ^ 48)%Z -> (forall l, Forall (tame D T) (beh l)) ->
  forall fuel now ops s id t d l, (0 <= now)%Z -> Forall (tame_op D T) ops ->
  run D W L dbg cfg beh fuel ops (es_new D nodata cfg now) = Ok s -> (s_now D s <= N)%Z -> (0 <= t <= T)%Z ->
  pending D W s l -> length l + held D (kept D s) < c_cap cfg -> (dbg = false \/ 0 < t)%Z ->
  exists s' l1 l2, schedule D W L dbg id t d s = Ok s' /\ l = l1 ++ l2 /\
    pending D W s' (l1 ++ (s_now D s + t, (id, d))%Z :: l2) /\
    Forall (fun x => (fst x <= s_now D s + t)%Z) l1 /\ Forall (fun x => (s_now D s + t < fst x)%Z) l2.
Proof.
  intros D nodata W L dbg cfg beh Hcfg T N HTN Hbeh fuel now ops s id t d l Hn Ht Hr Hs Hd Hp Hl Ha.
  destruct (schedule_thm D nodata W L dbg cfg beh Hcfg fuel now ops s id t d l Hn Hr Hp) as [HA _].
  destruct (HA Hl Ha) as (s' & E & Hp' & _). destruct (trace_thm D nodata W L dbg cfg beh Hcfg T N HTN Hbeh fuel now ops s Hn Ht Hr Hs) as (l' & HL & HS & _).
  pose proof (C25_pending_unique D nodata W L dbg cfg beh Hcfg fuel now ops s Hn Hr l' l HL Hp) as ->.
  assert (0 <= s_now D s)%Z as Hpos. { destruct (run_any D nodata W L dbg cfg beh Hcfg fuel now ops s Hn Hr) as (p & _ & HR & HG & _). destruct (R_fields D W cfg s p HR) as [-> _]. apply (g_pos _ _ _ HG). }
  rewrite (near24_id t) in Hp' by lia. rewrite (enqueue_insort D T N HTN (s_now D s) t) in Hp' by (auto; lia).
  destruct (sorted_split D (s_now D s + t) l HS) as (l1 & l2 & E12 & E1 & E2). exists s', l1, l2. splits; auto.
  - assert (insort D ((s_now D s + t)%Z, (id, d)) l = l1 ++ ((s_now D s + t)%Z, (id, d)) :: l2) as <-; [|exact Hp'].
    rewrite E12. assert (H1 : Forall (fun x : pend D => (fst x <= s_now D s + t)%Z) l1).
    { rewrite E1. apply Forall_forall. intros x Hx. apply filter_In in Hx as [_ Hx]. apply Z.leb_le. exact Hx. }
    assert (H2 : Forall (fun x : pend D => (s_now D s + t < fst x)%Z) l2).
    { rewrite E2. apply Forall_forall. intros x Hx. apply filter_In in Hx as [_ Hx]. apply negb_true_iff in Hx. apply Z.leb_gt. exact Hx. }
    clear -H1 H2. induction H1 as [|x l1 Hx H1 IH]; cbn [app insort fst].
    + destruct l2 as [|y l2]; auto. inversion H2; subst. cbn [insort fst]. destruct (Z.ltb_spec (s_now D s + t) (fst y)); [reflexivity|lia].
    + destruct (Z.ltb_spec (s_now D s + t) (fst x)); [lia|]. now rewrite IH.
  - rewrite E1. apply Forall_forall. intros x Hx. apply filter_In in Hx as [_ Hx]. apply Z.leb_le. exact Hx.
  - rewrite E2. apply Forall_forall. intros x Hx. apply filter_In in Hx as [_ Hx]. apply negb_true_iff in Hx. apply Z.leb_gt. exact Hx.
Qed.
Print Assumptions C25_schedule_partial.
Example C25_schedule_case : exists s s', erun true ecfg quiet [sched 0 30 1; sched 1 10 2] = Ok s /\
  plist s = [Some (10%Z, (1, 2)); Some (30%Z, (0, 1))] /\ schedule nat 64 u16 true 2 20 3 s = Ok s' /\
  plist s' = [Some (10%Z, (1, 2)); Some (20%Z, (2, 3)); Some (30%Z, (0, 1))].
Proof. do 2 eexists. split; [vm_compute; reflexivity|]. split; [vm_compute; reflexivity|]. split; vm_compute; reflexivity. Qed.

(** Pipeline::expire takes the first event out and returns it if it is due. If it is not due, a debug build halts; a release
    build returns null, and the event is gone. *)
Theorem C25_expire :
  forall D nodata W L dbg cfg beh, cfg_ok W L cfg ->
  forall fuel now ops s, (0 <= now)%Z ->
  run D W L dbg cfg beh fuel ops (es_new D nodata cfg now) = Ok s ->
  (pending D W s [] -> expire D dbg s = if dbg then Halt else Ok (None, s)) /\
  (forall x l, pending D W s (x :: l) -> (fst x <= near24 (s_now D s))%Z -> exists o s', expire D dbg s = Ok (Some o, s') /\
     shown D s' (Some o) = Some x /\ pending D W s' l /\ s_now D s' = s_now D s) /\
  (forall x l, pending D W s (x :: l) -> (near24 (s_now D s) < fst x)%Z ->
     if dbg then expire D dbg s = Halt else exists s', expire D dbg s = Ok (None, s') /\ pending D W s' l).
Proof. exact @expire_thm. Qed.
Print Assumptions C25_expire.
Example C25_expire_case : exists s o s', erun true ecfg quiet [sched 0 30 1; sched 1 10 2; wait 10] = Ok s /\
  expire nat true s = Ok (Some o, s') /\ shown nat s' (Some o) = Some (10%Z, (1, 2)) /\ plist s' = [Some (30%Z, (0, 1))] /\
  expire nat true s' = Halt.
Proof. do 3 eexists. split; [vm_compute; reflexivity|]. split; [vm_compute; reflexivity|]. split; [|split]; vm_compute; reflexivity. Qed.

(** Two at 30, one at 10, one at 20 *)
Example C25_case : exists s, erun true ecfg quiet [sched 0 30 1; sched 1 10 2; sched 2 20 3; wait 5; sched 0 25 4] = Ok s /\
  plist s = [Some (10%Z, (1, 2)); Some (20%Z, (2, 3)); Some (30%Z, (0, 1)); Some (30%Z, (0, 4))] /\ s_now nat s = 5%Z.
Proof. eexists. split; [vm_compute; reflexivity|]. split; vm_compute; reflexivity. Qed.

(** Beyond 2^24 milliseconds times until due are rounded to single precision before they are compared, so that the event due at
    16777219 is put after the one due at 16777220. *)
Theorem C25_order_refuted : exists s,
  erun true ecfg quiet [sched 0 16777220 1; wait 3; sched 1 16777216 2] = Ok s /\
  plist s = [Some (16777220%Z, (0, 1)); Some (16777219%Z, (1, 2))].
Proof. eexists. split; [vm_compute; reflexivity|]. vm_compute. reflexivity. Qed.
Print Assumptions C25_order_refuted.

(** C26. Whatever the delays and the clock: the events scheduled are those fired and those pending, each as often as it was
    scheduled; no event has fired more than the 2^24th part of the clock before it was due, and none at all before it was due
    within the first 2^24 milliseconds. *)
Theorem C26_none_lost :
  forall D nodata W L dbg cfg beh, cfg_ok W L cfg ->
  forall fuel now ops s, (0 <= now)%Z ->
  run D W L dbg cfg beh fuel ops (es_new D nodata cfg now) = Ok s ->
  exists l, pending D W s l /\ none_lost D (s_log D s) l /\ hardly_early D (s_log D s) /\
    ((s_now D s <= 2 ^ 24)%Z -> not_early D (s_log D s)).
Proof.
  intros. edestruct lost_thm as (l & A & B & C & E & _); eauto.
Qed.
Print Assumptions C26_none_lost.
(** Delays of a day, nearly five hours and ten seconds *)
Example C26_none_lost_case : exists s, erun true (mkCfg 3 4 2 false 500 1000000) quiet
    [att 0 7; att 1 7; sched 0 86400000 1; sched 1 16777221 2; sched 0 10000 3; wait 16777220; OLoop nat] = Ok s /\
  fires nat (s_log nat s) = [(10000%Z, (0, 3)); (16777220%Z, (1, 2))] /\ plist s = [Some (86400000%Z, (0, 1))].
Proof. eexists. split; [vm_compute; reflexivity|]. split; vm_compute; reflexivity. Qed.

(** For each due time the events scheduled are those fired followed by those pending (so each is fired once or still
    pending); when an event fires all those due earlier have fired. Missing: the order with longer delays, see
    C25_order_refuted; never early with later clocks, see C26_early_refuted. *)
Theorem C26_exactly_once_partial :
  forall D nodata W L dbg cfg beh, cfg_ok W L cfg ->
  forall T N, (2 ^ 24 * T + N < 2 ^ 48)%Z -> (forall l, Forall (tame D T) (beh l)) ->
  forall fuel now ops s, (0 <= now)%Z -> Forall (tame_op D T) ops ->
  run D W L dbg cfg beh fuel ops (es_new D nodata cfg now) = Ok s -> (s_now D s <= N)%Z ->
  exists l, pending D W s l /\ once D (s_log D s) l /\ in_order D (s_log D s).
Proof.
  intros. edestruct trace_thm as (l & A & B & C & E); eauto 8.
Qed.
Print Assumptions C26_exactly_once_partial.
Example C26_exactly_once_case : exists s, erun true ecfg quiet [att 0 7; att 1 7; sched 0 30 1; sched 1 10 2; sched 0 10 3; wait 12; OLoop nat] = Ok s /\
  fires nat (s_log nat s) = [(10%Z, (1, 2)); (10%Z, (0, 3))] /\ plist s = [Some (30%Z, (0, 1))] /\ s_now nat s = 30%Z.
Proof. eexists. split; [vm_compute; reflexivity|]. split; [|split]; vm_compute; reflexivity. Qed.

(** When loop() returns, everything still pending is due later than the clock, as rounded, was before loop()'s final sleep. *)
Theorem C26_none_left_partial :
  forall D nodata W L dbg cfg beh, cfg_ok W L cfg ->
  forall T N, (2 ^ 24 * T + N < 2 ^ 48)%Z -> (forall l, Forall (tame D T) (beh l)) ->
  forall fuel now ops s, (0 <= now)%Z -> Forall (tame_op D T) ops ->
  run D W L dbg cfg beh fuel (ops ++ [OLoop D]) (es_new D nodata cfg now) = Ok s -> (s_now D s <= N)%Z ->
  forall l, pending D W s l -> Forall (fun x : pend D => near24 (s_now D s - (if c_delay cfg then slept D (s_log D s) else 0)) < fst x)%Z l.
Proof. exact @loop_clears. Qed.
Print Assumptions C26_none_left_partial.
Example C26_none_left_case : exists s, erun true ecfg quiet ([att 0 7; sched 0 30 1; sched 0 10 2; wait 12] ++ [OLoop nat]) = Ok s /\
  plist s = [Some (30%Z, (0, 1))] /\ (s_now nat s - slept nat (s_log nat s) = 12)%Z.
Proof. eexists. split; [vm_compute; reflexivity|]. split; vm_compute; reflexivity. Qed.

(** With handlers that do not call back into the event system (their ids in range and, in a debug build, with handlers), loop()
    returns and does exactly this: fires the due events in order, each calling its handlers in order, keeps the others, and
    sleeps. *)
Theorem C26_loop_partial :
  forall D nodata W L dbg cfg beh, cfg_ok W L cfg ->
  forall T N fuel f now ops s l, (2 ^ 24 * T + N < 2 ^ 48)%Z -> (forall l, beh l = []) -> (0 <= now)%Z -> Forall (tame_op D T) ops ->
  run D W L dbg cfg beh fuel ops (es_new D nodata cfg now) = Ok s -> (s_now D s <= N)%Z -> pending D W s l -> length l <= f ->
  (forall due id d, In (due, (id, d)) l -> id < c_count cfg /\ (dbg = false \/ (attached D id ops <> [] /\ 0 < c_handler_cap cfg))) ->
  let now' := s_now D s in
  let rest := filter (fun x => negb (fst x <=? near24 now')%Z) l in
  let sleep := match rest with [] => kconv MS US (c_min_us cfg) | x :: _ => (Z.min (fst x - near24 now') (c_max_us cfg) mod 2 ^ 32)%Z end in
  exists s', loop D W L dbg cfg beh f s = Ok s' /\ pending D W s' rest /\
    s_log D s' = s_log D s ++
      flat_map (fun x => LFire D (fst x) (fst (snd x)) (snd (snd x)) now' ::
                map (fun h => LCall D h (fst (snd x)) (snd (snd x)) now') (firstn (c_handler_cap cfg) (attached D (fst (snd x)) ops)))
               (filter (fun x => (fst x <=? near24 now')%Z) l) ++
      (if c_delay cfg then [LSleep D sleep] else []) /\
    s_now D s' = (now' + if c_delay cfg then sleep else 0)%Z.
Proof. exact @loop_quiet. Qed.
Print Assumptions C26_loop_partial.
Example C26_loop_case : exists s s', erun true ecfg quiet [att 0 7; att 0 8; sched 0 30 1; sched 0 10 2; wait 12] = Ok s /\
  loop nat 64 u16 true ecfg quiet 2 s = Ok s' /\ plist s' = [Some (30%Z, (0, 1))] /\ s_now nat s' = 30%Z /\
  s_log nat s' = s_log nat s ++ [LFire nat 10 0 2 12; LCall nat 7 0 2 12; LCall nat 8 0 2 12; LSleep nat 18].
Proof. do 2 eexists. split; [vm_compute; reflexivity|]. split; [vm_compute; reflexivity|]. split; [|split]; vm_compute; reflexivity. Qed.

(** Handler 7 of id 0 schedules id 1 when it is called, handler 8 of id 1 does nothing; 5 ms, then 25 ms later *)
Definition busy : list (entry nat) -> list (act nat) := fun l => match rev l with LCall _ 7 _ _ _ :: _ => [ASchedule nat 1 10 9] | _ => [] end.
Lemma busy_tame : forall l, Forall (tame nat 10) (busy l).
Proof.
  intros l. unfold busy. destruct (rev l) as [|[ | |h i d n| | | ] r]; try constructor.
  do 8 (destruct h as [|h]; try constructor); simpl; try lia; constructor.
Qed.
Example C26_case : exists s, erun true (mkCfg 3 4 2 false 500 1000000) busy
    [att 0 7; att 1 8; sched 0 5 1; sched 1 20 2; sched 0 7 3; wait 6; OLoop nat; wait 20; OLoop nat] = Ok s /\
  s_log nat s = [LSched nat 5 0 1; LSched nat 20 1 2; LSched nat 7 0 3; LFire nat 5 0 1 6; LCall nat 7 0 1 6; LSched nat 16 1 9;
    LFire nat 7 0 3 26; LCall nat 7 0 3 26; LSched nat 36 1 9; LFire nat 16 1 9 26; LCall nat 8 1 9 26;
    LFire nat 20 1 2 26; LCall nat 8 1 2 26] /\ plist s = [Some (36%Z, (1, 9))].
Proof. eexists. split; [vm_compute; reflexivity|]. split; vm_compute; reflexivity. Qed.

(** The handler of id 0 waits 4 ms and calls loop() itself: the events that have become due fire within its call, in order, and the
    outer loop() goes on with what is left *)
Definition nested : list (entry nat) -> list (act nat) := fun l => match rev l with LCall _ 7 _ _ _ :: _ => [AWait nat 4; ALoop nat] | _ => [] end.
Example C26_nested_case : exists s, erun true (mkCfg 3 4 2 false 500 1000000) nested
    [att 0 7; att 0 8; att 1 8; sched 0 5 1; sched 1 9 2; sched 1 6 3; sched 1 20 4; wait 5; OLoop nat] = Ok s /\
  s_log nat s = [LSched nat 5 0 1; LSched nat 9 1 2; LSched nat 6 1 3; LSched nat 20 1 4; LFire nat 5 0 1 5; LCall nat 7 0 1 5;
    LFire nat 6 1 3 9; LCall nat 8 1 3 9; LFire nat 9 1 2 9; LCall nat 8 1 2 9; LCall nat 8 0 1 9] /\ plist s = [Some (20%Z, (1, 4))].
Proof. eexists. split; [vm_compute; reflexivity|]. split; vm_compute; reflexivity. Qed.

(** At 16777219 milliseconds the event due at 16777220 fires. *)
Theorem C26_early_refuted : exists s, erun true (mkCfg 1 1 1 false 0 0) quiet [att 0 7; wait 16777210; sched 0 10 1; wait 9; OLoop nat] = Ok s /\
  In (LFire nat 16777220 0 1 16777219) (s_log nat s).
Proof. eexists. split; [vm_compute; reflexivity|]. vm_compute. auto 10. Qed.
Print Assumptions C26_early_refuted.

(** C27. With handlers that do not call back, trigger calls the handlers attached to the id, in the order they were attached,
    each once per attachment (as many as there is room for), and does nothing else. *)
Theorem C27_trigger :
  forall D nodata W L dbg cfg beh, cfg_ok W L cfg ->
  forall fuel now ops s id d, (forall l, beh l = []) -> (0 <= now)%Z -> id < c_count cfg ->
  run D W L dbg cfg beh fuel ops (es_new D nodata cfg now) = Ok s ->
  forall l, pending D W s l -> length l + held D (kept D s) < c_cap cfg ->
  (dbg = false \/ (attached D id ops <> [] /\ 0 < c_handler_cap cfg)) ->
  exists s', do_act D W L dbg cfg beh 1 (ATrigger D id d) s = Ok s' /\ pending D W s' l /\ s_now D s' = s_now D s /\
    s_log D s' = s_log D s ++ map (fun h => LCall D h id d (s_now D s)) (firstn (c_handler_cap cfg) (attached D id ops)).
Proof. exact @trigger_quiet. Qed.
Print Assumptions C27_trigger.
Example C27_trigger_case : exists s s', erun true ecfg quiet [att 0 7; att 1 8; att 0 5; sched 1 10 2] = Ok s /\
  do_act nat 64 u16 true ecfg quiet 1 (ATrigger nat 0 3) s = Ok s' /\ plist s' = plist s /\
  s_log nat s' = s_log nat s ++ [LCall nat 7 0 3 0; LCall nat 5 0 3 0].
Proof. do 2 eexists. split; [vm_compute; reflexivity|]. split; [vm_compute; reflexivity|]. split; vm_compute; reflexivity. Qed.

(** With any handlers: those attached when trigger is called are called in order, each doing whatever it does before the next
    is called. *)
Theorem C27_trigger_any :
  forall D nodata W L dbg cfg beh, cfg_ok W L cfg ->
  forall fuel now ops s id d hs f s', (0 <= now)%Z ->
  run D W L dbg cfg beh fuel ops (es_new D nodata cfg now) = Ok s -> handlers D W s id hs ->
  do_act D W L dbg cfg beh f (ATrigger D id d) s = Ok s' ->
  calls_in D id d hs (s_log D s) (s_log D s').
Proof. exact @trigger_any. Qed.
Print Assumptions C27_trigger_any.

Example C27_case : exists s, erun true ecfg quiet [att 0 7; att 1 8; att 0 5; OAct nat (ATrigger nat 0 3)] = Ok s /\
  s_log nat s = [LCall nat 7 0 3 0; LCall nat 5 0 3 0] /\ attached nat 0 [att 0 7; att 1 8; att 0 5] = [7; 5].
Proof. eexists. split; [vm_compute; reflexivity|]. split; vm_compute; reflexivity. Qed.

(** A handler that attaches itself again is called once per trigger. *)
Definition again : list (entry nat) -> list (act nat) := fun l => match rev l with LCall _ 7 _ _ _ :: _ => [AAttach nat 0 7] | _ => [] end.
Example C27_any_case : exists s s', erun true (mkCfg 1 4 9 false 0 0) again [att 0 7; OAct nat (ATrigger nat 0 1)] = Ok s /\
  handlers nat 64 s 0 [7; 7] /\ do_act nat 64 u16 true (mkCfg 1 4 9 false 0 0) again 2 (ATrigger nat 0 2) s = Ok s' /\
  s_log nat s' = [LCall nat 7 0 1 0; LCall nat 7 0 2 0; LCall nat 7 0 2 0].
Proof.
  do 2 eexists. split; [vm_compute; reflexivity|]. split; [|split; [vm_compute; reflexivity|reflexivity]].
  eexists. split; [vm_compute; reflexivity|]. vm_compute. repeat split; try reflexivity; try (repeat constructor; fail).
  all: intros; try discriminate; try lia.
Qed.

(** attach adds the handler at the end of those of its id and leaves the other ids alone; with no room for it a debug build halts
    and a release build changes nothing. There are never more handlers than room. *)
Theorem C27_attach :
  forall D nodata W L dbg cfg beh, cfg_ok W L cfg ->
  forall fuel now ops s id h hs, (0 <= now)%Z ->
  run D W L dbg cfg beh fuel ops (es_new D nodata cfg now) = Ok s -> handlers D W s id hs ->
  length hs <= c_handler_cap cfg /\
  (length hs < c_handler_cap cfg -> exists s', attach D W dbg cfg id h s = Ok s' /\ handlers D W s' id (hs ++ [h]) /\
     (forall id' hs', id' <> id -> handlers D W s id' hs' -> handlers D W s' id' hs')) /\
  (length hs = c_handler_cap cfg -> attach D W dbg cfg id h s = if dbg then Halt else Ok s).
Proof. exact @attach_thm. Qed.
Print Assumptions C27_attach.
Example C27_attach_case : exists s s', erun true ecfg quiet [att 0 7; att 1 9] = Ok s /\ attach nat 64 true ecfg 0 8 s = Ok s' /\
  handlers nat 64 s 0 [7] /\ handlers nat 64 s' 0 [7; 8] /\ attach nat 64 true ecfg 0 5 s' = Halt.
Proof.
  do 2 eexists. split; [vm_compute; reflexivity|]. split; [vm_compute; reflexivity|].
  split; [|split; [|vm_compute; reflexivity]]; (eexists; split; [vm_compute; reflexivity|]; vm_compute; repeat split; try reflexivity; try (repeat constructor; fail));
  intros; try discriminate; try lia.
Qed.

(** In a release build, attaching more handlers than fit is ignored without a sign. *)
Theorem C27_attach_full_refuted : exists s, erun false ecfg quiet [att 0 5; att 0 6; att 0 7; OAct nat (ATrigger nat 0 1)] = Ok s /\
  s_log nat s = [LCall nat 5 0 1 0; LCall nat 6 0 1 0].
Proof. eexists. split; [vm_compute; reflexivity|]. vm_compute. reflexivity. Qed.
Print Assumptions C27_attach_full_refuted.

(** C28. Never more than events_cap pending or in the user's hands; whatever was fired before, scheduling works whenever there
    are fewer, and without a free slot a debug build halts. Missing: the same in a release build, see C28_full_refuted. *)
Theorem C28_capacity_partial :
  forall D nodata W L dbg cfg beh, cfg_ok W L cfg ->
  forall fuel now ops s, (0 <= now)%Z ->
  run D W L dbg cfg beh fuel ops (es_new D nodata cfg now) = Ok s ->
  (exists l, pending D W s l /\ length l + held D (kept D s) <= c_cap cfg) /\
  forall l id t d, pending D W s l ->
  (length l + held D (kept D s) < c_cap cfg -> (dbg = false \/ 0 < t)%Z -> exists s', schedule D W L dbg id t d s = Ok s') /\
  (length l + held D (kept D s) = c_cap cfg -> schedule D W L dbg id t d s = if dbg then Halt else UB).
Proof.
  intros D nodata W L dbg cfg beh Hcfg fuel now ops s Hn Hr. split.
  - edestruct lost_thm as (l & A & _ & _ & _ & B & _); eauto.
  - intros l id t d Hp. destruct (schedule_thm D nodata W L dbg cfg beh Hcfg fuel now ops s id t d l Hn Hr Hp) as [HA HB].
    split; auto. intros H1 H2. destruct (HA H1 H2) as (s' & E & _). eauto.
Qed.
Print Assumptions C28_capacity_partial.

Definition one : config := mkCfg 1 1 1 false 0 0.
(** One slot, used three times *)
Example C28_case : exists s, erun true one quiet [att 0 7; sched 0 5 1; wait 5; OLoop nat; sched 0 5 2; wait 5; OLoop nat; sched 0 5 3] = Ok s /\
  plist s = [Some (15%Z, (0, 3))] /\ fires nat (s_log nat s) = [(5%Z, (0, 1)); (10%Z, (0, 2))].
Proof. eexists. split; [vm_compute; reflexivity|]. split; vm_compute; reflexivity. Qed.

(** Without a free slot, a release build dereferences null. *)
Theorem C28_full_refuted : exists s, erun false one quiet [sched 0 5 1] = Ok s /\ plist s = [Some (5%Z, (0, 1))] /\ schedule nat 64 u16 false 0 5 2 s = UB.
Proof. eexists. split; [vm_compute; reflexivity|]. split; vm_compute; reflexivity. Qed.
Print Assumptions C28_full_refuted.

(** C29. loop()'s final sleep is the time until the first pending event is due or the maximum of the configuration, which is given
    in microseconds but taken as milliseconds, whichever is less; it ends no later than that event is due plus the 2^24th part
    of the clock. Missing: the claimed maximum, see C29_maximum_refuted. *)
Theorem C29_sleep_partial :
  forall D nodata W L dbg cfg beh, cfg_ok W L cfg ->
  forall fuel now ops s, (0 <= now)%Z -> c_delay cfg = true ->
  run D W L dbg cfg beh fuel (ops ++ [OLoop D]) (es_new D nodata cfg now) = Ok s ->
  forall l, pending D W s l -> exists lg ms, s_log D s = lg ++ [LSleep D ms] /\ (0 <= ms)%Z /\
    match l with
    | [] => ms = kconv MS US (c_min_us cfg)
    | x :: _ => ms = (Z.min (fst x - near24 (s_now D s - ms)) (c_max_us cfg) mod 2 ^ 32)%Z /\ (2 ^ 24 * (s_now D s - fst x) <= s_now D s - ms)%Z
    end.
Proof.
  intros D nodata W L dbg cfg beh Hcfg fuel now ops s Hn Hd Hr l Hp.
  destruct (sleep_thm D nodata W L dbg cfg beh Hcfg fuel now ops s Hn Hd Hr l Hp) as (lg & ms & E1 & E2 & E3). exists lg, ms. unfold sleep_for in E2.
  assert (0 <= s_now D s - ms)%Z as H0.
  { destruct (slept_from D nodata W L dbg cfg beh Hcfg fuel now ops s Hn Hd Hr) as (lg' & ms' & E1' & H'). rewrite E1' in E1. apply app_inj_tail in E1 as [_ E1]. inversion E1; subst. exact H'. }
  destruct l as [|x l].
  - splits; auto. rewrite E2. apply kconv_nonneg. apply Hcfg.
  - assert (0 <= ms <= Z.min (fst x - near24 (s_now D s - ms)) (c_max_us cfg))%Z as Hms.
    { rewrite E2 at 1 2. destruct Hcfg as (_ & _ & _ & _ & Hm). split; [apply Z.mod_pos_bound; lia|apply Z.mod_le; lia]. }
    splits; auto; [lia|]. pose proof (near24_error (s_now D s - ms)). lia.
Qed.
Print Assumptions C29_sleep_partial.

Example C29_case : exists s, erun true ecfg quiet [att 0 7; sched 0 30 1; sched 0 50 2; wait 30; OLoop nat] = Ok s /\
  s_log nat s = [LSched nat 30 0 1; LSched nat 50 0 2; LFire nat 30 0 1 30; LCall nat 7 0 1 30; LSleep nat 20] /\ s_now nat s = 50%Z.
Proof. eexists. split; [vm_compute; reflexivity|]. split; vm_compute; reflexivity. Qed.

(** Nothing pending is past due by more than the 2^24th part of the clock when loop() returns, nor at all within the first 2^24
    milliseconds. *)
Theorem C29_not_past_partial :
  forall D nodata W L dbg cfg beh, cfg_ok W L cfg ->
  forall T N, (2 ^ 24 * T + N < 2 ^ 48)%Z -> (forall l, Forall (tame D T) (beh l)) ->
  forall fuel now ops s, (0 <= now)%Z -> Forall (tame_op D T) ops -> c_delay cfg = true ->
  run D W L dbg cfg beh fuel (ops ++ [OLoop D]) (es_new D nodata cfg now) = Ok s -> (s_now D s <= N)%Z ->
  forall l, pending D W s l -> Forall (fun x => (2 ^ 24 * (s_now D s - fst x) <= s_now D s)%Z /\ (s_now D s <= 2 ^ 24 -> s_now D s <= fst x)%Z) l.
Proof.
  intros D nodata W L dbg cfg beh Hcfg T N HTN Hbeh fuel now ops s Hn Ht Hd Hr Hs l Hp.
  destruct (C29_sleep_partial D nodata W L dbg cfg beh Hcfg fuel now ops s Hn Hd Hr l Hp) as (lg & ms & E1 & Hms & E2).
  assert (0 <= s_now D s - ms)%Z as H0.
  { destruct (slept_from D nodata W L dbg cfg beh Hcfg fuel now ops s Hn Hd Hr) as (lg' & ms' & E1' & H'). rewrite E1' in E1. apply app_inj_tail in E1 as [_ E1]. inversion E1; subst. exact H'. }
  assert (Forall (tame_op D T) (ops ++ [OLoop D])) as Ht' by (apply Forall_app; split; auto; repeat constructor).
  destruct (trace_thm D nodata W L dbg cfg beh Hcfg T N HTN Hbeh fuel now _ s Hn Ht' Hr Hs) as (l' & HL & HS & _).
  pose proof (C25_pending_unique D nodata W L dbg cfg beh Hcfg fuel now _ s Hn Hr l' l HL Hp) as ->.
  destruct l as [|x l]; [constructor|]. destruct E2 as [E2 E3].
  assert (near24 (s_now D s - ms) < fst x)%Z as E4.
  { destruct (sleep_thm D nodata W L dbg cfg beh Hcfg fuel now ops s Hn Hd Hr _ Hp) as (lg' & ms' & E1' & _ & H'). rewrite E1' in E1. apply app_inj_tail in E1 as [_ E1]. inversion E1; subst. exact H'. }
  assert (s_now D s <= 2 ^ 24 -> s_now D s <= fst x)%Z as E5.
  { intros H24. rewrite near24_id in E2, E4 by lia. assert (ms <= Z.min (fst x - (s_now D s - ms)) (c_max_us cfg))%Z; [|lia].
    rewrite E2 at 1. destruct Hcfg as (_ & _ & _ & _ & Hm). apply Z.mod_le; lia. }
  assert (2 ^ 24 * (s_now D s - fst x) <= s_now D s)%Z as E6 by lia.
  inversion HS as [|? ? _ HF]; subst. constructor; [auto|].
  eapply Forall_impl; [|exact HF]. cbn beta. intros y Hy. split; lia.
Qed.
Print Assumptions C29_not_past_partial.
Example C29_not_past_case : exists s, erun true ecfg quiet ([att 0 7; sched 0 30 1; sched 0 50 2; wait 30] ++ [OLoop nat]) = Ok s /\
  plist s = [Some (50%Z, (0, 2))] /\ s_now nat s = 50%Z.
Proof. eexists. split; [vm_compute; reflexivity|]. split; vm_compute; reflexivity. Qed.

(** With a maximum of one second, loop() sleeps for ten minutes. *)
Theorem C29_maximum_refuted : c_max_us ecfg = 1000000%Z /\ exists s,
  erun true ecfg quiet [sched 0 600000 1; OLoop nat] = Ok s /\ s_log nat s = [LSched nat 600000 0 1; LSleep nat 600000].
Proof. split; [reflexivity|]. eexists. split; [vm_compute; reflexivity|]. vm_compute. reflexivity. Qed.
Print Assumptions C29_maximum_refuted.

(** C107. The user's pointers to events got with event() read as they did when they were got, whatever was scheduled, fired and
    triggered since, in every program and within every handler: the trace [keeps] track. *)
Theorem C107_reads :
  forall D nodata W L dbg cfg beh, cfg_ok W L cfg ->
  forall fuel now ops s, (0 <= now)%Z ->
  run D W L dbg cfg beh fuel ops (es_new D nodata cfg now) = Ok s -> keeps D (s_log D s) (kept D s).
Proof.
  intros. edestruct lost_thm as (l & _ & _ & _ & _ & _ & B); eauto.
Qed.
Print Assumptions C107_reads.

(** event() gives an event when fewer than events_cap are pending or in the user's hands. With none left a debug build halts and a
    release build gives null. *)
Theorem C107_event :
  forall D nodata W L dbg cfg beh, cfg_ok W L cfg ->
  forall fuel now ops s id t d l f, (0 <= now)%Z ->
  run D W L dbg cfg beh fuel ops (es_new D nodata cfg now) = Ok s -> pending D W s l ->
  (length l + held D (kept D s) < c_cap cfg -> exists s', do_act D W L dbg cfg beh f (AKeep D id t d) s = Ok s' /\
     kept D s' = kept D s ++ [Some (id, t, d)] /\ pending D W s' l /\ s_now D s' = s_now D s) /\
  (length l + held D (kept D s) = c_cap cfg ->
     if dbg then do_act D W L dbg cfg beh f (AKeep D id t d) s = Halt
     else exists s', do_act D W L dbg cfg beh f (AKeep D id t d) s = Ok s' /\ kept D s' = kept D s ++ [None] /\ pending D W s' l).
Proof. exact @keep_thm. Qed.
Print Assumptions C107_event.

(** Scheduling a kept event never lacks a slot; its delay counts from then. *)
Theorem C107_schedule_partial :
  forall D nodata W L dbg cfg beh, cfg_ok W L cfg ->
  forall fuel now ops s ks1 ks2 id t d l f, (0 <= now)%Z ->
  run D W L dbg cfg beh fuel ops (es_new D nodata cfg now) = Ok s -> pending D W s l ->
  kept D s = ks1 ++ Some (id, t, d) :: ks2 -> (dbg = false \/ 0 < t)%Z ->
  exists s', do_act D W L dbg cfg beh f (AScheduleKept D (length ks1)) s = Ok s' /\ kept D s' = ks1 ++ ks2 /\
    pending D W s' (enqueue D (near24 (s_now D s)) (s_now D s + near24 t, (id, d)) l)%Z /\
    s_log D s' = s_log D s ++ [LTake D (length ks1) (Some (id, t, d)); LSched D (s_now D s + near24 t) id d] /\ s_now D s' = s_now D s.
Proof. exact @schedule_kept_thm. Qed.
Print Assumptions C107_schedule_partial.

(** Triggering it calls the handlers its id has then, in order, with its data; afterwards it is in the user's hands as before. *)
Theorem C107_trigger :
  forall D nodata W L dbg cfg beh, cfg_ok W L cfg ->
  forall fuel now ops s ks1 ks2 id t d hs f s', (0 <= now)%Z ->
  run D W L dbg cfg beh fuel ops (es_new D nodata cfg now) = Ok s -> handlers D W s id hs ->
  kept D s = ks1 ++ Some (id, t, d) :: ks2 ->
  do_act D W L dbg cfg beh f (ATriggerKept D (length ks1)) s = Ok s' ->
  exists lg ks', calls_in D id d hs (s_log D s ++ [LTake D (length ks1) (Some (id, t, d))]) lg /\
    s_log D s' = lg ++ [LKeep D (Some (id, t, d))] /\ kept D s' = ks' ++ [Some (id, t, d)].
Proof. exact @trigger_kept_thm. Qed.
Print Assumptions C107_trigger.

(** Dropping it leaves all else alone; with C107_event its slot is free again. *)
Theorem C107_drop :
  forall D nodata W L dbg cfg beh, cfg_ok W L cfg ->
  forall fuel now ops s ks1 x ks2 l f, (0 <= now)%Z ->
  run D W L dbg cfg beh fuel ops (es_new D nodata cfg now) = Ok s -> pending D W s l -> kept D s = ks1 ++ x :: ks2 ->
  exists s', do_act D W L dbg cfg beh f (ADropKept D (length ks1)) s = Ok s' /\ kept D s' = ks1 ++ ks2 /\ pending D W s' l /\
    s_log D s' = s_log D s ++ [LTake D (length ks1) x] /\ s_now D s' = s_now D s.
Proof. exact @drop_kept_thm. Qed.
Print Assumptions C107_drop.

Definition kept_op (id : nat) (t : Z) (d : nat) : op nat := OAct nat (AKeep nat id t d).
(** Two slots: one event kept, another scheduled and fired, a third kept; the first is triggered, then scheduled at 5 and fires at 15 *)
Example C107_case : exists s, erun true (mkCfg 3 2 2 false 500 1000000) quiet
    [att 0 7; att 1 8; kept_op 0 10 1; sched 1 2 5; wait 2; OLoop nat; kept_op 1 20 2; OAct nat (ATriggerKept nat 0); wait 3;
     OAct nat (AScheduleKept nat 1); wait 10; OLoop nat] = Ok s /\
  s_log nat s = [LKeep nat (Some (0, 10%Z, 1)); LSched nat 2 1 5; LFire nat 2 1 5 2; LCall nat 8 1 5 2; LKeep nat (Some (1, 20%Z, 2));
    LTake nat 0 (Some (0, 10%Z, 1)); LCall nat 7 0 1 2; LKeep nat (Some (0, 10%Z, 1)); LTake nat 1 (Some (0, 10%Z, 1)); LSched nat 15 0 1;
    LFire nat 15 0 1 15; LCall nat 7 0 1 15] /\ kept nat s = [Some (1, 20%Z, 2)].
Proof. eexists. split; [vm_compute; reflexivity|]. split; vm_compute; reflexivity. Qed.
(** The hypotheses of C107_schedule_partial and C107_drop; with both slots in the user's hands event() halts *)
Example C107_kept_case : exists s, erun true (mkCfg 3 2 2 false 500 1000000) quiet [att 1 8; kept_op 0 10 1; kept_op 1 20 2] = Ok s /\
  kept nat s = [Some (0, 10%Z, 1)] ++ Some (1, 20%Z, 2) :: [] /\ handlers nat 64 s 1 [8] /\ plist s = [] /\
  do_act nat 64 u16 true (mkCfg 3 2 2 false 500 1000000) quiet 0 (AKeep nat 0 1 0) s = Halt.
Proof.
  eexists. split; [vm_compute; reflexivity|]. split; [vm_compute; reflexivity|]. split; [|split; vm_compute; reflexivity].
  eexists; split; [vm_compute; reflexivity|]; vm_compute; repeat split; try reflexivity; try (repeat constructor; fail); intros; try discriminate; try lia.
Qed.

(** In a release build, with none left, event() gives null and scheduling that is undefined. *)
Theorem C107_null_refuted : exists s, erun false one quiet [sched 0 5 1; kept_op 0 10 2] = Ok s /\ kept nat s = [None] /\
  do_act nat 64 u16 false one quiet 0 (AScheduleKept nat 0) s = UB.
Proof. eexists. split; [vm_compute; reflexivity|]. split; vm_compute; reflexivity. Qed.
Print Assumptions C107_null_refuted.
(** Always so *)
Theorem C107_null :
  forall D nodata W L dbg cfg beh, cfg_ok W L cfg ->
  forall fuel now ops s ks1 ks2 f, (0 <= now)%Z ->
  run D W L dbg cfg beh fuel ops (es_new D nodata cfg now) = Ok s -> kept D s = ks1 ++ None :: ks2 -> dbg = false ->
  do_act D W L dbg cfg beh f (AScheduleKept D (length ks1)) s = UB.
Proof. exact @null_kept_thm. Qed.
Print Assumptions C107_null.

(** An event scheduled at 0 for 10 and, through another pointer to it, at 5 again: both entries are due at 15; nothing fires at
    10. *)
Theorem C107_copy_refuted : exists s1 s2 s3 s4, erun true (mkCfg 3 2 2 false 500 1000000) quiet [att 0 7; kept_op 0 10 1] = Ok s1 /\
  schedule_copy nat 64 true 0 s1 = Ok s2 /\ schedule_copy nat 64 true 0 (advance nat 5 s2) = Ok s3 /\
  scheds nat (s_log nat s3) = [(10%Z, (0, 1)); (15%Z, (0, 1))] /\ plist s3 = [Some (15%Z, (0, 1)); Some (15%Z, (0, 1))] /\
  loop nat 64 u16 true (mkCfg 3 2 2 false 500 1000000) quiet 5 (advance nat 5 s3) = Ok s4 /\ fires nat (s_log nat s4) = [].
Proof.
  do 4 eexists. split; [vm_compute; reflexivity|]. split; [vm_compute; reflexivity|]. split; [vm_compute; reflexivity|].
  split; [vm_compute; reflexivity|]. split; [vm_compute; reflexivity|]. split; vm_compute; reflexivity.
Qed.
Print Assumptions C107_copy_refuted.
