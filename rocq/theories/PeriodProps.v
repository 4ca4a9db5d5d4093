(** Property C131: tasks which an event system runs again and again, each after its own period. A task is an event whose handler
    schedules it again (PeriodSpec). *)
From Coq Require Import List Arith ZArith Bool Lia.
From Verif Require Import Base KTimeModel KTimeProofs PoolModel PoolProps EvModel EvSpec PeriodSpec PeriodProofs.
Import ListNotations.
Local Open Scope nat_scope.

(** Any number of tasks with any periods, started at any time and looked after at any moments: each runs at the first call of
    loop() at which its period has passed since its last run, and never else, whatever the others do; no call fails. Proved for
    clocks up to 2^24 milliseconds (4.6 hours), periods less than that, and one event slot more than there are tasks. Missing:
    later clocks (C131_tasks_later_partial, C131_returns_refuted) and as many slots as tasks (C131_spare_refuted). *)
Theorem C131_tasks_partial :
  forall D nodata W L dbg cfg, cfg_ok W L cfg ->
  forall ks, NoDup (map t_id ks) -> length ks < c_cap cfg -> 0 < c_handler_cap cfg ->
  (forall k, In k ks -> t_id k < c_count cfg) -> (forall k, In k ks -> 0 < t_every k < 2 ^ 24 - 1)%Z ->
  forall till fuel now dts, (till < 2 ^ 24)%Z -> length ks <= fuel -> (0 <= now <= till)%Z ->
  exists s0 ts s, run D W L dbg cfg (again D ks) fuel (start D ks) (es_new D nodata cfg now) = Ok s0 /\
    rounds D W L dbg cfg (again D ks) till fuel dts s0 = Ok (ts, s) /\ (length ts = length dts \/ (till < s_now D s)%Z) /\
    forall k, In k ks -> called D (t_id k) (s_log D s) =
      map (fun t => (t_id k, t, t_data k)) (ticks (fun t => t) (t_every k) (now + t_every k) ts).
Proof.
  intros D nodata W L dbg cfg Hcfg ks Hnd Hcap Hh Hc Hk till fuel now dts Ht Hf Hn.
  destruct (tasks_run D nodata W L dbg cfg Hcfg ks till Hnd Hcap Hh Hc) with (fuel := fuel) (now := now) (dts := dts) as (s0 & ts & s & A & B & C & F & G); auto.
  { intros k Hin. specialize (Hk k Hin). lia. }
  exists s0, ts, s. split; [exact A|]. split; [exact B|]. split; [exact C|]. intros k Hin. rewrite (G k Hin).
  rewrite ticks_exact; [reflexivity|]. eapply Forall_impl; [|exact F]. cbn beta. intros. lia.
Qed.
Print Assumptions C131_tasks_partial.

(** At any time: with the clock as the kernel's arithmetic sees it ([near24], C26_clock), as long as the periods are longer than
    the 2^24th part of the uptime, for example periods over 1880 milliseconds within the first year. *)
Theorem C131_tasks_later_partial :
  forall D nodata W L dbg cfg, cfg_ok W L cfg ->
  forall ks, NoDup (map t_id ks) -> length ks < c_cap cfg -> 0 < c_handler_cap cfg ->
  (forall k, In k ks -> t_id k < c_count cfg) ->
  forall till, (forall k, In k ks -> 0 < t_every k /\ 2 ^ 24 * t_every k + till < 2 ^ 48 /\ till < 2 ^ 24 * t_every k)%Z ->
  forall fuel now dts, length ks <= fuel -> (0 <= now <= till)%Z ->
  exists s0 ts s, run D W L dbg cfg (again D ks) fuel (start D ks) (es_new D nodata cfg now) = Ok s0 /\
    rounds D W L dbg cfg (again D ks) till fuel dts s0 = Ok (ts, s) /\ (length ts = length dts \/ (till < s_now D s)%Z) /\
    forall k, In k ks -> called D (t_id k) (s_log D s) =
      map (fun t => (t_id k, t, t_data k)) (ticks near24 (t_every k) (now + t_every k) ts).
Proof.
  intros D nodata W L dbg cfg Hcfg ks Hnd Hcap Hh Hc till Hk fuel now dts Hf Hn.
  destruct (tasks_run D nodata W L dbg cfg Hcfg ks till Hnd Hcap Hh Hc) with (fuel := fuel) (now := now) (dts := dts) as (s0 & ts & s & A & B & C & F & G); auto.
  exists s0, ts, s. auto.
Qed.
Print Assumptions C131_tasks_later_partial.

(** Two tasks, looked after at uneven moments *)
Definition blink : list (task nat) := [mkTask 0 100 5; mkTask 2 30 6].
Definition looks : list N := [40; 20; 10; 60; 5; 80]%N.
Definition quick : config := mkCfg 3 3 1 false 0 0.
Lemma quick_ok : cfg_ok 64 u16 quick.
Proof. unfold cfg_ok, quick, u16; cbn [c_cap c_handler_cap c_min_us c_max_us]. repeat split; lia. Qed.
Example C131_case : cfg_ok 64 u16 quick /\ NoDup (map t_id blink) /\ length blink < c_cap quick /\
  exists s0 s, run nat 64 u16 true quick (again nat blink) 2 (start nat blink) (es_new nat 0 quick 1000) = Ok s0 /\
    rounds nat 64 u16 true quick (again nat blink) 100000 2 looks s0 = Ok ([1040; 1060; 1070; 1130; 1135; 1215]%Z, s) /\
    called nat 0 (s_log nat s) = [(0, 1130%Z, 5)] /\
    called nat 2 (s_log nat s) = [(2, 1040%Z, 6); (2, 1070%Z, 6); (2, 1130%Z, 6); (2, 1215%Z, 6)].
Proof.
  split; [exact quick_ok|]. split; [repeat constructor; cbn; lia|]. split; [cbn; lia|].
  do 2 eexists. split; [vm_compute; reflexivity|]. split; [vm_compute; reflexivity|]. split; vm_compute; reflexivity.
Qed.

(** Two seconds, after a year of uptime: the second run comes 24 milliseconds early. *)
Example C131_later_case : (2 ^ 24 * 2000 + 31536009000 < 2 ^ 48 /\ 31536009000 < 2 ^ 24 * 2000)%Z /\
  exists s0 s, run nat 64 u16 true quick (again nat [mkTask 0 2000 5]) 1 (start nat [mkTask 0 2000 5]) (es_new nat 0 quick 31535996100) = Ok s0 /\
    rounds nat 64 u16 true quick (again nat [mkTask 0 2000 5]) 31536009000 1 [2000; 1976; 900]%N s0
      = Ok ([31535998100; 31536000076; 31536000976]%Z, s) /\
    called nat 0 (s_log nat s) = [(0, 31535998100%Z, 5); (0, 31536000076%Z, 5)].
Proof. split; [lia|]. do 2 eexists. split; [vm_compute; reflexivity|]. split; vm_compute; reflexivity. Qed.

(** False without a spare slot: the event is still held while its handler runs, so that a system with as many slots as tasks
    halts at the first run in a debug build; a release build dereferences null. *)
Theorem C131_spare_refuted : exists cfg (ks : list (task nat)), cfg_ok 64 u16 cfg /\ NoDup (map t_id ks) /\ length ks = c_cap cfg /\
  forall dbg, exists s0, run nat 64 u16 dbg cfg (again nat ks) 20 (start nat ks) (es_new nat 0 cfg 0) = Ok s0 /\
    rounds nat 64 u16 dbg cfg (again nat ks) 1000 20 [100%N] s0 = if dbg then Halt else UB.
Proof.
  exists (mkCfg 1 1 1 false 0 0), [mkTask 0 100 5]. split; [unfold cfg_ok, u16; cbn; repeat split; lia|]. split; [repeat constructor; cbn; lia|].
  split; [reflexivity|]. intros dbg. destruct dbg; eexists; (split; [vm_compute; reflexivity|vm_compute; reflexivity]).
Qed.
Print Assumptions C131_spare_refuted.

(** False late: after a year, a task with a period of one second can be due again, in the kernel's arithmetic, at the moment it
    runs. loop() does not return then before the clock has moved on. (The clock of the model stands still during a call, so
    that here it never returns.) *)
Theorem C131_returns_refuted : exists cfg (ks : list (task nat)) now, cfg_ok 64 u16 cfg /\ NoDup (map t_id ks) /\ length ks < c_cap cfg /\
  forall dbg fuel, exists s0, run nat 64 u16 dbg cfg (again nat ks) fuel (start nat ks) (es_new nat 0 cfg now) = Ok s0 /\
    rounds nat 64 u16 dbg cfg (again nat ks) (2 * now) fuel [1000%N] s0 = Fuel.
Proof.
  exists quick, [mkTask 0 1000 5], 31535999001%Z. split; [exact quick_ok|]. split; [repeat constructor; cbn; lia|]. split; [cbn; lia|].
  intros dbg fuel. apply hangs; try exact quick_ok; cbn [t_id t_every c_count c_cap c_handler_cap quick]; try lia; vm_compute; discriminate.
Qed.
Print Assumptions C131_returns_refuted.

(** ... and if the handler takes 30 milliseconds, a task with a period of 990 runs again after 30. *)
Theorem C131_early_refuted : exists s0 s,
  run nat 64 u16 true quick (fun l => AWait nat 30 :: again nat [mkTask 0 990 5] l) 20 (start nat [mkTask 0 990 5]) (es_new nat 0 quick 31535999001) = Ok s0 /\
  rounds nat 64 u16 true quick (fun l => AWait nat 30 :: again nat [mkTask 0 990 5] l) 40000000000 20 [1000%N] s0 = Ok ([31536000001%Z], s) /\
  called nat 0 (s_log nat s) = [(0, 31536000001%Z, 5); (0, 31536000031%Z, 5)].
Proof. do 2 eexists. split; [vm_compute; reflexivity|]. split; vm_compute; reflexivity. Qed.
Print Assumptions C131_early_refuted.
