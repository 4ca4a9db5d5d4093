(** Property C114: eventsystem/eventsystem.{hpp,cpp}, handlers which throw. *)
From Coq Require Import List Arith ZArith Lia Bool Sorting.Sorted.
From Verif Require Import Base KTimeModel KTimeProofs TimersModel VectorModel VectorSpec PoolModel EvModel EvSpec EvTrace EvThms EvProps PoolProps FlingModel FlingSpec FlingProofs.
Import ListNotations.
Local Open Scope nat_scope.

(** Throughout: [ops] is any program of the event system's calls, each of which the program makes in a try block, going on
    with the next whatever was thrown; [beh] says what the handlers do, which may be any of these calls again, with or without a
    try block around it, and throwing. *)

(** As long as no handler throws this is the event system of C25-C29 and C107. *)
Theorem C114_calm :
  forall D W L dbg cfg fbeh beh, (forall l, calm D (fbeh l) (beh l)) ->
  (forall fuel a s, fdo_act D W L dbg cfg fbeh fuel a s = (s1 <- do_act D W L dbg cfg beh fuel a s ;; Ok (false, s1))) /\
  forall fuel ops s, frun D W L dbg cfg fbeh fuel ops s = run D W L dbg cfg beh fuel (map (OAct D) ops) s.
Proof. intros. split; intros; [apply agree_act; auto|apply agree_run; auto]. Qed.
Print Assumptions C114_calm.

(** The handlers of the examples: handler 7 schedules an event with id 1 and throws; handler 8 does nothing *)
Definition thrower (l : list (entry nat)) : list (hact nat) :=
  match rev l with LCall _ 7 _ _ _ :: _ => [HAct nat (ASchedule nat 1 10 9); HThrow nat] | _ => [] end.
Definition frun1 (dbg : bool) (cfg : config) (beh : list (entry nat) -> list (hact nat)) (ops : list (act nat)) : outcome (es nat) :=
  frun nat 64 u16 dbg cfg beh 20 ops (es_new nat 0 cfg 0).
Definition fcfg : config := mkCfg 3 4 2 false 500 1000000.
Example C114_calm_case : calm nat [HAct nat (ALoop nat); HTry nat (ASchedule nat 1 10 9)] [ALoop nat; ASchedule nat 1 10 9].
Proof. repeat constructor. Qed.

(** Whatever was thrown: the events scheduled are those fired and those pending, each as often as it was scheduled, so that the
    event whose handler threw does not come back and no other is lost; none fired early; the events the program keeps are as they
    were; never more than events_cap. *)
Theorem C114_none_lost :
  forall D nodata W L dbg cfg beh, cfg_ok W L cfg ->
  forall fuel now ops s, (0 <= now)%Z ->
  frun D W L dbg cfg beh fuel ops (es_new D nodata cfg now) = Ok s ->
  exists l, pending D W s l /\ none_lost D (s_log D s) l /\ hardly_early D (s_log D s) /\
    ((s_now D s <= 2 ^ 24)%Z -> not_early D (s_log D s)) /\ length l + held D (kept D s) <= c_cap cfg /\ keeps D (s_log D s) (kept D s).
Proof. exact @flost_thm. Qed.
Print Assumptions C114_none_lost.
(** Two events due, the handler of the first throws: the second stays pending until the next loop() *)
Example C114_none_lost_case :
  let ops := [AAttach nat 0 7; AAttach nat 1 8; ASchedule nat 0 5 1; ASchedule nat 1 6 2; AWait nat 6; ALoop nat] in
  (exists s, frun1 true fcfg thrower ops = Ok s /\ fires nat (s_log nat s) = [(5%Z, (0, 1))] /\
     plist s = [Some (6%Z, (1, 2)); Some (16%Z, (1, 9))]) /\
  (exists s, frun1 true fcfg thrower (ops ++ [ALoop nat]) = Ok s /\ fires nat (s_log nat s) = [(5%Z, (0, 1)); (6%Z, (1, 2))] /\
     plist s = [Some (16%Z, (1, 9))]).
Proof.
  cbv zeta. split; eexists; (split; [vm_compute; reflexivity|]); split; vm_compute; reflexivity.
Qed.

(** The slots of events whose handlers threw are free again: scheduling works whenever fewer than events_cap are pending or
    kept. *)
Theorem C114_slots :
  forall D nodata W L dbg cfg beh, cfg_ok W L cfg ->
  forall fuel now ops s id t d l, (0 <= now)%Z ->
  frun D W L dbg cfg beh fuel ops (es_new D nodata cfg now) = Ok s -> pending D W s l ->
  (length l + held D (kept D s) < c_cap cfg -> (dbg = false \/ 0 < t)%Z -> exists s' l1 l2, schedule D W L dbg id t d s = Ok s' /\ l = l1 ++ l2 /\
     pending D W s' (l1 ++ (s_now D s + near24 t, (id, d))%Z :: l2) /\ s_now D s' = s_now D s /\ kept D s' = kept D s) /\
  (length l + held D (kept D s) = c_cap cfg -> schedule D W L dbg id t d s = if dbg then Halt else UB).
Proof. exact @fschedule_thm. Qed.
Print Assumptions C114_slots.
(** One slot, used for three events whose handler throws *)
Definition bad (l : list (entry nat)) : list (hact nat) := [HThrow nat].
Example C114_slots_case : exists s s', frun1 true one bad
    [AAttach nat 0 7; ASchedule nat 0 5 1; AWait nat 5; ALoop nat; ATrigger nat 0 2; ATrigger nat 0 3] = Ok s /\
  plist s = [] /\ kept nat s = [] /\ length (filter (fun x => match x with LCall _ _ _ _ _ => true | _ => false end) (s_log nat s)) = 3 /\
  schedule nat 64 u16 true 0 5 4 s = Ok s' /\ plist s' = [Some (10%Z, (0, 4))].
Proof. do 2 eexists. split; [vm_compute; reflexivity|]. split; [|split; [|split; [|split]]]; vm_compute; reflexivity. Qed.

(** In order: the pending events are in the order of their due times; for each due time those scheduled are those fired followed
    by those pending; when an event fires all those due earlier have fired, also those a loop() that was left by an exception
    did not get to. Missing: longer delays, see C25_order_refuted. *)
Theorem C114_order_partial :
  forall D nodata W L dbg cfg beh, cfg_ok W L cfg ->
  forall T N, (2 ^ 24 * T + N < 2 ^ 48)%Z -> (forall l, Forall (ftame D T) (beh l)) ->
  forall fuel now ops s, (0 <= now)%Z -> Forall (tame D T) ops ->
  frun D W L dbg cfg beh fuel ops (es_new D nodata cfg now) = Ok s -> (s_now D s <= N)%Z ->
  exists l, pending D W s l /\ StronglySorted (fun x y => (fst x <= fst y)%Z) l /\ once D (s_log D s) l /\ in_order D (s_log D s).
Proof. exact @ftrace_thm. Qed.
Print Assumptions C114_order_partial.
Example C114_order_case : exists s, frun1 true fcfg thrower
    [AAttach nat 0 7; AAttach nat 1 8; AAttach nat 2 8; ASchedule nat 2 7 3; ASchedule nat 0 5 1; ASchedule nat 1 6 2; AWait nat 7; ALoop nat; AWait nat 10; ALoop nat] = Ok s /\
  fires nat (s_log nat s) = [(5%Z, (0, 1)); (6%Z, (1, 2)); (7%Z, (2, 3)); (17%Z, (1, 9))] /\ plist s = [].
Proof. eexists. split; [vm_compute; reflexivity|]. split; vm_compute; reflexivity. Qed.

(** A loop() that returns has left nothing due, whatever was thrown before. *)
Theorem C114_none_left_partial :
  forall D nodata W L dbg cfg beh, cfg_ok W L cfg ->
  forall T N, (2 ^ 24 * T + N < 2 ^ 48)%Z -> (forall l, Forall (ftame D T) (beh l)) ->
  forall fuel now ops s f s', (0 <= now)%Z -> Forall (tame D T) ops ->
  frun D W L dbg cfg beh fuel ops (es_new D nodata cfg now) = Ok s -> fdo_act D W L dbg cfg beh f (ALoop D) s = Ok (false, s') ->
  (s_now D s' <= N)%Z ->
  forall l, pending D W s' l -> Forall (fun x : pend D => near24 (s_now D s' - (if c_delay cfg then slept D (s_log D s') else 0)) < fst x)%Z l.
Proof. exact @floop_clears. Qed.
Print Assumptions C114_none_left_partial.
Example C114_none_left_case : exists s s', frun1 true fcfg thrower
    [AAttach nat 0 7; AAttach nat 1 8; ASchedule nat 0 5 1; ASchedule nat 1 6 2; AWait nat 6; ALoop nat] = Ok s /\
  plist s = [Some (6%Z, (1, 2)); Some (16%Z, (1, 9))] /\ s_now nat s = 6%Z /\
  fdo_act nat 64 u16 true fcfg thrower 20 (ALoop nat) s = Ok (false, s') /\ plist s' = [Some (16%Z, (1, 9))].
Proof. do 2 eexists. split; [vm_compute; reflexivity|]. split; [|split; [|split]]; vm_compute; reflexivity. Qed.

(** trigger() calls the handlers attached to the id in order, all of them if it returns; if an exception leaves it, those up to
    some handler, and no more. *)
Theorem C114_trigger :
  forall D nodata W L dbg cfg beh, cfg_ok W L cfg ->
  forall fuel now ops s id d hs f b s', (0 <= now)%Z ->
  frun D W L dbg cfg beh fuel ops (es_new D nodata cfg now) = Ok s -> handlers D W s id hs ->
  fdo_act D W L dbg cfg beh f (ATrigger D id d) s = Ok (b, s') ->
  exists hs1 hs2, hs = hs1 ++ hs2 /\ calls_in D id d hs1 (s_log D s) (s_log D s') /\ if (b : bool) then hs1 <> [] else hs2 = [].
Proof. exact @ftrigger_thm. Qed.
Print Assumptions C114_trigger.
Example C114_trigger_case : exists s s', frun1 true fcfg thrower [AAttach nat 0 7; AAttach nat 0 8] = Ok s /\
  map (fun v => firstn (vsize v) (vst v)) (s_map nat s) = [[Some 7; Some 8]; []; []] /\
  fdo_act nat 64 u16 true fcfg thrower 20 (ATrigger nat 0 3) s = Ok (true, s') /\
  s_log nat s' = [LCall nat 7 0 3 0; LSched nat 10 1 9].
Proof. do 2 eexists. split; [vm_compute; reflexivity|]. split; [|split]; vm_compute; reflexivity. Qed.

(** What a handler that throws does to others: handler 8, attached to the same id after handler 7, is not told of the event, then
    or later. *)
Theorem C114_others_refuted : exists s, frun1 true fcfg (fun l => match rev l with LCall _ 7 _ _ _ :: _ => [HThrow nat] | _ => [] end)
    [AAttach nat 0 7; AAttach nat 0 8; ASchedule nat 0 5 1; AWait nat 5; ALoop nat; AWait nat 1000; ALoop nat] = Ok s /\
  s_log nat s = [LSched nat 5 0 1; LFire nat 5 0 1 5; LCall nat 7 0 1 5] /\ plist s = [].
Proof. eexists. split; [vm_compute; reflexivity|]. split; vm_compute; reflexivity. Qed.
Print Assumptions C114_others_refuted.
