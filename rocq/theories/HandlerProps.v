(** Properties C132, C133: EventHandler and EventSystem::detach, eventsystem/eventsystem.hpp. *)
From Coq Require Import List Arith ZArith Bool Lia.
From Verif Require Import Base PoolModel PoolProps EvModel EvSpec HandlerModel HandlerProofs.
Import ListNotations.
Local Open Scope nat_scope.

(** C132. In a debug build a program gets to evsys() exactly if the handler was given one event system, when it was constructed or
    later; that is the one evsys() returns. Missing: release builds, see C132_release_refuted. *)
Theorem C132_one_partial : forall p ps q,
  (exists h, attach_all true ps (handler_new p) = Ok h /\ evsys true h = Ok q) <->
  exists n, q = Some n /\ (p :: ps = [Some n] \/ p :: ps = [None; Some n]).
Proof.
  intros p ps q. split.
  - intros (h & H & E). destruct (attach_debug ps _ _ H) as [[-> ->]|(n & -> & E0 & ->)].
    + unfold evsys, handler_new in E. cbn [h_evsys] in E. destruct p as [n|]; cbn [isnull negb sassert bind] in E; [|discriminate].
      exists n. split; [congruence|left; reflexivity].
    + unfold handler_new in E0. cbn [h_evsys] in E0. subst p. unfold evsys in E. cbn [h_evsys isnull negb sassert bind] in E.
      exists n. split; [congruence|right; reflexivity].
  - intros (n & -> & [E|E]); inversion E; subst; eexists; split; reflexivity.
Qed.
Print Assumptions C132_one_partial.
Example C132_case : attach_all true [Some 3] (handler_new None) = Ok (mkHandler (Some 3)) /\ evsys true (mkHandler (Some 3)) = Ok (Some 3) /\
  attach_all true [Some 3] (handler_new (Some 4)) = Halt /\ attach_all true [None] (handler_new None) = Halt /\ evsys true (handler_new None) = Halt.
Proof. repeat split. Qed.

(** A release build returns what was given last. *)
Theorem C132_release : forall p ps, exists h, attach_all false ps (handler_new p) = Ok h /\ evsys false h = Ok (last (p :: ps) None).
Proof.
  intros p ps. eexists. split; [apply attach_release|]. unfold evsys. rewrite sassert_release. cbn [bind h_evsys handler_new]. f_equal.
  destruct ps as [|q ps]; [reflexivity|]. change (last (p :: q :: ps) None) with (last (q :: ps) None). apply last_indep. discriminate.
Qed.
Print Assumptions C132_release.
Example C132_release_case : attach_all false [Some 3; None; Some 5] (handler_new (Some 4)) = Ok (mkHandler (Some 5)).
Proof. reflexivity. Qed.

(** False of release builds: a handler is moved to another event system, or left without one, without a sign. *)
Theorem C132_release_refuted :
  (exists h, attach_all false [Some 5] (handler_new (Some 4)) = Ok h /\ evsys false h = Ok (Some 5)) /\
  (exists h, attach_all false [None] (handler_new (Some 4)) = Ok h /\ evsys false h = Ok None).
Proof. split; eexists; split; reflexivity. Qed.
Print Assumptions C132_release_refuted.

(** C133. False: a handler that was detached is called as before in a release build, and a debug build refuses every detach. *)
Definition lone : config := mkCfg 1 2 1 false 0 0.
Theorem C133_detached_refuted : exists s s1 s2,
  run nat 64 u16 false lone (fun _ => []) 5 [OAct nat (AAttach nat 0 7)] (es_new nat 0 lone 0) = Ok s /\ detach nat false 7 s = Ok s1 /\
  do_act nat 64 u16 false lone (fun _ => []) 5 (ATrigger nat 0 1) s1 = Ok s2 /\ s_log nat s2 = [LCall nat 7 0 1 0] /\
  detach nat true 7 s = Halt.
Proof. do 3 eexists. repeat (split; [vm_compute; reflexivity|]). vm_compute. reflexivity. Qed.
Print Assumptions C133_detached_refuted.
