(** Properties C22-C24: structure/pool.hpp. *)
From Coq Require Import List Arith ZArith Lia Bool.
From Verif Require Import Base VectorModel VectorSpec VectorProofs PoolModel PoolSpec PoolProofs.
Import ListNotations.

(** The lookup index is a uint16_t (pool.hpp:85). *)
Definition u16 : nat := Z.to_nat 65536.

(** C22. Whatever was done with a pool before, in whichever build, an object returned by acquire has no reference left that
    was handed out or taken earlier, is in the pool exactly once, and stays there. *)
Theorem C22_exclusive :
  forall W L n ops xs w dbg fuel o w', (Z.of_nat n < 2 ^ W)%Z ->
  pexec W L (mkPW (pool_new n) []) ops xs w -> pstep W L dbg fuel w PAcquire = Ok (PPtr (Some o), w') ->
  outstanding o ops xs 0 = 0 /\
  (forall l, pshows W w l -> count_occ sptr_dec l (Some o) = 1 /\ pshows W w' l).
Proof. exact @exclusive. Qed.
Print Assumptions C22_exclusive.

(** Every reachable pool shows some list of pointers. *)
Theorem C22_reachable_shows : forall W L w, preachable W L w -> exists l, pshows W w l.
Proof. exact @reach_shows. Qed.
Print Assumptions C22_reachable_shows.

Definition pdemo : list pop :=
  [PPopulate (Some 7); PPopulate (Some 8); PPopulate (Some 9); PAcquire; PAcquire; PHold 8; PRelease 7; PRelease 8].

Lemma prun_pexec W L dbg fuel ops w xs w' : prun W L dbg fuel w ops = Ok (xs, w') -> pexec W L w ops xs w'.
Proof.
  revert w xs. induction ops as [|op ops IH]; intros w xs H; cbn [prun] in H.
  - inversion H; subst. constructor.
  - destruct (pstep W L dbg fuel w op) as [[x w1]| | | |] eqn:E; cbn [bind] in H; try discriminate.
    destruct (prun W L dbg fuel w1 ops) as [[xs' w2]| | | |] eqn:E2; cbn [bind] in H; try discriminate. inversion H; subst.
    apply (pexec_app W L w [op] [x] w1 ops xs' w'); auto.
    apply (px_snoc W L dbg fuel w [] [] w op x w1); auto. constructor.
Qed.

(** Three objects, two handed out, the first of them released, 8 once of twice: 9 is handed out next; 8 has one reference left. *)
Example C22_case : exists w w', pexec 64 u16 (mkPW (pool_new 3) []) pdemo
    [PUnit; PUnit; PUnit; PPtr (Some 7); PPtr (Some 8); PUnit; PUnit; PUnit] w /\
  pstep 64 u16 true 3 w PAcquire = Ok (PPtr (Some 9), w') /\
  outstanding 7 pdemo [PUnit; PUnit; PUnit; PPtr (Some 7); PPtr (Some 8); PUnit; PUnit; PUnit] 0 = 0 /\
  outstanding 8 pdemo [PUnit; PUnit; PUnit; PPtr (Some 7); PPtr (Some 8); PUnit; PUnit; PUnit] 0 = 1.
Proof.
  do 2 eexists. split; [|split; [|split]].
  - apply (prun_pexec 64 u16 true 3). vm_compute. reflexivity.
  - vm_compute. reflexivity.
  - reflexivity.
  - reflexivity.
Qed.

(** C23. Pools of at most 65535 objects: acquire returns (within as many rounds as there are objects; in a debug build the
    pool has to be fully populated), does not change what is pooled, and returns null exactly if every pooled object is
    referred to more than once. Missing: larger pools, see C23_large_pool_refuted. *)
Theorem C23_complete_partial :
  forall W dbg w l fuel, preachable W u16 w -> pshows W w l -> length l < u16 -> length l <= fuel ->
  dbg = false \/ length l = vmax (pv (ppool w)) ->
  exists r w', pstep W u16 dbg fuel w PAcquire = Ok (PPtr r, w') /\ pshows W w' l /\
    (r = None <-> forall o, In (Some o) l -> 2 <= count_occ sptr_dec l (Some o) + count_occ Nat.eq_dec (prefs w) o).
Proof. intros W. exact (@complete W u16). Qed.
Print Assumptions C23_complete_partial.

(** C23. Which free object: the first one from the remembered position on, wrapping around. *)
Theorem C23_order_partial :
  forall W dbg w l fuel, preachable W u16 w -> pshows W w l -> length l < u16 -> length l <= fuel ->
  dbg = false \/ length l = vmax (pv (ppool w)) ->
  exists w', pstep W u16 dbg fuel w PAcquire =
    Ok (PPtr (match find (free_in l (prefs w)) (skipn (plook (ppool w)) l ++ firstn (plook (ppool w)) l) with Some x => x | None => None end), w').
Proof. intros W. exact (@order W u16). Qed.
Print Assumptions C23_order_partial.

Example C23_case : exists w, preachable 64 u16 w /\ pshows 64 w [Some 7; Some 8; Some 9] /\
  (exists w', pstep 64 u16 true 3 w PAcquire = Ok (PPtr (Some 9), w')).
Proof.
  eexists. split; [|split].
  - exists 3, pdemo. eexists. split; [lia|]. apply (prun_pexec 64 u16 true 3). vm_compute. reflexivity.
  - vm_compute. split; reflexivity.
  - eexists. vm_compute. reflexivity.
Qed.
Example C23_case_none : exists w w', preachable 64 u16 w /\ pshows 64 w [Some 0; Some 1] /\
  pstep 64 u16 true 2 w PAcquire = Ok (PPtr None, w').
Proof.
  exists (busy 2). eexists. destruct (busy_reachable 64 u16 2 ltac:(lia)) as [H1 H2]. split; [exact H1|]. split; [exact H2|].
  vm_compute. reflexivity.
Qed.

Lemma stuck n : u16 <= n -> (Z.of_nat n < 2 ^ 64)%Z ->
  preachable 64 u16 (busy n) /\ pshows 64 (busy n) (map Some (seq 0 n)) /\ forall dbg fuel, pstep 64 u16 dbg fuel (busy n) PAcquire = Fuel.
Proof.
  intros H1 H2. destruct (busy_reachable 64 u16 n H2) as [Hr Hl]. split; [exact Hr|]. split; [exact Hl|].
  intros dbg fuel. apply busy_stuck; auto. unfold u16. lia.
Qed.

(** C23 is false for a pool of 65536 objects or more which are all in use: the 16 bit index never reaches the end and
    acquire does not return, however many rounds it runs. *)
Theorem C23_large_pool_refuted : exists w n, preachable 64 u16 w /\ pshows 64 w (map Some (seq 0 n)) /\ forall dbg fuel, pstep 64 u16 dbg fuel w PAcquire = Fuel.
Proof. exists (busy u16), u16. apply stuck; [apply le_n | unfold u16; lia]. Qed.
Print Assumptions C23_large_pool_refuted.
(** Every size from 65536 *)
Theorem C23_large_pool :
  forall n, u16 <= n -> (Z.of_nat n < 2 ^ 64)%Z ->
  exists w, preachable 64 u16 w /\ pshows 64 w (map Some (seq 0 n)) /\ forall dbg fuel, pstep 64 u16 dbg fuel w PAcquire = Fuel.
Proof.
  intros n H1 H2. exists (busy n). now apply stuck.
Qed.
Print Assumptions C23_large_pool.
Example C23_large_pool_case : u16 <= u16 /\ (Z.of_nat u16 < 2 ^ 64)%Z.
Proof. split; [apply le_n|]. unfold u16. lia. Qed.

(** C24. What destroying a pool of n objects does: for n <= 1 every object is released; otherwise a debug build halts and a
    release build leaves the last n / 2 objects unreleased. Missing: the release of the rest, see C24_destroy_refuted. *)
Theorem C24_destroy_partial :
  forall W L dbg w l, preachable W L w -> pshows W w l ->
  if length l <=? 1 then exists p, pool_destroy dbg (ppool w) = Ok p /\ vholds W (pv p) [] /\ Forall (fun x => x = None) (vst (pv p))
  else (dbg = true -> pool_destroy dbg (ppool w) = Halt) /\
       (dbg = false -> exists p, pool_destroy dbg (ppool w) = Ok p /\ vholds W (pv p) (skipn ((length l + 1) / 2) l)).
Proof. exact @destroy_exact. Qed.
Print Assumptions C24_destroy_partial.

(** C24. An event system destroys its store in two such passes. *)
Theorem C24_event_system_partial :
  forall W L w l, preachable W L w -> pshows W w l ->
  exists p, evsys_store_destroy false (ppool w) = Ok p /\
    vholds W (pv p) (skipn ((length l / 2 + 1) / 2) (skipn ((length l + 1) / 2) l)) /\
  (2 <= length l -> evsys_store_destroy true (ppool w) = Halt).
Proof. exact @evsys_destroy_exact. Qed.
Print Assumptions C24_event_system_partial.

Example C24_case : preachable 64 u16 (busy 5) /\ pshows 64 (busy 5) (map Some (seq 0 5)) /\
  exists p, pool_destroy false (ppool (busy 5)) = Ok p /\ vholds 64 (pv p) [Some 3; Some 4].
Proof.
  destruct (busy_reachable 64 u16 5 ltac:(lia)) as [H1 H2]. split; [exact H1|]. split; [exact H2|].
  eexists. split; [vm_compute; reflexivity|]. vm_compute. split; reflexivity.
Qed.
Example C24_case_one : exists p, pool_destroy true (ppool (busy 1)) = Ok p /\ vholds 64 (pv p) [].
Proof. eexists. split; [vm_compute; reflexivity|]. vm_compute. split; reflexivity. Qed.

(** C24 is false: a pool of two objects. The release build keeps a reference to the second one forever, the debug build
    halts; the event system with a pool of 4 loses one. *)
Theorem C24_destroy_refuted :
  exists w p, preachable 64 u16 w /\ pshows 64 w [Some 0; Some 1] /\ pool_destroy false (ppool w) = Ok p /\
    In (Some 1) (vst (pv p)) /\ pool_destroy true (ppool w) = Halt.
Proof.
  exists (busy 2). eexists. destruct (busy_reachable 64 u16 2 ltac:(lia)) as [H1 H2]. split; [exact H1|]. split; [exact H2|].
  split; [vm_compute; reflexivity|]. split; [vm_compute; auto|vm_compute; reflexivity].
Qed.
Print Assumptions C24_destroy_refuted.
Theorem C24_event_system_refuted :
  exists w p, preachable 64 u16 w /\ evsys_store_destroy false (ppool w) = Ok p /\ In (Some 3) (vst (pv p)).
Proof.
  exists (busy 4). eexists. destruct (busy_reachable 64 u16 4 ltac:(lia)) as [H1 H2]. split; [exact H1|].
  split; [vm_compute; reflexivity|]. vm_compute; auto.
Qed.
Print Assumptions C24_event_system_refuted.
