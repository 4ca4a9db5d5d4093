(** * C136: ring buffers, line buffers and vectors free the storages they allocated, and no others *)
From Coq Require Import List Arith Bool ZArith Ascii Lia.
From Verif Require Import Base RingOps RingModel LineModel VectorModel VectorSpec ShareModel ShareSpec ShareProofs ShareInst FreedSpec FreedProofs.
Import ListNotations.

(** All programs that construct, copy, move, assign, destroy and call. Missing for the full claim: storages of objects that are assigned to
    are lost, as the theorem says and the refutations below show. *)
Theorem C136_freed_partial : forall (A : Type) (zero : A) (moved : A -> A) (W : Z) (dbg : bool),
  frees (ring_cls A zero W dbg) (fun _ => false) (fun _ => false) /\ frees (line_cls W dbg) (fun _ => false) (fun _ => false) /\
  frees (vec_cls A zero moved W dbg) vec_given vec_replaces.
Proof.
  intros. splits; apply frees_thm.
  - apply ring_fixed.
  - intros n e hd st E. cbn [make ring_cls] in E. destruct (ring_new dbg (fst n) (snd n)); try discriminate. cbn [bind] in E. congruence.
  - reflexivity.
  - apply line_fixed.
  - intros n e hd st E. cbn [make line_cls] in E. destruct (line_new dbg (fst n)); try discriminate. cbn [bind] in E. congruence.
  - reflexivity.
  - apply vec_fixed.
  - intros [n|n x|l|l k] e hd st E; cbn [make vec_cls] in E; cbn [vec_given]; congruence.
  - reflexivity.
Qed.
Print Assumptions C136_freed_partial.

Theorem C136_once : forall (A : Type) (zero : A) (moved : A -> A) (W : Z) (dbg : bool),
  freeable (ring_cls A zero W dbg) (fun _ => false) /\ freeable (line_cls W dbg) (fun _ => false) /\ freeable (vec_cls A zero moved W dbg) vec_replaces.
Proof.
  intros. splits; apply freeable_thm.
  - apply ring_fixed.
  - reflexivity.
  - discriminate.
  - apply line_fixed.
  - reflexivity.
  - discriminate.
  - apply vec_fixed.
  - reflexivity.
  - intros hd st o Ho. destruct o; discriminate.
Qed.
Print Assumptions C136_once.

(** Assigning to a vector or a ring buffer, even by moving, loses the storage it had. *)
Theorem C136_vec_refuted : exists ops xs h, srun (vec_cls nat 0 (fun _ => 0) 64 true) nothing ops = Ok (xs, h) /\ all_gone h /\
  exists b, nth_error (storages vec_given vec_replaces ops) b = Some false /\ ~ is_freed h b.
Proof.
  exists [SNew (NList [1; 2]); SNew (NFill 2 7); SMoveAssign 1 0; SDestroy 0; SDestroy 1]. do 2 eexists. split; [vm_compute; reflexivity|]. split.
  { intros [|[|[|i]]] a E; discriminate. }
  exists 1. split; [reflexivity|]. intros (c & E). discriminate.
Qed.
Print Assumptions C136_vec_refuted.
Theorem C136_ring_refuted : exists ops xs h, srun (ring_cls nat 0 64 true) nothing ops = Ok (xs, h) /\ all_gone h /\
  exists b, nth_error (storages (fun _ => false) (fun _ => false) ops) b = Some false /\ ~ is_freed h b.
Proof.
  exists [SNew (2, 0); SNew (3, 0); SCopyAssign 0 1; SDestroy 0; SDestroy 1]. do 2 eexists. split; [vm_compute; reflexivity|]. split.
  { intros [|[|[|i]]] a E; discriminate. }
  exists 0. split; [reflexivity|]. intros (c & E). discriminate.
Qed.
Print Assumptions C136_ring_refuted.

(** A vector of five elements, one in a storage of the caller, copies, a move, and a list assigned to each: the caller's storage stays,
    the three others are freed. *)
Example C136_case :
  let C := vec_cls nat 0 (fun _ => 0) 64 true in
  let ops := [SNew (NFill 5 7); SNew (NStore [1; 2; 3] 2); SCopy 0; SMove 0; SCall 3 (VAssign [4; 5]); SCall 1 (VAssign [6]); SCall 1 VIter;
    SDestroy 2; SDestroy 0; SDestroy 3; SDestroy 1] in
  exists xs h, srun C nothing ops = Ok (xs, h) /\ all_gone h /\ Forall no_assign ops /\ storages vec_given vec_replaces ops = [false; true; false; false] /\
    map fst (sblks h) = [true; false; true; true].
Proof.
  cbv zeta. do 2 eexists. split; [vm_compute; reflexivity|]. split; [intros [|[|[|[|[|i]]]]] a E; discriminate|]. split; [repeat constructor|]. split; reflexivity.
Qed.
(** Assigning by moving and destroying all: the storage overwritten is the one lost. *)
Example C136_overwritten_case :
  let C := vec_cls nat 0 (fun _ => 0) 64 true in
  let ops := [SNew (NList [1; 2]); SNew (NFill 2 7); SMoveAssign 1 0; SDestroy 0; SDestroy 1] in
  overwritten C nothing ops 1 /\ ~ overwritten C nothing ops 0.
Proof.
  cbv zeta. split.
  - cbn [overwritten]. right. do 2 eexists. split; [reflexivity|]. right. do 2 eexists. split; [reflexivity|]. left. split; [discriminate|]. eexists. split; [reflexivity|]. split; reflexivity.
  - intros [[]|(x1 & h1 & E1 & U)]. vm_compute in E1. assert (h1 = mkSH [(false, [1; 2])] [Some (mkSO (Some 0) true 2 (0, 2))]) as -> by congruence.
    destruct U as [[]|(x2 & h2 & E2 & U)]. vm_compute in E2.
    match type of E2 with Ok (_, ?t) = _ => assert (h2 = t) as -> by congruence end.
    destruct U as [[_ (a & Ea & _ & Eb)]|(x3 & h3 & E3 & U)]; [cbn in Ea; assert (a = mkSO (Some 1) true 2 (0, 2)) as -> by congruence; discriminate|]. vm_compute in E3.
    match type of E3 with Ok (_, ?t) = _ => assert (h3 = t) as -> by congruence end.
    destruct U as [[]|(x4 & h4 & E4 & U)]. vm_compute in E4. match type of E4 with Ok (_, ?t) = _ => assert (h4 = t) as -> by congruence end.
    destruct U as [[]|(x5 & h5 & E5 & U)]. exact U.
Qed.
(** A copy that outlived its original can still be destroyed, and given a storage of its own. *)
Example C136_once_case :
  let C := vec_cls nat 0 (fun _ => 0) 64 true in
  exists xs h, srun C nothing [SNew (NList [1; 2]); SCopy 0; SDestroy 0] = Ok (xs, h) /\ (exists a, nth_error (sobjs h) 1 = Some (Some a)) /\ sstep C h (SDestroy 0) = UB.
Proof. cbv zeta. do 2 eexists. split; [vm_compute; reflexivity|]. split; [eexists; reflexivity|reflexivity]. Qed.
