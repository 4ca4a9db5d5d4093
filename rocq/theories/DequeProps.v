(** * C14 for whole programs *)
From Coq Require Import List Arith ZArith Lia.
From Verif Require Import Base VectorModel VectorSpec VectorProofs DequeSpec.
Import ListNotations.

(** Every program that keeps to what a deque offers runs to its end and is answered as by a list, in debug and release builds alike.
    Missing for the full claim: remove, at, front, and popping the last element from the back (see C15, C16, C17). *)
Theorem C14_program_partial :
  forall (A : Type) (zero : A) (moved : A -> A) (W : Z) (dbg : bool) v0 cap l0 ops,
  vmade zero W v0 cap l0 -> obeys zero (asks W) cap l0 ops ->
  exists v, vrun zero moved W dbg v0 ops = Ok (fst (seq_run zero cap l0 ops), v) /\ vholds W v (snd (seq_run zero cap l0 ops)).
Proof.
  intros A zero moved W dbg v0 cap l0 ops Hm. destruct (vmade_vr zero W (fun _ => True) I v0 cap l0 Hm) as (post & HR & Hc & _).
  assert (G : exists pre post, vr W v0 l0 pre post) by eauto. clear HR Hm post. revert v0 cap l0 Hc G.
  induction ops as [|op ops IH]; intros v cap l Hc (pre & post & HR) Ho; cbn [vrun seq_run obeys] in *.
  - exists v. split; [reflexivity|]. eapply vr_holds; eauto.
  - destruct Ho as [Ho Hr]. assert (Hg : vguard W (length l) (vmax v) (length pre) op).
    { rewrite Hc. destruct op; simpl in *; auto; tauto. }
    destruct (vstep_ok zero moved W (fun _ => True) I (fun _ => I) dbg v l pre post op HR Hg) as (v' & pre' & post' & E & HR' & M & _). rewrite Hc in *.
    destruct (IH v' (seq_cap cap op) (snd (seq_step zero cap l op)) M) as (v2 & E2 & H2); eauto.
    rewrite E. cbn [bind]. rewrite E2. cbn [bind]. exists v2. destruct (seq_step zero cap l op) as [x l1]. cbn [fst snd] in *. destruct (seq_run zero (seq_cap cap op) l1 ops) as [xs l2]. split; auto.
Qed.
Print Assumptions C14_program_partial.

(** False with the others: after pop_front, front() shows the element that was popped. *)
Theorem C14_program_refuted : exists cap ops xs v, obeys 0 (deque_asks 64) cap [] ops /\
  vrun 0 (fun x => x) 64 true (vec_new 0 cap) ops = Ok (xs, v) /\ xs <> fst (seq_run 0 cap [] ops).
Proof.
  exists 3, [VPushBack 1; VPushBack 2; VPopFront; VFront]. do 2 eexists. split; [cbn; lia|]. split; [vm_compute; reflexivity|]. vm_compute. discriminate.
Qed.
Print Assumptions C14_program_refuted.

(** A vector of three used from both ends, shifting to make room at either. *)
Example C14_program_case :
  let ops := [VPushBack 1; VPushBack 2; VPushBack 3; VPopFront; VPushBack 4; VPopBack; VPushFront 5; VPopBack; VInsert 1 6; VIter; VClear;
    VPushFront 7; VAssign [8; 9]; VGet 1; VPopFront; VMax] in
  obeys 0 (asks 64) 3 [] ops /\ exists v, vrun 0 (fun x => x) 64 true (vec_new 0 3) ops =
    Ok ([VUnit; VUnit; VUnit; VVal 1; VUnit; VVal 4; VUnit; VVal 3; VUnit; VList [5; 6; 2]; VUnit; VUnit; VUnit; VVal 9; VVal 8; VNat 2], v).
Proof. cbv zeta. split; [cbn; lia|]. eexists. vm_compute. reflexivity. Qed.
