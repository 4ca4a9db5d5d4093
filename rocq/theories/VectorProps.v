(** Properties C14-C20 and C58: structure/vector.hpp, structure/array.hpp. *)
From Coq Require Import List Arith ZArith Lia Bool.
From Verif Require Import Base VectorModel VectorSpec VectorProofs.
Import ListNotations.

(** C14. Every state reached from a constructor by calls within the guard shows the contents and has returned the results
    of the list the calls describe; the guard is vguard. *)
Theorem C14_history_partial :
  forall (A : Type) (zero : A) (moved : A -> A) (W : Z) (dbg : bool) v0 cap l0 ops xs v,
  vmade zero W v0 cap l0 -> vhist zero moved W dbg v0 ops xs v ->
  xs = fst (seq_run zero cap l0 ops) /\ vholds W v (snd (seq_run zero cap l0 ops)).
Proof. exact @history_thm. Qed.
Print Assumptions C14_history_partial.

(** Numbers: nothing changes in an object moved from. Pointers (0 = null): moving leaves null. *)
Definition keep (x : nat) : nat := x.
Definition wipe (x : nat) : nat := 0.

Ltac vr := first [reflexivity | split; reflexivity].
Ltac reach c ops := eapply (vrun_reachable _ _ _ true c _ _ ops);
  [constructor; reflexivity | repeat constructor | vm_compute; reflexivity].

(** C14. In every reachable state every call within the guard returns, with the result and effect of the list operation. *)
Theorem C14_step_partial :
  forall (A : Type) (zero : A) (moved : A -> A) (W : Z) (dbg : bool) v l op,
  vreachable zero moved W v -> vholds W v l -> vguard W (length l) (vmax v) (offset v) op ->
  exists v', vstep zero moved W dbg v op = Ok (fst (seq_step zero (vmax v) l op), v') /\
    vholds W v' (snd (seq_step zero (vmax v) l op)) /\ vmax v' = seq_cap (vmax v) op.
Proof. exact @guarded_thm. Qed.
Print Assumptions C14_step_partial.
Example C14_step_case : vreachable 0 keep 64 (mkVec [1; 2; 3; 0] 1 3) /\ vholds 64 (mkVec [1; 2; 3; 0] 1 3) [2; 3] /\
  vstep 0 keep 64 true (mkVec [1; 2; 3; 0] 1 3) (VPushBack 9) = Ok (VUnit, mkVec [1; 2; 3; 9] 1 4) /\ vholds 64 (mkVec [1; 2; 3; 9] 1 4) [2; 3; 9].
Proof. split; [reach (vec_new 0 4) [VPushBack 1; VPushBack 2; VPushBack 3; VPopFront]|]. repeat split. Qed.

(** Every reachable vector shows some list. *)
Theorem C14_reachable_holds :
  forall (A : Type) (zero : A) (moved : A -> A) (W : Z) v, vreachable zero moved W v -> exists l, vholds W v l.
Proof. exact @reachable_holds. Qed.
Print Assumptions C14_reachable_holds.

Definition demo_ops : list (vop nat) :=
  [VPushBack 1; VPushBack 2; VPushBack 3; VPopFront; VPopFront; VPushBack 4; VPushBack 5; VPushFront 6; VInsert 1 7; VPopBack;
   VRemove 2; VIter; VRevIter].

Example C14_case : exists v, vmade 0 64 (vec_new 0 5) 5 [] /\ vhist 0 keep 64 true (vec_new 0 5) demo_ops
    [VUnit; VUnit; VUnit; VVal 1; VVal 2; VUnit; VUnit; VUnit; VUnit; VVal 5; VVal 3; VList [6; 7; 4]; VList [4; 7; 6]] v /\
  vholds 64 v [6; 7; 4].
Proof.
  eexists. split; [constructor; reflexivity|]. split.
  - repeat (eapply vh_cons; [simpl; auto; cbv; lia | vm_compute; reflexivity |]). constructor.
  - split; reflexivity.
Qed.

(** C15. pop_back() returns and removes the last element, when it is not the only one or sits at the start of the storage. *)
Theorem C15_pop_back_partial :
  forall (A : Type) (zero : A) (moved : A -> A) (W : Z) (dbg : bool) v l x,
  vreachable zero moved W v -> vholds W v (l ++ [x]) -> l <> [] \/ offset v = 0 ->
  exists v', vstep zero moved W dbg v VPopBack = Ok (VVal x, v') /\ vholds W v' l.
Proof. exact @pop_back_thm. Qed.
Print Assumptions C15_pop_back_partial.

(** C15. In the remaining case the first storage cell is returned instead. *)
Theorem C15_pop_back_shifted_exact :
  forall (A : Type) (zero : A) (moved : A -> A) (W : Z) (dbg : bool) v x,
  vreachable zero moved W v -> vholds W v [x] -> 1 <= offset v ->
  exists v' y, vstep zero moved W dbg v VPopBack = Ok (VVal y, v') /\ vstep zero moved W dbg v (VAt 0) = Ok (VVal y, v) /\
    vholds W v' [].
Proof. exact @pop_back_shifted_thm. Qed.
Print Assumptions C15_pop_back_shifted_exact.

Definition shifted : vec nat := mkVec [1; 2; 0; 0] 1 2.

Lemma shifted_reachable : vreachable 0 keep 64 shifted.
Proof. reach (vec_new 0 4) [VPushBack 1; VPushBack 2; VPopFront]. Qed.

(** C15 is false: push 1, push 2, pop_front, pop_back gives 1. *)
Theorem C15_pop_back_refuted :
  exists v x y v', vreachable 0 keep 64 v /\ vholds 64 v [x] /\ vstep 0 keep 64 true v VPopBack = Ok (VVal y, v') /\ x <> y.
Proof. exists shifted, 2, 1. eexists. split; [exact shifted_reachable|]. split; [split; reflexivity|]. split; [reflexivity|discriminate]. Qed.

Example C15_case : vreachable 0 keep 64 (mkVec [1; 2; 3; 0] 1 3) /\ vholds 64 (mkVec [1; 2; 3; 0] 1 3) ([2] ++ [3]) /\
  vstep 0 keep 64 true (mkVec [1; 2; 3; 0] 1 3) VPopBack = Ok (VVal 3, mkVec [1; 2; 3; 0] 1 2) /\
  vreachable 0 keep 64 shifted /\ vholds 64 shifted [2] /\ 1 <= offset shifted.
Proof.
  split; [reach (vec_new 0 4) [VPushBack 1; VPushBack 2; VPushBack 3; VPopFront]|].
  splits; try vr; try apply le_n. exact shifted_reachable.
Qed.

(** C16. remove() takes an index counted from the start of the storage: with the offset added it removes the i-th element,
    provided the live elements do not end at the end of the storage (or i = 0). *)
Theorem C16_remove_partial :
  forall (A : Type) (zero : A) (moved : A -> A) (W : Z) (dbg : bool) v l i,
  vreachable zero moved W v -> vholds W v l -> i < length l -> i = 0 \/ offset v + length l < vmax v ->
  exists v', vstep zero moved W dbg v (VRemove (offset v + i)) = Ok (VVal (nth i l zero), v') /\ vholds W v' (remove_at i l) /\
    vmax v' = vmax v.
Proof. exact @remove_thm. Qed.
Print Assumptions C16_remove_partial.

(** C16. When they do, remove() reads one element past the storage, for every index but the first. *)
Theorem C16_remove_at_end_exact :
  forall (A : Type) (zero : A) (moved : A -> A) (W : Z) (dbg : bool) v l i,
  vreachable zero moved W v -> vholds W v l -> 0 < i < length l -> offset v + length l = vmax v ->
  vstep zero moved W dbg v (VRemove (offset v + i)) = UB.
Proof. exact @remove_end_thm. Qed.
Print Assumptions C16_remove_at_end_exact.
Example C16_remove_at_end_case : vreachable 0 keep 64 (mkVec [1; 2; 3] 0 3) /\ vholds 64 (mkVec [1; 2; 3] 0 3) [1; 2; 3] /\
  vstep 0 keep 64 false (mkVec [1; 2; 3] 0 3) (VRemove 1) = UB.
Proof. split; [reach (vec_new 0 3) [VPushBack 1; VPushBack 2; VPushBack 3]|]. repeat split. Qed.

(** C16 is false with a shifted window: [2; 3], remove(1) takes out 2 = element 0. *)
Theorem C16_remove_shifted_refuted :
  exists v l i x v', vreachable 0 keep 64 v /\ vholds 64 v l /\ i < length l /\
    vstep 0 keep 64 true v (VRemove i) = Ok (VVal x, v') /\ x <> nth i l 0.
Proof.
  exists (mkVec [1; 2; 3; 0] 1 3), [2; 3], 1, 2. eexists.
  split; [reach (vec_new 0 4) [VPushBack 1; VPushBack 2; VPushBack 3; VPopFront]|].
  split; [split; reflexivity|]. split; [apply le_n|]. split; [reflexivity|discriminate].
Qed.

(** C16 is false on a full vector: remove(1) of [1; 2] with capacity 2 reads past the storage, also in debug builds. *)
Theorem C16_remove_full_refuted :
  exists v l i, vreachable 0 keep 64 v /\ vholds 64 v l /\ i < length l /\ vstep 0 keep 64 true v (VRemove i) = UB.
Proof.
  exists (mkVec [1; 2] 0 2), [1; 2], 1.
  split; [reach (vec_new 0 2) [VPushBack 1; VPushBack 2]|]. split; [split; reflexivity|]. split; [apply le_n|reflexivity].
Qed.

(** C16 is false for index size(): remove(2) of a vector of 2 removes the last element instead of being rejected. *)
Theorem C16_remove_past_end_refuted :
  exists v l v', vreachable 0 keep 64 v /\ vholds 64 v l /\ vstep 0 keep 64 true v (VRemove (length l)) = Ok (VVal 2, v').
Proof.
  exists (mkVec [1; 2; 0] 0 2), [1; 2]. eexists.
  split; [reach (vec_new 0 3) [VPushBack 1; VPushBack 2]|]. split; [split; reflexivity|]. reflexivity.
Qed.

Example C16_case : vreachable 0 keep 64 (mkVec [1; 2; 3; 4; 0] 1 4) /\ vholds 64 (mkVec [1; 2; 3; 4; 0] 1 4) [2; 3; 4] /\
  exists v', vstep 0 keep 64 false (mkVec [1; 2; 3; 4; 0] 1 4) (VRemove (1 + 1)) = Ok (VVal 3, v') /\ vholds 64 v' [2; 4].
Proof.
  split; [reach (vec_new 0 5) [VPushBack 1; VPushBack 2; VPushBack 3; VPushBack 4; VPopFront]|].
  split; [split; reflexivity|]. eexists. split; [reflexivity|]. split; reflexivity.
Qed.

(** C17. operator[], peek_front, peek_back and back agree with iteration; at and front do when the window is not shifted. *)
Theorem C17_accessors_partial :
  forall (A : Type) (zero : A) (moved : A -> A) (W : Z) (dbg : bool) v l i,
  vreachable zero moved W v -> vholds W v l -> i < length l ->
  vstep zero moved W dbg v (VGet i) = Ok (VVal (nth i l zero), v) /\
  vstep zero moved W dbg v VPeekFront = Ok (VVal (nth 0 l zero), v) /\
  vstep zero moved W dbg v VPeekBack = Ok (VVal (nth (length l - 1) l zero), v) /\
  vstep zero moved W dbg v VBack = Ok (VVal (nth (length l - 1) l zero), v) /\
  (offset v = 0 -> vstep zero moved W dbg v (VAt i) = Ok (VVal (nth i l zero), v) /\
                   vstep zero moved W dbg v VFront = Ok (VVal (nth 0 l zero), v)).
Proof. exact @accessors_thm. Qed.
Print Assumptions C17_accessors_partial.

(** C17. at() counts from the start of the storage. *)
Theorem C17_at_exact :
  forall (A : Type) (zero : A) (moved : A -> A) (W : Z) (dbg : bool) v l i,
  vreachable zero moved W v -> vholds W v l -> offset v <= i < offset v + length l ->
  vstep zero moved W dbg v (VAt i) = Ok (VVal (nth (i - offset v) l zero), v).
Proof. exact @physical_thm. Qed.
Print Assumptions C17_at_exact.
Example C17_at_case : vreachable 0 keep 64 (mkVec [1; 2; 3; 0] 1 3) /\ vholds 64 (mkVec [1; 2; 3; 0] 1 3) [2; 3] /\
  vstep 0 keep 64 true (mkVec [1; 2; 3; 0] 1 3) (VAt 2) = Ok (VVal 3, mkVec [1; 2; 3; 0] 1 3).
Proof. split; [reach (vec_new 0 4) [VPushBack 1; VPushBack 2; VPushBack 3; VPopFront]|]. repeat split. Qed.

(** C17 is false for front() and at() after a pop_front. *)
Theorem C17_front_refuted :
  exists v l x, vreachable 0 keep 64 v /\ vholds 64 v l /\ vstep 0 keep 64 true v VPeekFront = Ok (VVal x, v) /\
    (forall y, vstep 0 keep 64 true v VFront = Ok (VVal y, v) -> y <> x) /\
    (forall y, vstep 0 keep 64 true v (VAt 0) = Ok (VVal y, v) -> y <> x).
Proof.
  exists shifted, [2], 2. split; [exact shifted_reachable|]. split; [split; reflexivity|]. split; [reflexivity|].
  split; intros y H; inversion H; discriminate.
Qed.

Example C17_case : vreachable 0 keep 64 (mkVec [1; 2; 3; 4; 0] 1 4) /\ vholds 64 (mkVec [1; 2; 3; 4; 0] 1 4) [2; 3; 4] /\
  vstep 0 keep 64 false (mkVec [1; 2; 3; 4; 0] 1 4) (VGet 1) = Ok (VVal 3, mkVec [1; 2; 3; 4; 0] 1 4) /\
  vstep 0 keep 64 false (mkVec [1; 2; 3; 4; 0] 1 4) (VAt 1) = Ok (VVal 2, mkVec [1; 2; 3; 4; 0] 1 4).
Proof.
  split; [reach (vec_new 0 5) [VPushBack 1; VPushBack 2; VPushBack 3; VPushBack 4; VPopFront]|].
  splits; vr.
Qed.

(** C18. In a debug build a call with a checked precondition halts when the precondition is violated. *)
Theorem C18_violation_halts :
  forall (A : Type) (zero : A) (moved : A -> A) (W : Z) v l op,
  vreachable zero moved W v -> vholds W v l -> vchecked op -> ~ vlegal (length l) (vmax v) op ->
  vstep zero moved W true v op = Halt.
Proof. exact @checked_thm. Qed.
Print Assumptions C18_violation_halts.

(** C18. In a debug build every call halts or returns and leaves a vector in order, except: emplace_front on a full vector,
    remove in a vector whose elements reach the end of the storage, at/front/back outside the storage. *)
Theorem C18_debug_safe_partial :
  forall (A : Type) (zero : A) (moved : A -> A) (W : Z) v l op,
  vreachable zero moved W v -> vholds W v l -> vfits W op ->
  match op with
  | VEmplaceFront _ => length l < vmax v
  | VRemove i => offset v + length l < vmax v \/ i <= offset v \/ offset v + length l <= i
  | VAt i => i < vmax v
  | VFront | VBack => 1 <= vmax v
  | _ => True
  end ->
  vstep zero moved W true v op = Halt \/ exists x v', vstep zero moved W true v op = Ok (x, v') /\ vreachable zero moved W v'.
Proof. exact @debug_safe_thm. Qed.
Print Assumptions C18_debug_safe_partial.
Example C18_debug_safe_case : vreachable 0 keep 64 (mkVec [1; 2] 0 2) /\ vholds 64 (mkVec [1; 2] 0 2) [1; 2] /\
  vstep 0 keep 64 true (mkVec [1; 2] 0 2) (VPushBack 3) = Halt /\ vstep 0 keep 64 true (mkVec [1; 2] 0 2) (VGet 1) = Ok (VVal 2, mkVec [1; 2] 0 2).
Proof. split; [reach (vec_new 0 2) [VPushBack 1; VPushBack 2]|]. repeat split. Qed.

(** C18 is false for emplace_front on a full vector: it writes past the storage in a debug build. *)
Theorem C18_emplace_front_refuted :
  exists v, vreachable 0 keep 64 v /\ vstep 0 keep 64 true v (VEmplaceFront 9) = UB.
Proof. exists (mkVec [1; 2] 0 2). split; [reach (vec_new 0 2) [VPushBack 1; VPushBack 2]|reflexivity]. Qed.

Example C18_case : vreachable 0 keep 64 (mkVec [1; 2] 0 2) /\ vholds 64 (mkVec [1; 2] 0 2) [1; 2] /\
  ~ vlegal 2 2 (VPushFront 3) /\ vstep 0 keep 64 true (mkVec [1; 2] 0 2) (VPushFront 3) = Halt /\
  vstep 0 keep 64 false (mkVec [1; 2] 0 2) (VPushFront 3) = UB.
Proof.
  split; [reach (vec_new 0 2) [VPushBack 1; VPushBack 2]|]. splits; try vr. simpl. lia.
Qed.

(** C19. Vector: forward iteration visits the elements in order, reverse iteration in the opposite order, const or not
    (both are built from the same positions). [vholds] says the loop ends. The contents [l] are also those read by
    operator[] (C17). *)
Theorem C19_vector_iteration :
  forall (A : Type) (zero : A) (moved : A -> A) (W : Z) (dbg : bool) v l, vreachable zero moved W v -> vholds W v l ->
  vstep zero moved W dbg v VIter = Ok (VList l, v) /\ vstep zero moved W dbg v VRevIter = Ok (VList (rev l), v).
Proof. exact @iter_thm. Qed.
Print Assumptions C19_vector_iteration.
Example C19_vector_case : vstep 0 keep 64 true (mkVec [1; 2; 3; 0] 1 3) VIter = Ok (VList [2; 3], mkVec [1; 2; 3; 0] 1 3) /\
  vstep 0 keep 64 true (mkVec [1; 2; 3; 0] 1 3) VRevIter = Ok (VList [3; 2], mkVec [1; 2; 3; 0] 1 3).
Proof. repeat split. Qed.

(** C19. Array: forward iteration and reverse iteration over a mutable array, after exactly size() steps. *)
Theorem C19_array_iteration_partial :
  forall (A : Type) (W : Z) (store : list A) fuel, (Z.of_nat (length store) < 2 ^ W)%Z -> length store <= fuel ->
  iterate W fuel 1 store arr_begin (arr_end W store) = Ok store /\
  iterate W fuel (-1) store (arr_rbegin W store) (arr_rend W) = Ok (rev store).
Proof. exact @arr_iter_thm. Qed.
Print Assumptions C19_array_iteration_partial.

(** C19. Reverse iteration over a const array visits nothing. *)
Theorem C19_const_reverse_exact :
  forall (A : Type) (W : Z) (store : list A) fuel,
  iterate W fuel (-1) store (arr_crbegin W store) (arr_crend W store) = Ok [].
Proof. exact @arr_crev_thm. Qed.
Print Assumptions C19_const_reverse_exact.
Example C19_const_reverse_case : iterate 64 10 (-1) [1; 2; 3] (arr_crbegin 64 [1; 2; 3]) (arr_crend 64 [1; 2; 3]) = Ok [].
Proof. reflexivity. Qed.

Theorem C19_const_reverse_refuted :
  exists store : list nat, iterate 64 10 (-1) store (arr_crbegin 64 store) (arr_crend 64 store) <> Ok (rev store).
Proof. exists [1; 2; 3]. discriminate. Qed.

Example C19_case : vreachable 0 keep 64 (mkVec [1; 2; 3; 4; 0] 0 4) /\
  vstep 0 keep 64 false (mkVec [1; 2; 3; 4; 0] 0 4) VRevIter = Ok (VList [4; 3; 2; 1], mkVec [1; 2; 3; 4; 0] 0 4) /\
  iterate 64 3 (-1) [1; 2; 3] (arr_rbegin 64 [1; 2; 3]) (arr_rend 64) = Ok [3; 2; 1] /\
  iterate 64 0 (-1) (@nil nat) (arr_rbegin 64 (@nil nat)) (arr_rend 64) = Ok [].
Proof.
  split; [reach (vec_new 0 5) [VPushBack 1; VPushBack 2; VPushBack 3; VPushBack 4]|]. splits; vr.
Qed.

(** C20. Storage cells outside the live window hold nothing, after any calls but pop_back/remove of the only element and
    clear in a vector with a shifted window. [null] must hold for zeroed storage and for objects moved from. *)
Theorem C20_no_stale_partial :
  forall (A : Type) (zero : A) (moved : A -> A) (W : Z) (null : A -> Prop),
  null zero -> (forall x, null (moved x)) ->
  forall (dbg : bool) v0 cap l ops v,
  vmade zero W v0 cap l -> no_stale null v0 -> vexec_tidy zero moved W dbg v0 ops v -> no_stale null v.
Proof. exact @tidy_thm. Qed.
Print Assumptions C20_no_stale_partial.

(** C20. Vectors start like that, unless constructed on a storage of the caller. *)
Theorem C20_start :
  forall (A : Type) (zero : A) (moved : A -> A) (W : Z) (null : A -> Prop), null zero ->
  forall n x k, (Z.of_nat n < 2 ^ W)%Z -> (Z.of_nat (length k) < 2 ^ W)%Z ->
  no_stale null (vec_new zero n) /\ no_stale null (vec_fill_new n x) /\ no_stale null (vec_list k).
Proof. intros A zero moved W null H. exact (@made_no_stale A zero W null H). Qed.
Print Assumptions C20_start.
Example C20_start_case : no_stale (fun p => p = 0) (vec_new 0 3) /\ no_stale (fun p => p = 0) (vec_list [4; 5]).
Proof. split; apply (C20_start nat 0 wipe 64 (fun p => p = 0) eq_refl 3 1 [4; 5]); vm_compute; reflexivity. Qed.

(** C20 is false for clear() and pop_back() with a shifted window (elements are pointers, 0 is null). *)
Theorem C20_clear_refuted :
  exists v v1 v2, vreachable 0 wipe 64 v /\
    vstep 0 wipe 64 true v VClear = Ok (VUnit, v1) /\ vsize v1 = 0 /\ ~ no_stale (fun p => p = 0) v1 /\
    vstep 0 wipe 64 true v VPopBack = Ok (VVal 0, v2) /\ vsize v2 = 0 /\ ~ no_stale (fun p => p = 0) v2.
Proof.
  exists (mkVec [0; 2; 0] 1 2). do 2 eexists. split; [reach (vec_new 0 3) [VPushBack 1; VPushBack 2; VPopFront]|].
  split; [reflexivity|]. split; [reflexivity|]. split; [|split; [reflexivity|split; [reflexivity|]]];
    intros H; specialize (H 1 2 eq_refl (or_intror (le_S _ _ (le_n 0)))); discriminate.
Qed.

Example C20_case : vexec_tidy 0 wipe 64 true (vec_new 0 3) [VPushBack 1; VPushBack 2; VPopFront; VPushBack 3; VPushBack 4; VPopBack]
    (mkVec [2; 3; 0] 0 2) /\ no_stale (fun p => p = 0) (mkVec [2; 3; 0] 0 2).
Proof.
  split.
  - repeat (eapply vxt_cons; [exact I | simpl; auto | vm_compute; reflexivity |]). constructor.
  - intros k y E [H|H]; [inversion H|]. unfold offset, vsize in H. simpl in H.
    destruct k as [|[|[|k]]]; [lia|lia| |destruct k; discriminate]. simpl in E. congruence.
Qed.

(** C58. it++ and ++it both move the iterator by one, for any width; ++it gives the new position. *)
Theorem C58_increment_partial :
  forall (W i : Z), (0 <= i)%Z -> (i + 1 < 2 ^ W)%Z ->
  snd (pre_inc W i) = (i + 1)%Z /\ fst (pre_inc W i) = (i + 1)%Z /\ snd (post_inc W i) = (i + 1)%Z.
Proof. intros W i H1 H2. unfold pre_inc, post_inc, wrapW. cbn [fst snd]. rewrite Z.mod_small by lia. auto. Qed.
Print Assumptions C58_increment_partial.

(** C58 is false: the value of it++ is the new position, so *it++ skips the current element. *)
Theorem C58_post_increment_refuted : exists W i : Z, (0 <= i < 2 ^ W)%Z /\ fst (post_inc W i) <> i.
Proof. exists 64%Z, 0%Z. split; [lia|discriminate]. Qed.

Example C58_case : post_inc 64 3 = (4, 4)%Z.
Proof. reflexivity. Qed.
