(** Property C109: structure/vector.hpp, an element of a vector handed to the vector's own push_back, push_front or insert. *)
From Coq Require Import List Arith ZArith Bool Lia.
From Verif Require Import Base VectorModel VectorSpec VectorProofs SelfModel SelfProofs.
Import ListNotations.

(** C109, the part that holds: v.push_back(v[i]) appends the value v[i] had, when the elements do not reach the end of the storage. *)
Theorem C109_back_partial :
  forall A (zero : A) moved W dbg v l i,
    vreachable zero moved W v -> vholds W v l -> i < length l -> offset v + length l < vmax v ->
    exists v', push_back_self zero W dbg v i = Ok v' /\ vholds W v' (l ++ [nth i l zero]).
Proof. exact @back_self_right. Qed.
Print Assumptions C109_back_partial.
(** v.push_front(v[i]) prepends the value v[i] had, when there is a free cell in front of the elements. *)
Theorem C109_front_partial :
  forall A (zero : A) moved W dbg v l i,
    vreachable zero moved W v -> vholds W v l -> i < length l -> 0 < offset v ->
    exists v', push_front_self zero dbg v i = Ok v' /\ vholds W v' (nth i l zero :: l).
Proof. exact @front_self_right. Qed.
Print Assumptions C109_front_partial.
(** v.insert(k, v[i]) with i before k inserts the value v[i] had, when the elements do not reach the end of the storage. *)
Theorem C109_insert_partial :
  forall A (zero : A) moved W dbg v l k i,
    vreachable zero moved W v -> vholds W v l -> i < length l -> i < k < length l -> offset v + length l < vmax v ->
    exists v', insert_self zero W dbg v k i = Ok v' /\ vholds W v' (insert_at k (nth i l zero) l).
Proof. exact @insert_self_right. Qed.
Print Assumptions C109_insert_partial.

Definition num (v : vec nat) : Prop := vreachable 0 (fun x => x) 64%Z v.
Lemma num_run dbg v0 cap l ops xs v :
  vmade 0 64%Z v0 cap l -> Forall (vfits 64%Z) ops -> vrun 0 (fun x => x) 64%Z dbg v0 ops = Ok (xs, v) -> num v.
Proof. apply vrun_reachable. Qed.
Example C109_case :
  exists v, num v /\ vholds 64%Z v [2; 3] /\ offset v = 1 /\ vmax v = 5 /\
    push_back_self 0 64%Z true v 1 = Ok (mkVec [1; 2; 3; 3; 0] 1 4) /\
    push_front_self 0 true v 1 = Ok (mkVec [3; 2; 3; 0; 0] 0 3) /\
    exists v', num v' /\ vholds 64%Z v' [4; 5; 6] /\ insert_self 0 64%Z true v' 2 0 = Ok (mkVec [4; 5; 4; 6; 0] 0 4).
Proof.
  exists (mkVec [1; 2; 3; 0; 0] 1 3). split.
  { apply (num_run true (vec_new 0 5) 5 [] [VPushBack 1; VPushBack 2; VPushBack 3; VPopFront] [VUnit; VUnit; VUnit; VVal 1]).
    - constructor. reflexivity.
    - repeat constructor.
    - reflexivity. }
  splits; try reflexivity; try (split; reflexivity). exists (mkVec [4; 5; 6; 0; 0] 0 3). split.
  { apply (num_run true (vec_new 0 5) 5 [] [VPushBack 4; VPushBack 5; VPushBack 6] [VUnit; VUnit; VUnit]).
    - constructor. reflexivity.
    - repeat constructor.
    - reflexivity. }
  splits; first [reflexivity | split; reflexivity].
Qed.

(** False of the code otherwise. When the elements reach the end of the storage and there is room in front, push_back moves them first: the
    reference then reads the element [offset v] places further on, or the zero value beyond the last. *)
Theorem C109_back :
  forall A (zero : A) moved W dbg v l i,
    vreachable zero moved W v -> vholds W v l -> i < length l -> 0 < offset v -> offset v + length l = vmax v ->
    exists v', push_back_self zero W dbg v i = Ok v' /\ vholds W v' (l ++ [nth (offset v + i) l zero]).
Proof. exact @back_self_moved. Qed.
Print Assumptions C109_back.
Theorem C109_back_refuted :
  exists v v', num v /\ vholds 64%Z v [2; 3] /\ vmax v = 3 /\
    push_back_self 0 64%Z true v 0 = Ok v' /\ vholds 64%Z v' [2; 3; 3] /\
    exists v'', push_back_self 0 64%Z true v 1 = Ok v'' /\ vholds 64%Z v'' [2; 3; 0].
Proof.
  exists (mkVec [1; 2; 3] 1 3), (mkVec [2; 3; 3] 0 3). split.
  { apply (num_run true (vec_list [1; 2; 3]) 3 [1; 2; 3] [VPopFront] [VVal 1]).
    - constructor. reflexivity.
    - repeat constructor.
    - reflexivity. }
  splits; try reflexivity; try (split; reflexivity). exists (mkVec [2; 3; 0] 0 3). splits; first [reflexivity | split; reflexivity].
Qed.
(** push_front without a free cell in front moves the elements up: the reference reads the element before the one meant, and for the first
    element the zero value. *)
Theorem C109_front :
  forall A (zero : A) moved W dbg v l i,
    vreachable zero moved W v -> vholds W v l -> i < length l -> offset v = 0 -> length l < vmax v ->
    exists v', push_front_self zero dbg v i = Ok v' /\ vholds W v' (nth i (zero :: l) zero :: l).
Proof. exact @front_self_moved. Qed.
Print Assumptions C109_front.
Theorem C109_front_refuted :
  exists v v', num v /\ vholds 64%Z v [5; 6] /\ push_front_self 0 true v 0 = Ok v' /\ vholds 64%Z v' [0; 5; 6] /\
    exists v'', push_front_self 0 true v 1 = Ok v'' /\ vholds 64%Z v'' [5; 5; 6].
Proof.
  exists (mkVec [5; 6; 0] 0 2), (mkVec [0; 5; 6] 0 3). split.
  { apply (num_run true (vec_new 0 3) 3 [] [VPushBack 5; VPushBack 6] [VUnit; VUnit]).
    - constructor. reflexivity.
    - repeat constructor.
    - reflexivity. }
  splits; try reflexivity; try (split; reflexivity). exists (mkVec [5; 5; 6] 0 3). splits; first [reflexivity | split; reflexivity].
Qed.
(** insert in the middle: what is inserted is what the cell of v[i] holds once room has been made at [k], with the zero value in it; the
    elements being moved to the start of the storage first when they reach its end. *)
Theorem C109_insert :
  forall A (zero : A) moved W dbg v l k i,
    vreachable zero moved W v -> vholds W v l -> i < length l -> 0 < k < length l -> offset v + length l < vmax v ->
    exists v', insert_self zero W dbg v k i = Ok v' /\ vholds W v' (insert_at k (nth i (insert_at k zero l) zero) l).
Proof. exact @insert_self_room. Qed.
Print Assumptions C109_insert.
Theorem C109_insert_moved :
  forall A (zero : A) moved W dbg v l k i,
    vreachable zero moved W v -> vholds W v l -> i < length l -> 0 < k < length l -> 0 < offset v -> offset v + length l = vmax v ->
    exists v', insert_self zero W dbg v k i = Ok v' /\ vholds W v' (insert_at k (nth (offset v + i) (insert_at k zero l) zero) l).
Proof. exact @insert_self_moved. Qed.
Print Assumptions C109_insert_moved.
Theorem C109_insert_refuted :
  exists v v', num v /\ vholds 64%Z v [4; 5; 6] /\ insert_self 0 64%Z true v 1 1 = Ok v' /\ vholds 64%Z v' [4; 0; 5; 6] /\
    exists v'', insert_self 0 64%Z true v 1 2 = Ok v'' /\ vholds 64%Z v'' [4; 5; 5; 6].
Proof.
  exists (mkVec [4; 5; 6; 0; 0] 0 3), (mkVec [4; 0; 5; 6; 0] 0 4). split.
  { apply (num_run true (vec_new 0 5) 5 [] [VPushBack 4; VPushBack 5; VPushBack 6] [VUnit; VUnit; VUnit]).
    - constructor. reflexivity.
    - repeat constructor.
    - reflexivity. }
  splits; try reflexivity; try (split; reflexivity). exists (mkVec [4; 5; 5; 6; 0] 0 4). splits; first [reflexivity | split; reflexivity].
Qed.
