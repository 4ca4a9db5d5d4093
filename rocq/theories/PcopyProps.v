(** Property C110: structure/pool.hpp, copying, assigning and destroying pools. *)
From Coq Require Import List Arith ZArith Bool Lia.
From Verif Require Import Base VectorModel PoolModel PcopyModel PcopySpec PcopyProofs.
Import ListNotations.

(** C110, the part that holds: a copy of a pool holds the objects of the original, and copying changes neither the original nor any
    reference. *)
Theorem C110_copy_partial :
  forall W L dbg fuel h i b pre l post, holds W h i b pre l post ->
  exists h', qstep W L dbg fuel h (QCopy i) = Ok (QObj (length (hobj h)), h') /\
    holds W h' i b pre l post /\ holds W h' (length (hobj h)) b pre l post /\ i <> length (hobj h) /\ hblk h' = hblk h /\ href h' = href h.
Proof. exact @copy_thm. Qed.
Print Assumptions C110_copy_partial.
(** Pools that share objects never hand out an object that a client holds, or that a second cell of any storage refers to, a freed one
    or another pool's among them. *)
Theorem C110_exclusive_partial :
  forall W L dbg fuel h i o h',
  qstep W L dbg fuel h (QCall i PAcquire) = Ok (QRes (PPtr (Some o)), h') -> ~ In o (href h) /\ In o (href h') /\
  exists b k, (exists c, nth_error (hblk h) b = Some (false, c) /\ nth_error c k = Some (Some o)) /\
    forall b' q k', nth_error (hblk h) b' = Some q -> nth_error (snd q) k' = Some (Some o) -> b' = b /\ k' = k.
Proof. exact @exclusive_copies. Qed.
Print Assumptions C110_exclusive_partial.

(** The limit of uint16_t, the type of the lookup index (pool.hpp:87) *)
Definition u16 : nat := Z.to_nat 65536.
(** A pool with room for [n] and its objects *)
Definition made (n : nat) (os : list nat) : list qop := QNew n :: map (fun o => QCall 0 (PPopulate (Some o))) os.
Example C110_case :
  exists xs h h' h'', qrun 64 u16 true 3 no_pools (made 2 [7; 8] ++ [QCopy 0]) = Ok (xs, h) /\
    holds 64 h 0 0 [] [Some 7; Some 8] [] /\ twins 64 h 0 1 [Some 7; Some 8] /\
    qstep 64 u16 true 3 h (QCall 1 PAcquire) = Ok (QRes (PPtr (Some 7)), h') /\
    qstep 64 u16 true 3 h' (QCall 0 PAcquire) = Ok (QRes (PPtr (Some 8)), h'').
Proof.
  do 4 eexists. split; [vm_compute; reflexivity|]. 
  assert (H : forall k a, nth_error [Some (mkObj (Some 0) true 2 0 2 0); Some (mkObj (Some 0) false 2 0 2 0)] k = Some (Some a) ->
     holds 64 (mkPH [(false, [Some 7; Some 8])] [Some (mkObj (Some 0) true 2 0 2 0); Some (mkObj (Some 0) false 2 0 2 0)] []) k 0 [] [Some 7; Some 8] []).
  { intros [|[|k]] a E; simpl in E; [..|destruct k; discriminate]; injection E as <-; eexists; (split; [reflexivity|]); repeat split; discriminate. }
  split; [apply (H 0 _ eq_refl)|]. split.
  - split; [discriminate|]. exists 0, [], []. split; [apply (H 0 _ eq_refl)|apply (H 1 _ eq_refl)].
  - split; [vm_compute; reflexivity|]. vm_compute; reflexivity.
Qed.

(** False of the code: the copy is not independent, it uses the storage of the original. Depopulating the copy takes the object away from
    the original, which is left with a null pointer in its place. *)
Theorem C110_depopulate :
  forall W L dbg fuel h i j x l, twins W h i j (x :: l) ->
  exists h', qstep W L dbg fuel h (QCall j PDepopulate) = Ok (QRes (PPtr x), h') /\ pooled W h' j l /\ pooled W h' i (None :: l).
Proof. exact @depopulate_twin. Qed.
Print Assumptions C110_depopulate.
Theorem C110_depopulate_refuted :
  exists xs h, qrun 64 u16 true 3 no_pools (made 2 [7; 8] ++ [QCopy 0; QCall 1 PDepopulate]) = Ok (xs, h) /\
    pooled 64 h 0 [None; Some 8].
Proof.
  do 2 eexists. split; [vm_compute; reflexivity|]. exists 0, [], []. eexists. split; [reflexivity|]. repeat split; discriminate.
Qed.
(** What is put into the copy is replaced by what is put into the original. *)
Theorem C110_populate :
  forall W L dbg fuel h i j b pre l z post x y, i <> j -> holds W h i b pre l (z :: post) -> holds W h j b pre l (z :: post) ->
  exists h1 h2, qstep W L dbg fuel h (QCall j (PPopulate x)) = Ok (QRes PUnit, h1) /\ pooled W h1 j (l ++ [x]) /\ pooled W h1 i l /\
    qstep W L dbg fuel h1 (QCall i (PPopulate y)) = Ok (QRes PUnit, h2) /\ pooled W h2 i (l ++ [y]) /\ pooled W h2 j (l ++ [y]).
Proof. exact @populate_twins. Qed.
Print Assumptions C110_populate.
Theorem C110_populate_refuted :
  exists xs h, qrun 64 u16 true 3 no_pools (made 2 [7] ++ [QCopy 0; QCall 1 (PPopulate (Some 8)); QCall 0 (PPopulate (Some 9))]) = Ok (xs, h) /\
    pooled 64 h 1 [Some 7; Some 9].
Proof.
  do 2 eexists. split; [vm_compute; reflexivity|]. exists 0, [], []. eexists. split; [reflexivity|]. repeat split; discriminate.
Qed.
(** Making and destroying a copy of a pool of n objects takes the first half of them, rounded up, away from the original (in a release
    build; in a debug build the assertion of C24 halts for two or more objects). *)
Theorem C110_destroy :
  forall W L fuel h i b pre l post, holds W h i b pre l post ->
  exists h', qrun W L false fuel h [QCopy i; QDestroy (length (hobj h))] = Ok ([QObj (length (hobj h)); QUnit], h') /\
    pooled W h' i (repeat None ((length l + 1) / 2) ++ skipn ((length l + 1) / 2) l).
Proof. exact @destroy_copy. Qed.
Print Assumptions C110_destroy.
Theorem C110_destroy_refuted :
  exists xs h, qrun 64 u16 false 3 no_pools (made 2 [7; 8] ++ [QCopy 0; QDestroy 1]) = Ok (xs, h) /\ pooled 64 h 0 [None; Some 8].
Proof.
  do 2 eexists. split; [vm_compute; reflexivity|]. exists 0, [], []. eexists. split; [reflexivity|]. repeat split; discriminate.
Qed.
(** Once the original is destroyed, taking an object out of the copy, or destroying it, is undefined. *)
Theorem C110_dangling :
  forall W L fuel h i b pre l post, holds W h i b pre l post -> owner h i true -> l <> [] ->
  qrun W L false fuel h [QCopy i; QDestroy i; QCall (length (hobj h)) PDepopulate] = UB /\
  qrun W L false fuel h [QCopy i; QDestroy i; QDestroy (length (hobj h))] = UB.
Proof. exact @dangling. Qed.
Print Assumptions C110_dangling.
Theorem C110_dangling_refuted :
  exists ops, ops = made 1 [7] ++ [QCopy 0; QDestroy 0; QDestroy 1] /\ qrun 64 u16 false 3 no_pools ops = UB /\
    qrun 64 u16 true 3 no_pools ops = UB.
Proof. eexists. split; [reflexivity|]. split; vm_compute; reflexivity. Qed.
(** Moving a pool into another: the target holds the objects of the source. The target's former storage keeps its pointers, is not freed
    and belongs to no pool any more; destroying the source is undefined when it held objects. *)
Theorem C110_move_assign :
  forall W L dbg fuel h i j b1 b2 pre1 l1 post1 pre2 l2 post2,
  i <> j -> b1 <> b2 -> holds W h i b1 pre1 l1 post1 -> holds W h j b2 pre2 l2 post2 ->
  exists h', qstep W L dbg fuel h (QMoveAssign i j) = Ok (QUnit, h') /\ holds W h' i b2 pre2 l2 post2 /\
    nth_error (hblk h') b1 = Some (false, pre1 ++ l1 ++ post1) /\
    ((forall k a, nth_error (hobj h) k = Some (Some a) -> oblk a = Some b1 -> k = i) -> abandoned h' b1) /\
    (l2 <> [] -> qstep W L dbg fuel h' (QDestroy j) = UB /\ qstep W L false fuel h' (QCall j PDepopulate) = UB).
Proof. exact @move_assign. Qed.
Print Assumptions C110_move_assign.
Theorem C110_move_assign_refuted :
  exists ops xs h, ops = made 1 [7] ++ [QNew 1; QCall 1 (PPopulate (Some 8)); QMoveAssign 0 1] /\
    qrun 64 u16 true 3 no_pools ops = Ok (xs, h) /\ pooled 64 h 0 [Some 8] /\ abandoned h 0 /\ nth_error (hblk h) 0 = Some (false, [Some 7]) /\
    qrun 64 u16 true 3 no_pools (ops ++ [QDestroy 1]) = UB.
Proof.
  do 3 eexists. split; [reflexivity|]. split; [vm_compute; reflexivity|]. split.
  { exists 1, [], []. eexists. split; [reflexivity|]. repeat split; discriminate. }
  split; [|split; vm_compute; reflexivity].
  intros [|[|[|k]]] a E; try discriminate; injection E as <-; discriminate.
Qed.
(** Copying a pool into another: they share one storage from then on, and the target's former storage is lost in the same way. *)
Theorem C110_copy_assign :
  forall W L dbg fuel h i j b1 b2 pre1 l1 post1 pre2 l2 post2,
  i <> j -> b1 <> b2 -> holds W h i b1 pre1 l1 post1 -> holds W h j b2 pre2 l2 post2 ->
  exists h', qstep W L dbg fuel h (QCopyAssign i j) = Ok (QUnit, h') /\ twins W h' i j l2 /\
    nth_error (hblk h') b1 = Some (false, pre1 ++ l1 ++ post1) /\
    ((forall k a, nth_error (hobj h) k = Some (Some a) -> oblk a = Some b1 -> k = i) -> abandoned h' b1).
Proof. exact @copy_assign. Qed.
Print Assumptions C110_copy_assign.
Theorem C110_copy_assign_refuted :
  exists ops xs h, ops = made 1 [7] ++ [QNew 1; QCall 1 (PPopulate (Some 8)); QCopyAssign 0 1; QCall 1 PDepopulate] /\
    qrun 64 u16 true 3 no_pools ops = Ok (xs, h) /\ pooled 64 h 0 [None] /\ abandoned h 0 /\ nth_error (hblk h) 0 = Some (false, [Some 7]).
Proof.
  do 3 eexists. split; [reflexivity|]. split; [vm_compute; reflexivity|]. split.
  { exists 1, [], []. eexists. split; [reflexivity|]. repeat split; discriminate. }
  split; [|vm_compute; reflexivity].
  intros [|[|[|k]]] a E; try discriminate; injection E as <-; discriminate.
Qed.
