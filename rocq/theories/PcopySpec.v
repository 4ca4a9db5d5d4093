(** Property C110: what the pools of a program hold. *)
From Coq Require Import List Arith ZArith.
From Verif Require Import Base PoolModel PcopyModel.
Import ListNotations.

(** Pool [i] is alive, uses storage [b] and holds the pointers [l], oldest first, from cell [length pre] on. *)
Definition holds (W : Z) (h : pheap) (i b : nat) (pre l post : list sptr) : Prop :=
  exists a, nth_error (hobj h) i = Some (Some a) /\ oblk a = Some b /\ nth_error (hblk h) b = Some (false, pre ++ l ++ post) /\
    oh a = length pre /\ ot a = length pre + length l /\ (l = [] -> pre = []) /\
    omax a = length (pre ++ l ++ post) /\ (Z.of_nat (length (pre ++ l ++ post)) < 2 ^ W)%Z.
(** The pointers a pool holds *)
Definition pooled (W : Z) (h : pheap) (i : nat) (l : list sptr) : Prop := exists b pre post, holds W h i b pre l post.
(** Two pools with one storage and the same pointers in it, as after copying *)
Definition twins (W : Z) (h : pheap) (i j : nat) (l : list sptr) : Prop :=
  i <> j /\ exists b pre post, holds W h i b pre l post /\ holds W h j b pre l post.
(** The pool frees its storage when it is destroyed *)
Definition owner (h : pheap) (i : nat) (own : bool) : Prop := exists a, nth_error (hobj h) i = Some (Some a) /\ oown a = own.
(** No pool uses storage [b] *)
Definition abandoned (h : pheap) (b : nat) : Prop := forall i a, nth_error (hobj h) i = Some (Some a) -> oblk a <> Some b.
