(** Property C136: what becomes of the storages of ring buffers, line buffers and vectors. *)
From Coq Require Import List Arith Bool ZArith Ascii.
From Verif Require Import Base RingOps VectorModel VectorSpec ShareModel ShareSpec.
Import ListNotations.

Section Freed.
Context {N H A O R : Type}.
Variable C : cls N H A O R.
(** The constructors that are handed a storage by the caller; the calls that replace the storage of an object *)
Variable given : N -> bool.
Variable replaces : O -> bool.

(** The storages that a program makes use of, in order: true if the caller handed it in, false if it was allocated *)
Definition storage (op : sop N O) : list bool :=
  match op with SNew n => [given n] | SCall _ o => if replaces o then [false] else [] | _ => [] end.
Definition storages (ops : list (sop N O)) : list bool := flat_map storage ops.
Definition no_assign (op : sop N O) : Prop := match op with SCopyAssign _ _ | SMoveAssign _ _ => False | _ => True end.
Definition all_gone (h : sheap H A) : Prop := forall i a, nth_error (sobjs h) i <> Some (Some a).
Definition is_freed (h : sheap H A) (b : nat) : Prop := exists c, nth_error (sblks h) b = Some (true, c).
(** An assignment to an object that owns storage [b], at some point of the program *)
Definition overwrites (h : sheap H A) (op : sop N O) (b : nat) : Prop :=
  match op with SCopyAssign i j | SMoveAssign i j => i <> j /\ owner h i b | _ => False end.
Fixpoint overwritten (h : sheap H A) (ops : list (sop N O)) (b : nat) : Prop :=
  match ops with
  | [] => False
  | op :: ops' => overwrites h op b \/ exists x h', sstep C h op = Ok (x, h') /\ overwritten h' ops' b
  end.

(** When all objects are destroyed: every storage that was allocated is freed, except those of objects assigned to; those handed in
    are not freed, at no time. *)
Definition frees : Prop := forall ops xs h, srun C nothing ops = Ok (xs, h) ->
  length (sblks h) = length (storages ops) /\
  (forall b, nth_error (storages ops) b = Some true -> ~ is_freed h b) /\
  (all_gone h -> forall b, nth_error (storages ops) b = Some false -> (is_freed h b <-> ~ overwritten nothing ops b)) /\
  (all_gone h -> Forall no_assign ops -> map fst (sblks h) = map negb (storages ops)).
(** Freeing is always defined, so no storage is freed twice: an object can be destroyed at any time, and its storage replaced. *)
Definition freeable : Prop := forall ops xs h i a, srun C nothing ops = Ok (xs, h) -> nth_error (sobjs h) i = Some (Some a) ->
  (exists h', sstep C h (SDestroy i) = Ok (SUnit, h')) /\ forall o, replaces o = true -> sstep C h (SCall i o) <> UB.
End Freed.

Definition vec_given {A} (n : vnew A) : bool := match n with NStore _ _ => true | _ => false end.
Definition vec_replaces {A} (o : vop A) : bool := match o with VAssign _ => true | _ => false end.
