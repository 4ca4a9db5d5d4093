(** Calls of structure/ringbuffer.hpp:13-61 and the results a caller observes. *)
From Coq Require Import List.
Import ListNotations.

(** The public interface as a language of calls, and the results a caller observes. *)
Inductive rop (A : Type) :=
| OpPush (v : A) (rollover : bool)
| OpPushN (l : list A) (rollover : bool)
| OpPop
| OpPopN (n : nat)
| OpPeek (i : nat)
| OpPeekPtr (i : nat)          (** peek_at(T**, i) followed by reading through the pointer *)
| OpDropLast (n : nat)
| OpDropFirst (n : nat)
| OpClear
| OpUsed | OpFree | OpEmpty | OpFull | OpCapacity.
Arguments OpPush {A} _ _.
Arguments OpPushN {A} _ _.
Arguments OpPop {A}.
Arguments OpPopN {A} _.
Arguments OpPeek {A} _.
Arguments OpPeekPtr {A} _.
Arguments OpDropLast {A} _.
Arguments OpDropFirst {A} _.
Arguments OpClear {A}.
Arguments OpUsed {A}.
Arguments OpFree {A}.
Arguments OpEmpty {A}.
Arguments OpFull {A}.
Arguments OpCapacity {A}.

Inductive rres (A : Type) :=
| RUnit
| RBool (b : bool)
| RNat (n : nat)
| RVal (v : option A)
| RVals (vs : list (option A)).
Arguments RUnit {A}.
Arguments RBool {A} _.
Arguments RNat {A} _.
Arguments RVal {A} _.
Arguments RVals {A} _.

