(** Property C14 for whole programs: the calls that are right wherever in its storage the vector's elements lie. *)
From Coq Require Import List Arith ZArith.
From Verif Require Import Base VectorModel VectorSpec.
Import ListNotations.

Section Deque.
Context {A : Type}.
Variable zero : A.
Variable W : Z.
(** What the caller has to know: how many elements there are and how many there may be *)
Definition asks (n cap : nat) (op : vop A) : Prop :=
  match op with
  | VPushBack _ | VEmplaceBack _ | VPushFront _ | VEmplaceFront _ | VInsert _ _ => n < cap
  | VPopFront | VPeekFront | VPeekBack | VBack => 1 <= n
  | VPopBack => 2 <= n
  | VGet i => i < n
  | VClear | VFill _ | VSize | VEmpty | VFull | VMax | VIter | VRevIter => True
  | VAssign l => (Z.of_nat (length l) < 2 ^ W)%Z
  | VRemove _ | VAt _ | VFront => False
  end.
(** The natural demands of a deque *)
Definition deque_asks (n cap : nat) (op : vop A) : Prop :=
  match op with
  | VPopBack | VFront => 1 <= n
  | VRemove i | VAt i => i < n
  | _ => asks n cap op
  end.
(** The caller counts along on a list. *)
Fixpoint obeys (P : nat -> nat -> vop A -> Prop) (cap : nat) (l : list A) (ops : list (vop A)) : Prop :=
  match ops with
  | [] => True
  | op :: ops' => P (length l) cap op /\ obeys P (seq_cap cap op) (snd (seq_step zero cap l op)) ops'
  end.
End Deque.
