(** What a bounded FIFO queue is: a list, oldest element first. Only [holds], at the end, refers to the model
    (it says what a caller reads out of a ring with the public calls pop and used_space). *)
From Coq Require Import List Arith Bool ZArith.
From Verif Require Import Base RingOps RingModel.
Import ListNotations.

(** The last [n] elements of a list. *)
Definition lastn {A} (n : nat) (l : list A) : list A := skipn (length l - n) l.

Definition fifo_step {A} (cap : nat) (q : list A) (op : rop A) : rres A * list A :=
  match op with
  | OpPush v rollover =>
      if length q <? cap then (RBool true, q ++ [v])
      else if rollover then (RBool true, lastn cap (q ++ [v]))
      else (RBool false, q)
  | OpPushN l rollover =>
      if rollover then (RNat (length l), lastn cap (q ++ l))
      else let room := cap - length q in
           (RNat (Nat.min (length l) room), q ++ firstn room l)
  | OpPop =>
      match q with
      | [] => (RVal None, [])
      | x :: q' => (RVal (Some x), q')
      end
  | OpPopN n =>
      if length q <? n then (RVals [], q) else (RVals (map Some (firstn n q)), skipn n q)
  | OpPeek i | OpPeekPtr i => (RVal (nth_error q i), q)
  | OpDropLast n => (RNat (Nat.min n (length q)), firstn (length q - n) q)
  | OpDropFirst n => (RNat (Nat.min n (length q)), skipn n q)
  | OpClear => (RUnit, [])
  | OpUsed => (RNat (length q), q)
  | OpFree => (RNat (cap - length q), q)
  | OpEmpty => (RBool (length q =? 0), q)
  | OpFull => (RBool (length q =? cap), q)
  | OpCapacity => (RNat cap, q)
  end.

Fixpoint fifo_run {A} (cap : nat) (q : list A) (ops : list (rop A)) : list (rres A) * list A :=
  match ops with
  | [] => ([], q)
  | op :: ops' =>
      let (x, q1) := fifo_step cap q op in
      let (xs, q2) := fifo_run cap q1 ops' in
      (x :: xs, q2)
  end.

(** drop_first / drop_last are asked for at least one element. *)
Definition no_zero_drop {A} (op : rop A) : Prop :=
  match op with
  | OpDropLast n | OpDropFirst n => 1 <= n
  | _ => True
  end.

(** Calls that neither drop nor clear (for the overrun counter). *)
Definition push_or_pop {A} (op : rop A) : Prop :=
  match op with
  | OpDropLast _ | OpDropFirst _ | OpClear => False
  | _ => True
  end.

(** Number of elements the queue [q] loses to overwriting in one call, and whether the call took elements out. *)
Definition lost_in {A} (cap : nat) (q : list A) (op : rop A) : nat :=
  match op with
  | OpPush _ true => (length q + 1) - cap
  | OpPushN l true => (length q + length l) - cap
  | _ => 0
  end.

Definition takes_out {A} (q : list A) (op : rop A) : bool :=
  match op with
  | OpPop => negb (length q =? 0)
  | OpPopN n => negb (n =? 0) && (n <=? length q)
  | _ => false
  end.

(** Elements overwritten since elements were last taken out, over a whole history. *)
Fixpoint overrun_run {A} (cap : nat) (q : list A) (lost : nat) (ops : list (rop A)) : nat :=
  match ops with
  | [] => lost
  | op :: ops' =>
      overrun_run cap (snd (fifo_step cap q op))
        (if takes_out q op then 0 else lost + lost_in cap q op) ops'
  end.

(** Number of elements offered to the buffer by a call, and by a history. *)
Definition offered {A} (op : rop A) : nat :=
  match op with OpPush _ _ => 1 | OpPushN l _ => length l | _ => 0 end.

Fixpoint total_offered {A} (ops : list (rop A)) : nat :=
  match ops with [] => 0 | op :: ops' => offered op + total_offered ops' end.

(** [holds r q]: what a caller reads out of [r] when popping until it is empty is [q], oldest first. *)
Definition holds {A} (r : ring A) (q : list A) : Prop :=
  used_space r = length q /\ exists r', pop_n r (length q) = Ok (map Some q, r') /\ empty r' = true.
