(** Model of structure/ringbuffer.hpp, class RingBuffer<T>. *)
From Coq Require Import List Arith ZArith Bool.
From Verif Require Import Base RingOps.
Import ListNotations.

(** ringbuffer.hpp:71-76, the data members. [buf] is the Array's storage, [buf] has [capacity()] cells;
    [over] is m_overwritten, a size_t kept as an integer in [0, 2^W). *)
Record ring (A : Type) := mkRing {
  buf : list A;
  rhead : nat;
  rtail : nat;
  over : Z;
  rfull : bool
}.
Arguments mkRing {A} _ _ _ _ _.
Arguments buf {A} _.
Arguments rhead {A} _.
Arguments rtail {A} _.
Arguments over {A} _.
Arguments rfull {A} _.

Section Ring.
Context {A : Type}.
(** [W]: number of bits of size_t, only relevant for the overrun counter. *)
Variable W : Z.

(** ringbuffer.hpp:11, constructor: Array(capacity, init_value) fills the storage (array.hpp:134-137, 327-330). *)
Definition ring_new (dbg : bool) (capacity : nat) (init : A) : outcome (ring A) :=
  sassert dbg (0 <? capacity) ;;;
  Ok (mkRing (repeat init capacity) 0 0 0%Z false).

(** ringbuffer.hpp:61 *)
Definition capacity (r : ring A) : nat := length (buf r).

(** ringbuffer.hpp:49 *)
Definition full (r : ring A) : bool := rfull r.

(** ringbuffer.hpp:46 *)
Definition empty (r : ring A) : bool := negb (full r) && (rhead r =? rtail r).

(** ringbuffer.hpp:52 *)
Definition overrun_space (r : ring A) : Z := over r.

(** ringbuffer.hpp:171-176 *)
Definition used_space (r : ring A) : nat :=
  if full r then capacity r
  else if rtail r <=? rhead r then rhead r - rtail r
  else capacity r - rtail r + rhead r.

(** ringbuffer.hpp:178-183 *)
Definition free_space (r : ring A) : nat :=
  if full r then 0
  else if rtail r <=? rhead r then capacity r - rhead r + rtail r
  else rtail r - rhead r.

(** ringbuffer.hpp:79-91; with capacity 0 the write itself is out of bounds. *)
Definition push (r : ring A) (v : A) (rollover : bool) : outcome (bool * ring A) :=
  if rfull r && negb rollover then Ok (false, r)
  else
    b <- wr (buf r) (rhead r) v ;;
    let h := (rhead r + 1) mod length b in
    if h =? rtail r then Ok (true, mkRing b h (rtail r) (over r) true)
    else if rfull r
         then Ok (true, mkRing b h ((rtail r + 1) mod length b) (wrapW W (over r + 1)) (rfull r))
         else Ok (true, mkRing b h (rtail r) (over r) (rfull r)).

(** ringbuffer.hpp:93-101; the source range [buffer, length) is the list [l]. *)
Fixpoint push_n (r : ring A) (l : list A) (rollover : bool) : outcome (nat * ring A) :=
  match l with
  | [] => Ok (0, r)
  | v :: l' =>
      '(ok, r1) <- push r v rollover ;;
      if ok : bool
      then '(n, r2) <- push_n r1 l' rollover ;; Ok (S n, r2)
      else Ok (0, r1)
  end.

(** ringbuffer.hpp:109-118; [Some v] stands for "returned true and stored v", [None] for "returned false". *)
Definition pop (r : ring A) : outcome (option A * ring A) :=
  if empty r then Ok (None, r)
  else
    v <- rd (buf r) (rtail r) ;;
    Ok (Some v, mkRing (buf r) (rhead r) ((rtail r + 1) mod length (buf r)) 0%Z false).

(** ringbuffer.hpp:126-129, the loop of the bulk pop: [length] calls of pop(buffer[i]); a call that returns false would
    leave the cell as it is, hence [None] in the list of stored values. *)
Fixpoint pop_loop (r : ring A) (n : nat) : outcome (list (option A) * ring A) :=
  match n with
  | 0 => Ok ([], r)
  | S n' =>
      '(v, r1) <- pop r ;;
      '(vs, r2) <- pop_loop r1 n' ;;
      Ok (v :: vs, r2)
  end.

(** ringbuffer.hpp:120-132; the number returned is the length of the list (bytes_read is incremented once per cell). *)
Definition pop_n (r : ring A) (n : nat) : outcome (list (option A) * ring A) :=
  if used_space r <? n then Ok ([], r) else pop_loop r n.

(** ringbuffer.hpp:134-141 *)
Definition peek_at (r : ring A) (index : nat) : outcome (option A) :=
  if used_space r <=? index then Ok None
  else v <- rd (buf r) ((rtail r + index) mod length (buf r)) ;; Ok (Some v).

(** ringbuffer.hpp:143-149; the pointer is returned as an index into the storage. A null [ptr] is not modelled. *)
Definition peek_ptr (r : ring A) (index : nat) : option nat :=
  if used_space r <=? index then None
  else Some ((rtail r + index) mod length (buf r)).

(** ringbuffer.hpp:65 *)
Definition advance_tail (r : ring A) (n : nat) : outcome nat :=
  if length (buf r) =? 0 then UB else Ok ((rtail r + n) mod length (buf r)).

(** ringbuffer.hpp:68 *)
Definition retract_head (r : ring A) (n : nat) : outcome nat :=
  if length (buf r) =? 0 then UB
  else Ok ((rhead r + length (buf r) - n mod length (buf r)) mod length (buf r)).

(** ringbuffer.hpp:151-159; std::max(0, m_overwritten - n) on size_t is the wrapped difference. *)
Definition drop_last (r : ring A) (n0 : nat) : outcome (nat * ring A) :=
  let n := Nat.min (used_space r) n0 in
  h <- retract_head r n ;;
  Ok (n, mkRing (buf r) h (rtail r) (Z.max 0 (wrapW W (over r - Z.of_nat n))) false).

(** ringbuffer.hpp:161-169; used_space() in line 167 is evaluated on the already shortened buffer and the
    subtraction wraps. *)
Definition drop_first (r : ring A) (n0 : nat) : outcome (nat * ring A) :=
  let n := Nat.min (used_space r) n0 in
  t <- advance_tail r n ;;
  let r' := mkRing (buf r) (rhead r) t (over r) false in
  Ok (n, mkRing (buf r) (rhead r) t
           (Z.min (over r) (wrapW W (Z.of_nat (used_space r') - Z.of_nat n))) false).

(** ringbuffer.hpp:43 *)
Definition clear (r : ring A) : outcome (ring A) :=
  '(_, r') <- drop_last r (used_space r) ;; Ok r'.

End Ring.

(** Runs of calls of the public interface (call and result types in RingOps.v). *)
Definition ring_step {A} (W : Z) (r : ring A) (op : rop A) : outcome (rres A * ring A) :=
  match op with
  | OpPush v ro => '(b, r') <- push W r v ro ;; Ok (RBool b, r')
  | OpPushN l ro => '(n, r') <- push_n W r l ro ;; Ok (RNat n, r')
  | OpPop => '(v, r') <- pop r ;; Ok (RVal v, r')
  | OpPopN n => '(vs, r') <- pop_n r n ;; Ok (RVals vs, r')
  | OpPeek i => v <- peek_at r i ;; Ok (RVal v, r)
  | OpPeekPtr i =>
      match peek_ptr r i with
      | None => Ok (RVal None, r)
      | Some p => v <- rd (buf r) p ;; Ok (RVal (Some v), r)
      end
  | OpDropLast n => '(k, r') <- drop_last W r n ;; Ok (RNat k, r')
  | OpDropFirst n => '(k, r') <- drop_first W r n ;; Ok (RNat k, r')
  | OpClear => r' <- clear W r ;; Ok (RUnit, r')
  | OpUsed => Ok (RNat (used_space r), r)
  | OpFree => Ok (RNat (free_space r), r)
  | OpEmpty => Ok (RBool (empty r), r)
  | OpFull => Ok (RBool (full r), r)
  | OpCapacity => Ok (RNat (capacity r), r)
  end.

Fixpoint ring_run {A} (W : Z) (r : ring A) (ops : list (rop A)) : outcome (list (rres A) * ring A) :=
  match ops with
  | [] => Ok ([], r)
  | op :: ops' =>
      '(x, r1) <- ring_step W r op ;;
      '(xs, r2) <- ring_run W r1 ops' ;;
      Ok (x :: xs, r2)
  end.
