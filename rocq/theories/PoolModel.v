(** Model of structure/pool.hpp (class Pool<T>) over the Vector model, with reference counts. *)
From Coq Require Import List Arith ZArith Bool.
From Verif Require Import Base VectorModel.
Import ListNotations.

(** A std::shared_ptr: the object it points to, or null. Objects are numbered. *)
Definition sptr := option nat.
Definition sptr_dec : forall a b : sptr, {a = b} + {a <> b}.
Proof. decide equality. apply Nat.eq_dec. Defined.

(** pool.hpp:84-87. [plook] is a uint16_t; see [L] below. *)
Record pool := mkPool { pv : vec sptr; plook : nat }.

(** The pool and the references (shared_ptrs) held outside of it. *)
Record pworld := mkPW { ppool : pool; prefs : list nat }.

Inductive pop :=
| PPopulate (o : sptr) | PDepopulate | PAcquire | PSize | PFullyPopulated
| PHold (o : nat) (* a client keeps or copies a reference to object o *)
| PRelease (o : nat). (* a client drops one reference to object o *)

Inductive pres := PUnit | PPtr (o : sptr) | PNat (n : nat) | PBool (b : bool).

Section Pool.
Variable W : Z.
(** Number of values of the type of the lookup index: 65536 for uint16_t. *)
Variable L : nat.
Variable dbg : bool.

Notation moved := (fun _ : sptr => @None nat) (only parsing).

(** shared_ptr::use_count: references in the storage of the pool's vector and outside; 0 for null. *)
Definition use_count (w : pworld) (p : sptr) : nat :=
  match p with
  | None => 0
  | Some o => count_occ sptr_dec (vst (pv (ppool w))) (Some o) + count_occ Nat.eq_dec (prefs w) o
  end.

(** pool.hpp:17 *)
Definition pool_new (n : nat) : pool := mkPool (vec_new None n) 0.

(** pool.hpp:37-53: the three overloads differ in how the shared_ptr is made. *)
Definition populate (p : pool) (o : sptr) : outcome pool :=
  sassert dbg (negb (vfull (pv p))) ;;;
  v <- emplace_back None W dbg (pv p) o ;;
  Ok (mkPool v (plook p)).

(** pool.hpp:56-59; the caller moves the pointer out of the returned reference. *)
Definition depopulate (p : pool) : outcome (sptr * pool) :=
  sassert dbg (negb (vempty (pv p))) ;;;
  '(o, v) <- pop_front moved dbg (pv p) ;;
  Ok (o, mkPool v (plook p)).

(** pool.hpp:62 *)
Definition is_fully_populated (p : pool) : bool := vfull (pv p).
(** pool.hpp:81 *)
Definition pool_size (p : pool) : nat := vsize (pv p).

(** pool.hpp:69-71: (Some pointer, index) or (None, index) when the loop ran to its end. The index counts modulo [L].
    [fuel] bounds the number of iterations. *)
Fixpoint scan_back (fuel : nat) (w : pworld) (i : nat) : outcome (option sptr * nat) :=
  if i <? pool_size (ppool w) then
    match fuel with
    | 0 => Fuel
    | S fuel' =>
        x <- vget dbg (pv (ppool w)) i ;;
        if use_count w x =? 1 then Ok (Some x, i) else scan_back fuel' w ((i + 1) mod L)
    end
  else Ok (None, i).

(** pool.hpp:73-76; [k] iterations remain *)
Fixpoint scan_front (k : nat) (w : pworld) (i : nat) : outcome (option sptr) :=
  match k with
  | 0 => Ok None
  | S k' =>
      x <- vget dbg (pv (ppool w)) i ;;
      if use_count w x =? 1 then Ok (Some x) else scan_front k' w (i + 1)
  end.

(** pool.hpp:65-78 *)
Definition acquire (fuel : nat) (w : pworld) : outcome (sptr * pool) :=
  sassert dbg (is_fully_populated (ppool w)) ;;;
  let skipped := plook (ppool w) in
  '(r, i) <- scan_back fuel w skipped ;;
  match r with
  | Some x => Ok (x, mkPool (pv (ppool w)) i)
  | None =>
      r2 <- scan_front (min skipped (pool_size (ppool w))) w 0 ;;
      Ok (match r2 with Some x => x | None => None end, mkPool (pv (ppool w)) 0)
  end.

(** pool.hpp:18-22: the bound of the loop is evaluated again in each round. [k] bounds the number of rounds; the loop
    ends after at most size() rounds. The result is the pool before its vector's storage is returned. *)
Fixpoint destroy_loop (k : nat) (p : pool) (i : nat) : outcome pool :=
  if i <? pool_size p then
    match k with
    | 0 => Fuel
    | S k' => '(_, p1) <- depopulate p ;; destroy_loop k' p1 (i + 1)
    end
  else Ok p.
Definition pool_destroy (p : pool) : outcome pool :=
  p1 <- destroy_loop (pool_size p) p 0 ;; sassert dbg (vempty (pv p1)) ;;; Ok p1.

(** eventsystem.cpp:51-55 followed by the destruction of the member (pool.hpp:18-22) *)
Definition evsys_store_destroy (p : pool) : outcome pool :=
  p1 <- destroy_loop (pool_size p) p 0 ;;
  sassert dbg (pool_size p1 =? 0) ;;;
  pool_destroy p1.

Definition drop_one (o : nat) (l : list nat) : list nat :=
  (fix go (l : list nat) := match l with [] => [] | x :: t => if x =? o then t else x :: go t end) l.

(** One event in a program using the pool: what the pool returns becomes a reference of the client. *)
Definition pstep (fuel : nat) (w : pworld) (op : pop) : outcome (pres * pworld) :=
  match op with
  | PPopulate o => p <- populate (ppool w) o ;; Ok (PUnit, mkPW p (prefs w))
  | PDepopulate =>
      '(o, p) <- depopulate (ppool w) ;;
      Ok (PPtr o, mkPW p (match o with Some x => x :: prefs w | None => prefs w end))
  | PAcquire =>
      '(o, p) <- acquire fuel w ;;
      Ok (PPtr o, mkPW p (match o with Some x => x :: prefs w | None => prefs w end))
  | PSize => Ok (PNat (pool_size (ppool w)), w)
  | PFullyPopulated => Ok (PBool (is_fully_populated (ppool w)), w)
  | PHold o => Ok (PUnit, mkPW (ppool w) (o :: prefs w))
  | PRelease o => Ok (PUnit, mkPW (ppool w) (drop_one o (prefs w)))
  end.

Fixpoint prun (fuel : nat) (w : pworld) (ops : list pop) : outcome (list pres * pworld) :=
  match ops with
  | [] => Ok ([], w)
  | op :: ops' => '(x, w1) <- pstep fuel w op ;; '(xs, w2) <- prun fuel w1 ops' ;; Ok (x :: xs, w2)
  end.
End Pool.
