(** Model of several std::optional<Transaction> variables of one program, each assigned from new_transaction() or from another one:
    the move assignment of io/stream/transaction.hpp:21-30 within std::optional's. The calls on a transaction are those of StreamModel. *)
From Coq Require Import List Arith ZArith Bool Ascii.
From Verif Require Import Base RingOps RingModel LineModel StreamModel.
Import ListNotations.

(** The stream and the program's variables; None: an optional without value. *)
Record xw := mkXW { xb : bstream; xv : list (option tx) }.

Inductive xop :=
| XTake (i : nat)            (** v[i] = stream.new_transaction(); *)
| XMove (i j : nat)          (** v[i] = std::move(v[j]); *)
| XReset (i : nat)           (** v[i].reset(); or the end of its scope *)
| XUse (i : nat) (op : txop) (** v[i]->outgoing(..), commit(), abort() *)
| XShow (i : nat).           (** v[i]->incoming() *)
Inductive xres := XUnit | XHas (b : bool) | XText (l : list ascii).

(** A variable of the program (there is no other) *)
Definition xvar (w : xw) (i : nat) : outcome (option tx) := match nth_error (xv w) i with Some o => Ok o | None => UB end.
(** v[i]-> on an optional without value *)
Definition xtx (w : xw) (i : nat) : outcome tx := o <- xvar w i ;; match o with Some t => Ok t | None => UB end.
Definition xset (w : xw) (i : nat) (o : option tx) : xw := mkXW (xb w) (upd (xv w) i o).

(** transaction.hpp:21-30, *this and other being different objects: (what the target holds, what is left in the source). The target's
    members are overwritten, whatever they were. *)
Definition tx_assign (target source : tx) : tx * tx :=
  (mkTx (t_alive source) (t_line source) (t_queued source) (t_final source), mkTx false (t_line source) (t_queued source) true).

(** optional& operator=(optional&&): value to value is T's assignment, value to nothing constructs (transaction.hpp:14-19), nothing to
    value destroys it (transaction.hpp:32-34). The new target, the new source, the stream. *)
Definition opt_assign (dbg : bool) (b : bstream) (target source : option tx) : outcome (option tx * option tx * bstream) :=
  match target, source with
  | Some t, Some s => let (t1, s1) := tx_assign t s in Ok (Some t1, Some s1, b)
  | None, Some s => let (t1, s1) := tx_move s in Ok (Some t1, Some s1, b)
  | Some t, None => '(b1, _) <- tx_destroy dbg b t ;; Ok (None, None, b1)
  | None, None => Ok (None, None, b)
  end.
Definition opt_destroy (dbg : bool) (b : bstream) (o : option tx) : outcome bstream :=
  match o with Some t => '(b1, _) <- tx_destroy dbg b t ;; Ok b1 | None => Ok b end.

Definition xstep (W : Z) (dbg : bool) (w : xw) (op : xop) : outcome (xres * xw) :=
  match op with
  | XTake i =>
      o <- xvar w i ;;
      n <- new_transaction dbg (xb w) ;;
      '(o1, n1, b1) <- opt_assign dbg (xb w) o n ;;
      b2 <- opt_destroy dbg b1 n1 ;;
      Ok (XHas (match o1 with Some _ => true | None => false end), mkXW b2 (upd (xv w) i o1))
  | XMove i j =>
      o <- xvar w i ;; s <- xvar w j ;;
      if i =? j then Ok (XUnit, w)
      else
        '(o1, s1, b1) <- opt_assign dbg (xb w) o s ;;
        Ok (XUnit, mkXW b1 (upd (upd (xv w) j s1) i o1))
  | XReset i => o <- xvar w i ;; b1 <- opt_destroy dbg (xb w) o ;; Ok (XUnit, mkXW b1 (upd (xv w) i None))
  | XUse i op => t <- xtx w i ;; '(b1, t1) <- tx_step dbg W (xb w) t op ;; Ok (XUnit, mkXW b1 (upd (xv w) i (Some t1)))
  | XShow i => t <- xtx w i ;; l <- tx_incoming dbg (xb w) t ;; Ok (XText l, w)
  end.

Fixpoint xrun (W : Z) (dbg : bool) (w : xw) (ops : list xop) : outcome (list xres * xw) :=
  match ops with
  | [] => Ok ([], w)
  | op :: ops' => '(x, w1) <- xstep W dbg w op ;; '(xs, w2) <- xrun W dbg w1 ops' ;; Ok (x :: xs, w2)
  end.
Definition xstart (b : bstream) (n : nat) : xw := mkXW b (repeat None n).
