(** Model of io/stream/buffered_stream.{hpp,cpp}, io/stream/transaction.{hpp,cpp} and
    io/stream/implementations/mock.{hpp,cpp}. *)
From Coq Require Import List Arith ZArith Bool Ascii.
From Verif Require Import Base RingOps RingModel LineModel.
Import ListNotations.

(** io/stream/stream.hpp:12-50, the virtual interface used by BufferedStream: available(), read(uint8_t&),
    available_for_write(), write(uint8_t). A stream is any state [S] with these four operations. *)
Record stream_ops (S : Type) := mkStream {
  s_available : S -> nat;
  s_read : S -> outcome (option ascii * S);     (** [None]: read returned false *)
  s_room : S -> nat;
  s_write : S -> ascii -> outcome (bool * S)
}.
Arguments mkStream {S} _ _ _ _.
Arguments s_available {S} _ _.
Arguments s_read {S} _ _.
Arguments s_room {S} _ _.
Arguments s_write {S} _ _ _.

Section Buffered.
Variable W : Z.
Context {S : Type}.
Variable st : stream_ops S.
Variable delims : list ascii.

(** buffered_stream.cpp:30-45, one activation of the loop with [fuel] iterations left. [n] is bytes_read. *)
Fixpoint pull_loop (fuel : nat) (inb : ring ascii) (s : S) (last : ascii) (n : nat)
  : outcome (nat * ring ascii * S) :=
  match fuel with
  | 0 => Fuel
  | Datatypes.S fuel' =>
      if s_available st s =? 0 then Ok (n, inb, s)
      else
        line <- has_line delims inb ;;
        if full inb && (is_delim delims last || ((overrun_space inb =? 0)%Z && line))
        then Ok (n, inb, s)
        else
          '(v, s1) <- s_read st s ;;
          match v with
          | None => Ok (n, inb, s1)
          | Some c =>
              '(_, inb1) <- push W inb c true ;;
              pull_loop fuel' inb1 s1 c (Datatypes.S n)
          end
  end.

(** buffered_stream.cpp:26-46 *)
Definition pull_in_data (fuel : nat) (inb : ring ascii) (s : S) : outcome (nat * ring ascii * S) :=
  pull_loop fuel inb s NUL 0.

(** buffered_stream.cpp:48-57 *)
Fixpoint push_out_loop (fuel : nat) (outb : ring ascii) (s : S) (n : nat) : outcome (nat * ring ascii * S) :=
  match fuel with
  | 0 => Fuel
  | Datatypes.S fuel' =>
      if s_room st s =? 0 then Ok (n, outb, s)
      else
        '(v, outb1) <- pop outb ;;
        match v with
        | None => Ok (n, outb1, s)
        | Some c =>
            '(ok, s1) <- s_write st s c ;;
            if ok : bool then push_out_loop fuel' outb1 s1 (Datatypes.S n) else Ok (n, outb1, s1)
        end
  end.

Definition push_out_data (fuel : nat) (outb : ring ascii) (s : S) : outcome (nat * ring ascii * S) :=
  push_out_loop fuel outb s 0.

End Buffered.

(** implementations/mock.hpp:11-52, mock.cpp:5-30. The two rings; the pointers _active_in/_active_out always end up as
    constructed because swap_streams is called twice around each use. *)
Record mock := mkMock { m_in : ring ascii; m_out : ring ascii }.

(** mock.hpp:29-37: write pushes into the out ring, read pops from the in ring. *)
Definition mock_stream (W : Z) : stream_ops mock := {|
  s_available := fun s => used_space (m_in s);
  s_read := fun s => '(v, r) <- pop (m_in s) ;; Ok (v, mkMock r (m_out s));
  s_room := fun s => free_space (m_out s);
  s_write := fun s c => '(b, r) <- push W (m_out s) c false ;; Ok (b, mkMock (m_in s) r)
|}.

(** mock.cpp:5-7 *)
Definition mock_new (dbg : bool) (in_size out_size : nat) : outcome mock :=
  i <- ring_new dbg in_size NUL ;; o <- ring_new dbg out_size NUL ;; Ok (mkMock i o).

(** mock.cpp:9-13: with the rings swapped, write(data, size) is a bulk push into _stdin; its count is ignored. *)
Definition mock_inject (W : Z) (s : mock) (bytes : list ascii) : outcome mock :=
  '(_, r) <- push_n W (m_in s) bytes false ;; Ok (mkMock r (m_out s)).

(** mock.cpp:14-24: with the rings swapped, read everything available from _stdout. *)
Definition mock_extract (s : mock) : outcome (list (option ascii) * mock) :=
  '(vs, r) <- pop_n (m_out s) (used_space (m_out s)) ;; Ok (vs, mkMock (m_in s) r).

(** ** Transactions *)

(** The part of BufferedStream a transaction touches (buffered_stream.hpp:60-63). *)
Record bstream := mkBS { b_in : ring ascii; b_out : ring ascii; b_delims : list ascii }.

(** transaction.hpp:67-72; [t_alive] is "_stream != nullptr". A string_view is (offset, length) in the input storage,
    [None] the empty view. *)
Record tx := mkTx { t_alive : bool; t_line : option (nat * nat); t_queued : nat; t_final : bool }.

(** transaction.cpp:6-13 *)
Definition tx_new (dbg : bool) (b : bstream) (d : option nat) : outcome tx :=
  len <- (match d with Some n => Ok n | None => length_of_next_line (b_delims b) (b_in b) end) ;;
  sassert dbg (0 <? len) ;;;
  v <- get_next_line_view (b_delims b) (b_in b) (Some len) ;;
  sassert dbg (match v with Some _ => true | None => false end) ;;;
  Ok (mkTx true v 0 false).

(** buffered_stream.cpp:59-63; the temporary moved into the optional leaves a finalized, empty object behind. *)
Definition new_transaction (dbg : bool) (b : bstream) : outcome (option tx) :=
  len <- length_of_next_line (b_delims b) (b_in b) ;;
  if 0 <? len then t <- tx_new dbg b (Some len) ;; Ok (Some t) else Ok None.

(** transaction.cpp:14-17; returns the bytes the view shows at this moment. *)
Definition tx_incoming (dbg : bool) (b : bstream) (t : tx) : outcome (list ascii) :=
  sassert dbg (negb (t_final t)) ;;;
  match t_line t with
  | None => Ok []
  | Some (off, len) => view_read (buf (b_in b)) off len
  end.

(** Dereferencing _stream. *)
Definition deref (t : tx) : outcome unit := if t_alive t then Ok tt else UB.

(** transaction.cpp:18-25; buffered_write(value) is push(value, false) (buffered_stream.cpp:8). *)
Definition tx_outgoing_char (dbg : bool) (W : Z) (b : bstream) (t : tx) (c : ascii) : outcome (nat * bstream * tx) :=
  sassert dbg (negb (t_final t)) ;;;
  deref t ;;;
  sassert dbg (0 <? free_space (b_out b)) ;;;
  if free_space (b_out b) =? 0 then Ok (0, b, t)
  else
    '(ok, o) <- push W (b_out b) c false ;;
    let n := if ok : bool then 1 else 0 in
    Ok (n, mkBS (b_in b) o (b_delims b), mkTx (t_alive t) (t_line t) (t_queued t + n) (t_final t)).

(** transaction.cpp:26-33 *)
Definition tx_outgoing (dbg : bool) (W : Z) (b : bstream) (t : tx) (s : list ascii) : outcome (nat * bstream * tx) :=
  sassert dbg (negb (t_final t)) ;;;
  deref t ;;;
  sassert dbg (length s <? free_space (b_out b)) ;;;
  '(n, o) <- push_n W (b_out b) (firstn (Nat.min (free_space (b_out b)) (length s)) s) false ;;
  Ok (n, mkBS (b_in b) o (b_delims b), mkTx (t_alive t) (t_line t) (t_queued t + n) (t_final t)).

(** transaction.cpp:36 *)
Definition tx_space_used (t : tx) : nat := t_queued t.

(** transaction.cpp:47-55; spn_assert then the guard. *)
Definition tx_finalize (dbg : bool) (b : bstream) (t : tx) : outcome (bstream * tx) :=
  sassert dbg (negb (t_final t)) ;;;
  if t_final t then Ok (b, t)
  else
    deref t ;;;
    '(_, i) <- drop_next_line (b_delims b) (b_in b) None ;;
    Ok (mkBS i (b_out b) (b_delims b), mkTx (t_alive t) None 0 true).

(** transaction.cpp:57-60 *)
Definition tx_undo (W : Z) (b : bstream) (t : tx) (n : nat) : outcome bstream :=
  let n' := if 0 <? n then Nat.min n (t_queued t) else t_queued t in
  deref t ;;;
  '(_, o) <- drop_last W (b_out b) n' ;;
  Ok (mkBS (b_in b) o (b_delims b)).

(** transaction.cpp:37-41 *)
Definition tx_commit (dbg : bool) (b : bstream) (t : tx) : outcome (bstream * tx) :=
  sassert dbg (negb (t_final t)) ;;;
  tx_finalize dbg b (mkTx (t_alive t) (t_line t) 0 (t_final t)).

(** transaction.cpp:42-46 *)
Definition tx_abort (dbg : bool) (W : Z) (b : bstream) (t : tx) : outcome (bstream * tx) :=
  sassert dbg (negb (t_final t)) ;;;
  b' <- tx_undo W b t 0 ;;
  tx_finalize dbg b' t.

(** transaction.hpp:32-34 *)
Definition tx_destroy (dbg : bool) (b : bstream) (t : tx) : outcome (bstream * tx) :=
  if t_final t then Ok (b, t) else tx_finalize dbg b t.

(** transaction.hpp:14-19: move construction, (new object, moved-from object). *)
Definition tx_move (t : tx) : tx * tx :=
  (mkTx (t_alive t) (t_line t) (t_queued t) (t_final t), mkTx false (t_line t) (t_queued t) true).

(** What a client can do with the one transaction it owns. After a move the old object is destroyed and the client goes
    on with the new one. *)
Inductive txop := TOutC (c : ascii) | TOut (s : list ascii) | TCommit | TAbort | TMove.

Definition tx_step (dbg : bool) (W : Z) (b : bstream) (t : tx) (op : txop) : outcome (bstream * tx) :=
  match op with
  | TOutC c => '(_, b', t') <- tx_outgoing_char dbg W b t c ;; Ok (b', t')
  | TOut s => '(_, b', t') <- tx_outgoing dbg W b t s ;; Ok (b', t')
  | TCommit => tx_commit dbg b t
  | TAbort => tx_abort dbg W b t
  | TMove => let (new, old) := tx_move t in '(b', _) <- tx_destroy dbg b old ;; Ok (b', new)
  end.

Fixpoint tx_run (dbg : bool) (W : Z) (b : bstream) (t : tx) (ops : list txop) : outcome (bstream * tx) :=
  match ops with
  | [] => Ok (b, t)
  | op :: ops' => '(b', t') <- tx_step dbg W b t op ;; tx_run dbg W b' t' ops'
  end.

(** The whole life of a transaction: created, used, destroyed. *)
Definition tx_life (dbg : bool) (W : Z) (b : bstream) (ops : list txop) : outcome (option bstream) :=
  t <- new_transaction dbg b ;;
  match t with
  | None => Ok None
  | Some t => '(b1, t1) <- tx_run dbg W b t ops ;; '(b2, _) <- tx_destroy dbg b1 t1 ;; Ok (Some b2)
  end.
