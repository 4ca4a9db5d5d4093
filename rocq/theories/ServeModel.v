(** A server that answers lines over a BufferedStream (io/stream/buffered_stream.{hpp,cpp}, io/stream/transaction.{hpp,cpp}): client code
    over the calls modelled in StreamModel, in the two ways the library offers, with and without transactions. *)
From Coq Require Import List Arith ZArith Bool Ascii.
From Verif Require Import Base RingOps RingModel LineModel StreamModel.
Import ListNotations.

(** A serial line behind the interface of io/stream/stream.hpp:12-50: the bytes that have arrived and wait, the room for bytes to be sent,
    the bytes sent so far *)
Record wire := mkWire { w_rx : list ascii; w_room : nat; w_tx : list ascii }.
Definition serial : stream_ops wire := {|
  s_available := fun w => length (w_rx w);
  s_read := fun w => match w_rx w with [] => Ok (None, w) | c :: l => Ok (Some c, mkWire l (w_room w) (w_tx w)) end;
  s_room := fun w => w_room w;
  s_write := fun w c => match w_room w with 0 => Ok (false, w) | S n => Ok (true, mkWire (w_rx w) n (w_tx w ++ [c])) end |}.

Section Server.
Variable W : Z.
Variable dbg : bool.
Variable reply : list ascii -> list ascii.     (** the answer to a line *)
Variable most : nat.                           (** the server waits until an answer of this length has room *)

(** Without transactions: output_buffer_space_left, has_line, get_next_line into a buffer of [m] bytes, buffered_write
    (buffered_stream.hpp:28-48) *)
Definition serve_copy (m : nat) (b : bstream) : outcome (list (list ascii) * bstream) :=
  if free_space (b_out b) <? most then Ok ([], b)
  else
    h <- has_line (b_delims b) (b_in b) ;;
    if h : bool
    then '(n, out, i) <- get_next_line (b_delims b) (b_in b) (repeat NUL m) m None ;;
         '(_, o) <- push_n W (b_out b) (reply (firstn n out)) false ;;
         Ok ([firstn n out], mkBS i o (b_delims b))
    else Ok ([], b).

(** With a transaction: new_transaction, incoming, outgoing, commit, destruction; outgoing() asserts more room than it needs
    (transaction.cpp:28) *)
Definition serve_tx (b : bstream) : outcome (list (list ascii) * bstream) :=
  if free_space (b_out b) <=? most then Ok ([], b)
  else
    t <- new_transaction dbg b ;;
    match t with
    | None => Ok ([], b)
    | Some t =>
        line <- tx_incoming dbg b t ;;
        '(_, b1, t1) <- tx_outgoing dbg W b t (reply line) ;;
        '(b2, t2) <- tx_commit dbg b1 t1 ;;
        '(b3, _) <- tx_destroy dbg b2 t2 ;;
        Ok ([line], b3)
    end.

(** What happens: bytes arrive, the line gets room for [n] more bytes, the server pulls, serves one line or pushes *)
Inductive vop := VArrive (s : list ascii) | VRoom (n : nat) | VPull | VServe | VPush.

Variable serve : bstream -> outcome (list (list ascii) * bstream).
Definition vstep (b : bstream) (w : wire) (op : vop) : outcome (list (list ascii) * bstream * wire) :=
  match op with
  | VArrive s => Ok ([], b, mkWire (w_rx w ++ s) (w_room w) (w_tx w))
  | VRoom n => Ok ([], b, mkWire (w_rx w) (w_room w + n) (w_tx w))
  | VPull => '(_, i, w') <- pull_in_data W serial (b_delims b) (length (w_rx w) + 1) (b_in b) w ;; Ok ([], mkBS i (b_out b) (b_delims b), w')
  | VServe => '(ls, b') <- serve b ;; Ok (ls, b', w)
  | VPush => '(_, o, w') <- push_out_data serial (capacity (b_out b) + 1) (b_out b) w ;; Ok ([], mkBS (b_in b) o (b_delims b), w')
  end.
(** The lines served, the buffers and the serial line at the end *)
Fixpoint vrun (b : bstream) (w : wire) (ops : list vop) : outcome (list (list ascii) * bstream * wire) :=
  match ops with
  | [] => Ok ([], b, w)
  | op :: ops' => '(ls1, b1, w1) <- vstep b w op ;; '(ls2, b2, w2) <- vrun b1 w1 ops' ;; Ok (ls1 ++ ls2, b2, w2)
  end.
End Server.

(** buffered_stream.cpp:5-7 *)
Definition bs_new (dbg : bool) (delims : list ascii) (ci co : nat) : outcome bstream :=
  i <- line_new dbg ci ;; o <- line_new dbg co ;; Ok (mkBS i o delims).
