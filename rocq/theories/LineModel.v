(** Model of structure/linebuffer.{hpp,cpp}, class LineBuffer : RingBuffer<char>. *)
From Coq Require Import List Arith ZArith Bool Ascii.
From Verif Require Import Base RingOps RingModel.
Import ListNotations.

Definition NUL : ascii := Ascii.zero.

(** linebuffer.cpp:54, std::string_view::find(v) != npos on the delimiters. *)
Definition is_delim (delims : list ascii) (c : ascii) : bool := existsb (Ascii.eqb c) delims.

(** linebuffer.cpp:5-6, 10: the buffer is the inherited ring, the delimiters are a separate member which
    set_delimiters replaces; here they are passed to each call. RingBuffer<char>(capacity) fills with char{} = NUL. *)
Definition line_new (dbg : bool) (cap : nat) : outcome (ring ascii) := ring_new dbg cap NUL.

(** linebuffer.cpp:8 *)
Definition line_push (W : Z) (r : ring ascii) (s : list ascii) : outcome (nat * ring ascii) := push_n W r s false.

(** linebuffer.cpp:45-57: loop over i = 0 .. used_space()-1, [k] iterations left. *)
Fixpoint lonl_loop (delims : list ascii) (r : ring ascii) (i k len : nat) : outcome nat :=
  match k with
  | 0 => Ok 0
  | S k' =>
      v <- peek_at r i ;;
      match v with
      | None => Ok 0
      | Some c => if is_delim delims c then Ok (S len) else lonl_loop delims r (S i) k' (S len)
      end
  end.

Definition length_of_next_line (delims : list ascii) (r : ring ascii) : outcome nat :=
  lonl_loop delims r 0 (used_space r) 0.

(** linebuffer.hpp:25 *)
Definition has_line (delims : list ascii) (r : ring ascii) : outcome bool :=
  n <- length_of_next_line delims r ;; Ok (0 <? n).

(** discovered_length.value_or(length_of_next_line()), linebuffer.cpp:13, 22, 34 *)
Definition discovered (delims : list ascii) (r : ring ascii) (d : option nat) : outcome nat :=
  n <- length_of_next_line delims r ;; Ok (match d with Some k => k | None => n end).

(** linebuffer.cpp:12-19: a string_view is (offset of its first byte in the storage, length). *)
Definition get_next_line_view (delims : list ascii) (r : ring ascii) (d : option nat) : outcome (option (nat * nat)) :=
  length <- discovered delims r d ;;
  if length =? 0 then Ok None
  else match peek_ptr r 0 with
       | None => Ok None
       | Some p => Ok (Some (p, length - 1))
       end.

(** Reading all bytes of a view: every byte has to lie in the storage. *)
Fixpoint view_read (store : list ascii) (off len : nat) : outcome (list ascii) :=
  match len with
  | 0 => Ok []
  | S k => c <- rd store off ;; cs <- view_read store (S off) k ;; Ok (c :: cs)
  end.

(** linebuffer.cpp:25-27: pop(buffer[i]) for i = i0 .. i0+k-1 into the caller's memory [out]; a failing pop leaves
    buffer[i] as it is. *)
Fixpoint line_loop (r : ring ascii) (out : list ascii) (i k : nat) : outcome (list ascii * ring ascii) :=
  match k with
  | 0 => Ok (out, r)
  | S k' =>
      '(v, r1) <- pop r ;;
      match v with
      | Some c => out1 <- wr out i c ;; line_loop r1 out1 (S i) k'
      | None => line_loop r1 out (S i) k'
      end
  end.

(** linebuffer.cpp:21-31: returns (number returned, caller's buffer, ring). *)
Definition get_next_line (delims : list ascii) (r : ring ascii) (out : list ascii) (max_length : nat) (d : option nat)
  : outcome (nat * list ascii * ring ascii) :=
  length <- discovered delims r d ;;
  if (length =? 0) || (max_length <? length) then Ok (0, out, r)
  else
    let length := length - 1 in
    '(out1, r1) <- line_loop r out 0 length ;;
    '(_, r2) <- pop r1 ;;
    out2 <- wr out1 length NUL ;;
    Ok (length, out2, r2).

(** linebuffer.cpp:37-40 *)
Fixpoint drop_loop (r : ring ascii) (k : nat) : outcome (ring ascii) :=
  match k with
  | 0 => Ok r
  | S k' => '(_, r1) <- pop r ;; drop_loop r1 k'
  end.

(** linebuffer.cpp:33-43 *)
Definition drop_next_line (delims : list ascii) (r : ring ascii) (d : option nat) : outcome (bool * ring ascii) :=
  length <- discovered delims r d ;;
  if length =? 0 then Ok (false, r)
  else
    r1 <- drop_loop r (length - 1) ;;
    '(_, r2) <- pop r1 ;;
    Ok (true, r2).

(** A client which feeds bytes and, when has_line() says so, reads a line into a buffer of [m] bytes. *)
Inductive lop := LFeed (s : list ascii) | LRead.
Inductive lres := LAccepted (n : nat) | LLine (line : list ascii) | LNoLine.

Definition line_step (W : Z) (delims : list ascii) (m : nat) (r : ring ascii) (op : lop) : outcome (lres * ring ascii) :=
  match op with
  | LFeed s => '(n, r') <- line_push W r s ;; Ok (LAccepted n, r')
  | LRead =>
      b <- has_line delims r ;;
      if b : bool
      then '(n, out, r') <- get_next_line delims r (repeat NUL m) m None ;; Ok (LLine (firstn n out), r')
      else Ok (LNoLine, r)
  end.

Fixpoint line_run (W : Z) (delims : list ascii) (m : nat) (r : ring ascii) (ops : list lop)
  : outcome (list lres * ring ascii) :=
  match ops with
  | [] => Ok ([], r)
  | op :: ops' =>
      '(x, r1) <- line_step W delims m r op ;;
      '(xs, r2) <- line_run W delims m r1 ops' ;;
      Ok (x :: xs, r2)
  end.
