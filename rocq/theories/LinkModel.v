(** Two hosts, each with a BufferedStream (io/stream/buffered_stream.{hpp,cpp}), joined by a serial line that delays but loses nothing:
    a client that sends requests and reads the answers, and the server of ServeModel. Client code over the calls modelled in StreamModel. *)
From Coq Require Import List Arith ZArith Bool Ascii.
From Verif Require Import Base RingOps RingModel LineModel StreamModel ServeModel.
Import ListNotations.

(** The streams of client and server with their ends of the serial line; [w_tx] is under way to the other end *)
Record link := mkLink { k_a : bstream; k_wa : wire; k_b : bstream; k_wb : wire }.

(** Client and server each get room in their driver, push and pull (buffered_stream.cpp:26-57); the client sends a line or reads one, the
    server serves one; so many bytes, or all of them, get to the other end. *)
Inductive kop :=
  | KSend (l : list ascii) | KRead | KServe
  | KRoomA (n : nat) | KPushA | KPullA | KRoomB (n : nat) | KPushB | KPullB
  | KToB (n : option nat) | KToA (n : option nat).

Section Link.
Variable W : Z.
Variable d : ascii.                              (** ends lines *)
Variable answer : list ascii -> list ascii.
Variable most : nat.                             (** the server waits until an answer of this length, with its end, has room *)
Variable ma mb : nat.                            (** lengths of the buffers lines are read into *)

(** output_buffer_space_left, buffered_write (buffered_stream.hpp:28-48) *)
Definition send (l : list ascii) (b : bstream) : outcome (bool * bstream) :=
  if free_space (b_out b) <? length l + 1 then Ok (false, b)
  else '(_, o) <- push_n W (b_out b) (l ++ [d]) false ;; Ok (true, mkBS (b_in b) o (b_delims b)).
(** has_line, get_next_line (buffered_stream.hpp:28-48) *)
Definition read_line (b : bstream) : outcome (list (list ascii) * bstream) :=
  h <- has_line (b_delims b) (b_in b) ;;
  if h : bool
  then '(n, out, i) <- get_next_line (b_delims b) (b_in b) (repeat NUL ma) ma None ;; Ok ([firstn n out], mkBS i (b_out b) (b_delims b))
  else Ok ([], b).
Definition nothing (b : bstream) : outcome (list (list ascii) * bstream) := Ok ([], b).

Definition carry (n : option nat) (w w' : wire) : wire * wire :=
  let k := match n with Some k => k | None => length (w_tx w) end in
  (mkWire (w_rx w) (w_room w) (skipn k (w_tx w)), mkWire (w_rx w' ++ firstn k (w_tx w)) (w_room w') (w_tx w')).

(** The line sent and the line read, if any *)
Definition kstep (s : link) (op : kop) : outcome (list (list ascii) * list (list ascii) * link) :=
  let '(mkLink a wa b wb) := s in
  match op with
  | KSend l => '(ok, a') <- send l a ;; Ok (if ok : bool then [l] else [], [], mkLink a' wa b wb)
  | KRead => '(ls, a') <- read_line a ;; Ok ([], ls, mkLink a' wa b wb)
  | KServe => '(_, b') <- serve_copy W (fun l => answer l ++ [d]) (most + 1) mb b ;; Ok ([], [], mkLink a wa b' wb)
  | KRoomA n => '(_, a', wa') <- vstep W nothing a wa (VRoom n) ;; Ok ([], [], mkLink a' wa' b wb)
  | KPushA => '(_, a', wa') <- vstep W nothing a wa VPush ;; Ok ([], [], mkLink a' wa' b wb)
  | KPullA => '(_, a', wa') <- vstep W nothing a wa VPull ;; Ok ([], [], mkLink a' wa' b wb)
  | KRoomB n => '(_, b', wb') <- vstep W nothing b wb (VRoom n) ;; Ok ([], [], mkLink a wa b' wb')
  | KPushB => '(_, b', wb') <- vstep W nothing b wb VPush ;; Ok ([], [], mkLink a wa b' wb')
  | KPullB => '(_, b', wb') <- vstep W nothing b wb VPull ;; Ok ([], [], mkLink a wa b' wb')
  | KToB n => let (wa', wb') := carry n wa wb in Ok ([], [], mkLink a wa' b wb')
  | KToA n => let (wb', wa') := carry n wb wa in Ok ([], [], mkLink a wa' b wb')
  end.
(** The lines sent, the lines read *)
Fixpoint krun (s : link) (ops : list kop) : outcome (list (list ascii) * list (list ascii) * link) :=
  match ops with
  | [] => Ok ([], [], s)
  | op :: ops' => '(x1, y1, s1) <- kstep s op ;; '(x2, y2, s2) <- krun s1 ops' ;; Ok (x1 ++ x2, y1 ++ y2, s2)
  end.
End Link.

(** buffered_stream.cpp:5-7, once on each host *)
Definition link_new (dbg : bool) (delims : list ascii) (cia coa cib cob : nat) : outcome link :=
  a <- bs_new dbg delims cia coa ;; b <- bs_new dbg delims cib cob ;; Ok (mkLink a (mkWire [] 0 []) b (mkWire [] 0 [])).
