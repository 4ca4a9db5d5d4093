(** What a byte source, a byte sink and a transaction are supposed to do. *)
From Coq Require Import List Arith ZArith Bool Ascii.
From Verif Require Import Base RingOps RingModel RingSpec LineModel LineSpec StreamModel.
Import ListNotations.

(** [source st s l]: reading the stream from state [s] yields exactly the bytes [l], then nothing is available. *)
Fixpoint source {S} (st : stream_ops S) (s : S) (l : list ascii) : Prop :=
  match l with
  | [] => s_available st s = 0
  | c :: l' => 0 < s_available st s /\ exists s', s_read st s = Ok (Some c, s') /\ source st s' l'
  end.

(** No byte of [q] is a delimiter. *)
Definition no_delim (delims q : list ascii) : Prop := Forall (fun c => existsb (Ascii.eqb c) delims = false) q.

(** Every line of [s], delimiter included, and the unterminated rest have at most [cap] bytes. *)
Definition fits (delims : list ascii) (cap : nat) (s : list ascii) : Prop :=
  Forall (fun l => length l + 1 <= cap) (fst (lines_of delims s)) /\ length (snd (lines_of delims s)) <= cap.

(** The input buffer of a BufferedStream only sees overwriting pushes and pops. *)
Definition in_op (op : rop ascii) : Prop := match op with OpPush _ true | OpPop => True | _ => False end.

Definition in_reachable (W : Z) (cap : nat) (r : ring ascii) : Prop :=
  1 <= cap /\ exists dbg ops r0 xs, ring_new dbg cap NUL = Ok r0 /\ Forall in_op ops /\ ring_run W r0 ops = Ok (xs, r).

(** A byte source without any bounds of its own: the list of bytes waiting. *)
Definition list_stream : stream_ops (list ascii) := {|
  s_available := fun s => length s;
  s_read := fun s => match s with [] => Ok (None, []) | c :: s' => Ok (Some c, s') end;
  s_room := fun _ => 0;
  s_write := fun s _ => Ok (false, s)
|}.

(** A client of the input side: bytes arrive, it pulls, it reads a line if there is one. *)
Inductive iop := IArrive (s : list ascii) | IPull | IRead.

Definition in_step (W : Z) (delims : list ascii) (m : nat) (r : ring ascii) (src : list ascii) (op : iop)
  : outcome (list (list ascii) * ring ascii * list ascii) :=
  match op with
  | IArrive s => Ok ([], r, src ++ s)
  | IPull => '(_, r', src') <- pull_in_data W list_stream delims (length src + 1) r src ;; Ok ([], r', src')
  | IRead =>
      b <- has_line delims r ;;
      if b : bool
      then '(n, out, r') <- get_next_line delims r (repeat NUL m) m None ;; Ok ([firstn n out], r', src)
      else Ok ([], r, src)
  end.

(** The lines read, the input buffer, the bytes still waiting. *)
Fixpoint in_run (W : Z) (delims : list ascii) (m : nat) (r : ring ascii) (src : list ascii) (ops : list iop)
  : outcome (list (list ascii) * ring ascii * list ascii) :=
  match ops with
  | [] => Ok ([], r, src)
  | op :: ops' =>
      '(ls1, r1, src1) <- in_step W delims m r src op ;;
      '(ls2, r2, src2) <- in_run W delims m r1 src1 ops' ;;
      Ok (ls1 ++ ls2, r2, src2)
  end.

Fixpoint arrivals (ops : list iop) : list ascii :=
  match ops with
  | [] => []
  | IArrive s :: ops' => s ++ arrivals ops'
  | _ :: ops' => arrivals ops'
  end.

(** [reliable st Inv]: while the stream is in a state of [Inv] and reports room, a write succeeds. *)
Definition reliable {S} (st : stream_ops S) (Inv : S -> Prop) : Prop :=
  forall s c, Inv s -> 0 < s_room st s -> exists s', s_write st s c = Ok (true, s') /\ Inv s'.

(** [sent st s l s']: writing the bytes [l] one after the other from [s] succeeds and ends in [s']. *)
Fixpoint sent {S} (st : stream_ops S) (s : S) (l : list ascii) (s' : S) : Prop :=
  match l with
  | [] => s' = s
  | c :: l' => exists s1, s_write st s c = Ok (true, s1) /\ sent st s1 l' s'
  end.

(** A client of the output side; between its calls the device behind the stream may change the stream's state. *)
Inductive oop (S : Type) := OWrite (s : list ascii) | OPushOut | ODevice (f : S -> S).
Arguments OWrite {S} _.
Arguments OPushOut {S}.
Arguments ODevice {S} _.

(** A stream which remembers the bytes written to it successfully. *)
Definition logged {S} (st : stream_ops S) : stream_ops (S * list ascii) :=
  {| s_available := fun p => s_available st (fst p);
     s_read := fun p => '(v, s') <- s_read st (fst p) ;; Ok (v, (s', snd p));
     s_room := fun p => s_room st (fst p);
     s_write := fun p c => '(b, s') <- s_write st (fst p) c ;;
                           Ok (b, (s', if b : bool then snd p ++ [c] else snd p)) |}.

(** The bytes accepted by buffered_write, the bytes handed to the stream successfully, the buffer, the stream. *)
Fixpoint out_run {S} (W : Z) (st : stream_ops S) (r : ring ascii) (s : S) (ops : list (oop S))
  : outcome (list ascii * list ascii * ring ascii * S) :=
  match ops with
  | [] => Ok ([], [], r, s)
  | op :: ops' =>
      '(a1, d1, r1, s1) <-
        match op with
        | OWrite bytes => '(n, r1) <- push_n W r bytes false ;; Ok (firstn n bytes, [], r1, s)
        | ODevice f => Ok ([], [], r, f s)
        | OPushOut =>
            '(_, r1, p) <- push_out_data (logged st) (capacity r + 1) r (s, []) ;;
            Ok ([], snd p, r1, fst p)
        end ;;
      '(a2, d2, r2, s2) <- out_run W st r1 s1 ops' ;;
      Ok (a1 ++ a2, d1 ++ d2, r2, s2)
  end.

(** What the output buffer (of capacity [cap], holding [qo]) holds after a client wrote through a transaction. *)
Fixpoint tx_written (cap : nat) (qo : list ascii) (ops : list txop) : list ascii :=
  match ops with
  | TOutC c :: ops' => tx_written cap (qo ++ firstn (cap - length qo) [c]) ops'
  | TOut s :: ops' => tx_written cap (qo ++ firstn (cap - length qo) s) ops'
  | _ :: ops' => tx_written cap qo ops'
  | [] => qo
  end.

(** Calls that do not finalize. *)
Definition writes_only (op : txop) : Prop := match op with TCommit | TAbort => False | _ => True end.

(** [b]: input buffer holding [qi], output buffer holding [qo], both in states reachable through their public calls. *)
Definition bs_holds (W : Z) (cap_in cap_out : nat) (b : bstream) (qi qo : list ascii) : Prop :=
  reachable W cap_in (b_in b) /\ holds (b_in b) qi /\ reachable W cap_out (b_out b) /\ holds (b_out b) qo.
