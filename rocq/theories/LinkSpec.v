(** What client and server are supposed to do together. *)
From Coq Require Import List Arith Bool Ascii.
From Verif Require Import LineSpec StreamSpec LinkModel.
Import ListNotations.

(** A line that fits, with its end, into a buffer of [cap] bytes and contains no end of its own *)
Definition proper (delims : list ascii) (cap : nat) (l : list ascii) : Prop := no_delim delims l /\ length l + 1 <= cap.
(** The client sends such lines only *)
Definition asks (delims : list ascii) (cap : nat) (op : kop) : Prop := match op with KSend l => proper delims cap l | _ => True end.

(** Everything goes on once: client and server push, pull, serve and read, and all bytes get to the other end. *)
Definition turn (coa cob : nat) : list kop :=
  [KRoomA coa; KPushA; KToB None; KRoomB cob; KPushB; KPullB; KServe; KRoomB cob; KPushB; KToA None; KPullA; KRead].
Fixpoint turns (coa cob n : nat) : list kop := match n with 0 => [] | S k => turn coa cob ++ turns coa cob k end.
(** One request after the other *)
Fixpoint calls (coa cob : nat) (ls : list (list ascii)) : list kop :=
  match ls with [] => [] | l :: ls' => KSend l :: turn coa cob ++ calls coa cob ls' end.
