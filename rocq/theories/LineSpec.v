(** Lines of a byte stream. *)
From Coq Require Import List Arith ZArith Bool Ascii.
From Verif Require Import Base RingOps RingModel RingSpec LineModel.
Import ListNotations.

(** First line of [q] without its delimiter, and what follows the delimiter. *)
Fixpoint first_line (delims : list ascii) (q : list ascii) : option (list ascii * list ascii) :=
  match q with
  | [] => None
  | c :: q' =>
      if existsb (Ascii.eqb c) delims then Some ([], q')
      else match first_line delims q' with
           | None => None
           | Some (l, rest) => Some (c :: l, rest)
           end
  end.

(** All complete lines of a stream, and the unterminated remainder. *)
Fixpoint lines_of (delims : list ascii) (s : list ascii) : list (list ascii) * list ascii :=
  match s with
  | [] => ([], [])
  | c :: s' =>
      let (ls, rem) := lines_of delims s' in
      if existsb (Ascii.eqb c) delims then ([] :: ls, rem)
      else match ls with
           | [] => ([], c :: rem)
           | l :: ls' => ((c :: l) :: ls', rem)
           end
  end.

(** Bytes accepted and lines delivered in a run of the client. *)
Fixpoint accepted (ops : list lop) (xs : list lres) : list ascii :=
  match ops, xs with
  | LFeed s :: ops', LAccepted n :: xs' => firstn n s ++ accepted ops' xs'
  | _ :: ops', _ :: xs' => accepted ops' xs'
  | _, _ => []
  end.

Fixpoint delivered (xs : list lres) : list (list ascii) :=
  match xs with
  | [] => []
  | LLine l :: xs' => l :: delivered xs'
  | _ :: xs' => delivered xs'
  end.

(** A ring in any state the inherited public calls of RingBuffer can reach. *)
Definition reachable {A} (W : Z) (cap : nat) (r : ring A) : Prop :=
  1 <= cap /\ exists dbg init ops r0 xs, ring_new dbg cap init = Ok r0 /\ ring_run W r0 ops = Ok (xs, r).
