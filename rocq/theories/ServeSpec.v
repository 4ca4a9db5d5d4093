(** What a server is supposed to do. *)
From Coq Require Import List Arith ZArith Bool Ascii.
From Verif Require Import Base ServeModel.
Import ListNotations.

(** All bytes that arrive *)
Fixpoint received (ops : list vop) : list ascii :=
  match ops with [] => [] | VArrive s :: ops' => s ++ received ops' | _ :: ops' => received ops' end.

(** A server that goes on, [n] rounds: the line empties, the server pushes, pulls and serves; in the end the rest is pushed. *)
Definition round (co : nat) : list vop := [VRoom co; VPush; VPull; VServe].
Fixpoint rounds (co n : nat) : list vop := match n with 0 => [VRoom co; VPush] | S k => round co ++ rounds co k end.

(** Lines stored one after the other, each with its delimiter, from [pos] on in a ring of [ci] bytes: none of them crosses its end. *)
Fixpoint straight (ci pos : nat) (ls : list (list ascii)) : Prop :=
  match ls with [] => True | l :: ls' => pos mod ci + length l <= ci /\ straight ci (pos + length l + 1) ls' end.
