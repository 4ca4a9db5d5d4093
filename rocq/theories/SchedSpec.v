(** Properties C34, C35: blocks of a day. *)
From Coq Require Import ZArith List.
From Verif Require Import SchedModel.
Import ListNotations.
Open Scope Z_scope.

Definition day : Z := 86400.

(** A block covers a second of the day if it runs at that time today or, counted from a later day, runs past midnight into it. *)
Definition covers {V} (b : block V) (t : Z) : Prop := exists n, bstart b <= t + n * day < bstart b + bduration b.
(** Starts within the day, lasts up to a day *)
Definition proper {V} (b : block V) : Prop := 0 <= bstart b < day /\ 0 < bduration b <= day.
Definition total {V} (l : list (block V)) : Z := fold_right (fun b s => bduration b + s) 0 l.
