(** What users expect of moving and unwrapping: a resource which one Result owns has one owner at any time. *)
From Coq Require Import List Arith Bool.
From Verif Require Import Base ResultModel ResultSpec MoveModel.
Import ListNotations.

Section Own.
Variable den : nat -> Type.
(** The resource a payload owns, if any (a std::unique_ptr's or std::shared_ptr's object, a buffer) *)
Variable owns : forall c, den c -> option nat.
Context {t e i : nat}.
Definition owned (r : result den t e i) : option nat := match rv r with None => None | Some (existT _ c x) => owns c x end.
Definition owns_b (k : nat) (r : result den t e i) : bool := match owned r with Some j => Nat.eqb j k | None => false end.
(** How many variables own resource [k] *)
Definition owners (k : nat) (w : list (result den t e i)) : nat := length (filter (owns_b k) w).
(** Programs which move and read only *)
Inductive moves : mop den (t := t) (e := e) (i := i) -> Prop :=
| mv_new n : moves (MMove den n)
| mv_to m n : m <> n -> moves (MMoveTo den m n)
| mv_read k n : moves (MRead den k n).
Inductive looks : mop den (t := t) (e := e) (i := i) -> Prop :=
| lk_read k n : looks (MRead den k n)
| lk_unwrap k n : looks (MUnwrap den k n).
(** Any program whose own Results are in one of the four states *)
Inductive tame : mop den (t := t) (e := e) (i := i) -> Prop :=
| tm_make r : lawful r -> tame (MMake den r)
| tm_copy n : tame (MCopy den n)
| tm_move n : tame (MMove den n)
| tm_assign m n : tame (MAssign den m n)
| tm_moveto m n : tame (MMoveTo den m n)
| tm_read k n : tame (MRead den k n)
| tm_unwrap k n : tame (MUnwrap den k n)
| tm_chain f n : (forall x, lawful (snd (f x))) -> tame (MChain den f n).
End Own.
(** What a Result reports of itself *)
Definition reports {den : nat -> Type} {t e i} (r : result den t e i) : bool * bool * bool :=
  (is_success den r, is_intermediary den r, is_failed den r).
