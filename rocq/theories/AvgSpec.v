(** Property C126: the numbers that the filters stand for, on real numbers. *)
From Coq Require Import ZArith List Reals.
From Flocq Require Import Core.
Import ListNotations.
Open Scope R_scope.

Definition mean (xs : list R) : R := fold_right Rplus 0 xs / INR (length xs).
(** Each further sample has the weight 1/K, what was there before loses that much *)
Fixpoint decay (K a : R) (xs : list R) : R := match xs with [] => a | x :: t => decay K (x / K + (1 - / K) * a) t end.
(** The mean of the first K samples, then exponentially weighted *)
Definition average (K : R) (xs : list R) : R := let n := Z.to_nat (Zfloor K) in decay K (mean (firstn n xs)) (skipn n xs).
(** The straight line through (il, ol) and (ih, oh), at [s] cut to [il, ih] *)
Definition straight (il ih ol oh s : R) : R := ol + (Rmax il (Rmin ih s) - il) / (ih - il) * (oh - ol).
