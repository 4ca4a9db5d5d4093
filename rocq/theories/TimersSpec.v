(** Properties C32, C33, C60 over histories of polls. *)
From Coq Require Import ZArith List Bool Sorting.Sorted.
From Verif Require Import Base KTimeModel TimersModel.
Import ListNotations.
Open Scope Z_scope.

(** A timer polled when the clock shows each of [ts] *)
Fixpoint alarm_polls (a : alarm) (ts : list Z) : list bool :=
  match ts with [] => [] | t :: ts' => let (b, a') := alarm_expired t a in b :: alarm_polls a' ts' end.
Fixpoint itimer_polls (i : itimer) (ts : list Z) : list bool :=
  match ts with [] => [] | t :: ts' => let (b, i') := itimer_expired t i in b :: itimer_polls i' ts' end.
Fixpoint timer_polls (r : timer) (ts : list Z) : list Z :=
  match ts with [] => [] | t :: ts' => let (x, r') := time_since_last t true r in x :: timer_polls r' ts' end.

(** Expiries reported so far, and the time of the last one ([s]: none yet) *)
Definition expiries (bs : list bool) : Z := Z.of_nat (count_occ bool_dec bs true).
Fixpoint last_expiry (s : Z) (ts : list Z) (bs : list bool) : Z :=
  match ts, bs with t :: ts', b :: bs' => last_expiry (if b then t else s) ts' bs' | _, _ => s end.

(** Times for which single precision is exact: up to 2^24 ms, 4 hours and 39 minutes *)
Definition short (t : Z) : Prop := 0 <= t <= 2 ^ 24.
