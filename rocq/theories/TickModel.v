(** Timer, SRLatch and Pipeline::push on a clock that may advance between the reads of HAL::millis() within one call. [clk k] is what
    the k-th read gives. *)
From Coq Require Import ZArith Bool List.
From Verif Require Import Base KTimeModel TimersModel LatchModel.
Import ListNotations.
Open Scope Z_scope.

(** timers.cpp:7-13: the difference is taken with one read, the reset (default argument, timers.hpp:21) with another *)
Definition since_last_at (r1 r2 : Z) (t : timer) : Z * timer := (ksub MS MS r1 (tlast t), timer_reset r2 t).
Fixpoint polls_at (t : timer) (rs : list (Z * Z)) : list Z :=
  match rs with [] => [] | (r1, r2) :: rs' => let (x, t') := since_last_at r1 r2 t in x :: polls_at t' rs' end.

Section Latch.
Variable F : Type.
Variable ltb : F -> F -> bool.
Variable cfg : config F.
Variable clk : nat -> Z.
(** sr_latch.cpp:5-30; [n] reads before the call. One of lines 6 and 7 reads the clock, one of lines 10 and 17 does if its maximal time
    is not 0, and set() does. Result: the latch and the number of reads so far. *)
Definition new_reading_at (n : nat) (value : F) (l : latch) : latch * nat :=
  let since k := fst (time_since_last (clk (n + k)) false (lturned l)) in
  if lvalue l && klt MS MS (since 0%nat) (min_on F cfg) then (l, n + 1)%nat
  else if negb (lvalue l) && klt MS MS (since 0%nat) (min_off F cfg) then (l, n + 1)%nat
  else if kne MS MS (max_on F cfg) 0 && lvalue l && kgt MS MS (since 1%nat) (max_on F cfg) then (latch_set (clk (n + 2)%nat) false l, n + 3)%nat
  else if kne MS MS (max_off F cfg) 0 && negb (lvalue l) && kgt MS MS (since 1%nat) (max_off F cfg) then (latch_set (clk (n + 2)%nat) true l, n + 3)%nat
  else
    let k := if (kne MS MS (max_on F cfg) 0 && lvalue l) || (kne MS MS (max_off F cfg) 0 && negb (lvalue l)) then 2%nat else 1%nat in
    if ltb (high F cfg) value then (latch_set (clk (n + k)%nat) true l, n + k + 1)%nat
    else if ltb value (low F cfg) then (latch_set (clk (n + k)%nat) false l, n + k + 1)%nat
    else (l, n + k)%nat.
Fixpoint readings_at (l : latch) (n : nat) (vs : list F) : latch * nat :=
  match vs with [] => (l, n) | v :: vs' => let (l', n') := new_reading_at n v l in readings_at l' n' vs' end.
(** sr_latch.hpp:29 with read 0 *)
Definition latch_at (vs : list F) : latch * nat := readings_at (latch_new F cfg (clk 0%nat)) 1 vs.
End Latch.

Section Pipe.
(** A future is its due time and what it carries. Simplified: the vector is the list of its elements, insert and push_back are those of
    C14; the pipeline is not full. *)
Variable A : Type.
(** Which operand of "<" in pipeline.cpp:74 is evaluated first: the standard leaves it open *)
Variable own_first : bool.
(** pipeline.cpp:72-83; [k] reads before *)
Fixpoint insert_at (clk : nat -> Z) (k : nat) (e : Z * A) (pipe : list (Z * A)) : list (Z * A) :=
  match pipe with
  | [] => [e]
  | o :: rest =>
      let (re, ro) := if own_first then (clk k, clk (k + 1)%nat) else (clk (k + 1)%nat, clk k) in
      if klt MS MS (ksub MS MS (fst e) re) (ksub MS MS (fst o) ro) then e :: pipe else o :: insert_at clk (k + 2) e rest
  end.
(** pipeline.cpp:69-84; reschedule() (pipeline.cpp:9-13) makes an alarm with read 0 *)
Definition push_at (clk : nat -> Z) (d : Z) (a : A) (pipe : list (Z * A)) : list (Z * A) := insert_at clk 1 (kadd MS MS (clk 0%nat) d, a) pipe.
(** Pushes, each with the reads of its own call, and removals of the first future (pipeline.cpp:62) *)
Inductive pop := PPush (clk : nat -> Z) (d : Z) (a : A) | PPop.
Definition pipe_do (o : pop) (pipe : list (Z * A)) : list (Z * A) := match o with PPush clk d a => push_at clk d a pipe | PPop => tl pipe end.
Definition pipe_run (os : list pop) : list (Z * A) := fold_left (fun p o => pipe_do o p) os [].
End Pipe.
