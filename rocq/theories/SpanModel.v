(** Model of kernel time in the range of its value type: time_t is a signed 64-bit integer (raw_types.hpp:8), so that a sum, difference,
    product or quotient outside of its range, and the conversion of a float outside of it, are undefined. On top of KTimeModel. *)
From Coq Require Import ZArith Bool List.
From Verif Require Import Base KTimeModel TimersModel.
Import ListNotations.
Open Scope Z_scope.

Definition i64 (z : Z) : outcome Z := if (- 2 ^ 63 <=? z) && (z <? 2 ^ 63) then Ok z else UB.
(** unit.hpp:138-143 *)
Definition sfrom (other this : kunit) (y : Z) : outcome Z := i64 (from_other other this y).
Section Ops.
Variable this other : kunit.
(** unit.hpp:36-37, 39-48 *)
Definition sconv (y : Z) : outcome Z := sfrom other this y.
(** unit.hpp:50-53, 64-68 *)
Definition sadd (x y : Z) : outcome Z := v <- sfrom other this y ;; i64 (x + v).
(** unit.hpp:54-57, 59-63 *)
Definition ssub (x y : Z) : outcome Z := v <- sfrom other this y ;; i64 (x - v).
(** unit.hpp:69-73 *)
Definition smul (x y : Z) : outcome Z := v <- sfrom other this y ;; i64 (x * v).
(** unit.hpp:74-79 *)
Definition sdivide (x y : Z) : outcome Z := v <- sfrom other this y ;; if v =? 0 then Halt else i64 (Z.quot x v).
(** unit.hpp:102-126 *)
Definition scmp (test : Z -> Z -> bool) (x y : Z) : outcome bool := v <- sfrom other this y ;; Ok (test x v).
Definition seq := scmp Z.eqb.
Definition sne := scmp (fun a b => negb (a =? b)).
Definition slt := scmp Z.ltb.
Definition sgt := scmp (fun a b => b <? a).
Definition sle := scmp Z.leb.
Definition sge := scmp (fun a b => b <=? a).
End Ops.
(** unit.hpp:58 *)
Definition sneg (x : Z) : outcome Z := i64 (- x).
(** unit.hpp:81-89, a scalar of type time_t *)
Definition sscale (x s : Z) : outcome Z := i64 (x * s).
(** unit.hpp:90-100, a scalar of type time_t *)
Definition sdiv_scalar (x s : Z) : outcome Z := if s =? 0 then Halt else i64 (Z.quot x s).
(** The timers of TimersModel with their arithmetic in this range. timers.cpp:19-21; without assertions the second line is not evaluated *)
Definition salarm_new (dbg : bool) (now future : Z) (absolute : bool) : outcome alarm :=
  f <- (if absolute then Ok future else sadd MS MS now future) ;;
  c <- (if negb absolute then Ok true else if dbg then sgt MS MS future now else Ok true) ;;
  sassert dbg c ;;; Ok (mkAlarm f false).
(** timers.cpp:23-33 *)
Definition salarm_expired (now : Z) (a : alarm) : outcome (bool * alarm) :=
  if aexpired a then Ok (true, a)
  else le <- sle MS MS (afuture a) now ;; Ok (if le then (true, mkAlarm (afuture a) true) else (false, a)).
(** timers.cpp:35 *)
Definition salarm_time_from_now (now : Z) (a : alarm) : outcome Z := ssub MS MS (afuture a) now.
(** timers.cpp:7-11 *)
Definition stime_since_last (now : Z) (reset : bool) (t : timer) : outcome (Z * timer) :=
  d <- ssub MS MS now (tlast t) ;; Ok (d, if reset then timer_reset now t else t).
(** timers.cpp:44-56 *)
Definition sitimer_expired (now : Z) (t : itimer) : outcome (bool * itimer) :=
  d <- ssub MS MS now (iprev t) ;;
  gt <- sgt MS MS d (ival t) ;;
  if gt then p <- (if icatch t then sadd MS MS (iprev t) (ival t) else Ok now) ;; Ok (true, mkIT p (ival t) (icatch t))
  else Ok (false, t).
(** timers.cpp:60 *)
Definition sitimer_future (t : itimer) : outcome Z := sadd MS MS (iprev t) (ival t).
(** timers.cpp:62 *)
Definition sitimer_until_next (now : Z) (t : itimer) : outcome Z := f <- sitimer_future t ;; ssub MS MS f now.
(** Calls of expired() and time_since_last(true) with the clock at [ts] *)
Fixpoint salarm_polls (a : alarm) (ts : list Z) : outcome (list bool * alarm) :=
  match ts with [] => Ok ([], a) | t :: ts' => '(b, a1) <- salarm_expired t a ;; '(bs, a2) <- salarm_polls a1 ts' ;; Ok (b :: bs, a2) end.
Fixpoint sitimer_polls (i : itimer) (ts : list Z) : outcome (list bool * itimer) :=
  match ts with [] => Ok ([], i) | t :: ts' => '(b, i1) <- sitimer_expired t i ;; '(bs, i2) <- sitimer_polls i1 ts' ;; Ok (b :: bs, i2) end.
Fixpoint stimer_polls (r : timer) (ts : list Z) : outcome (list Z) :=
  match ts with [] => Ok [] | t :: ts' => '(x, r') <- stime_since_last t true r ;; xs <- stimer_polls r' ts' ;; Ok (x :: xs) end.
