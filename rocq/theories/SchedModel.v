(** Model of structure/time/schedule.{hpp,cpp}. *)
From Coq Require Import ZArith Bool List.
From Verif Require Import Base KTimeModel.
Import ListNotations.
Open Scope Z_scope.

Section Sched.
(** The float values of the blocks are only passed on; [zero] is 0.0f. *)
Variable V : Type.
Variable zero : V.
Variable dbg : bool.

(** schedule.hpp:17-21; times are counts of seconds *)
Record block := mkBlock { bstart : Z; bduration : Z; bvalue : V }.

(** schedule.cpp:8-11; k_time_s(b.duration) is a copy *)
Fixpoint sched_total (total : Z) (l : list block) : outcome Z :=
  match l with
  | [] => Ok total
  | b :: l' => sassert dbg (kgt SEC SEC (bduration b) 0) ;;; sched_total (kadd SEC SEC total (bduration b)) l'
  end.
(** schedule.cpp:5, 7-14; the blocks are copied into an Array (array.hpp:139-146) *)
Definition sched_new (l : list block) : outcome (list block) :=
  total <- sched_total 0 l ;;
  sassert dbg (kle SEC HOUR total 24) ;;;
  Ok l.

(** schedule.cpp:18-19 *)
Definition is_today (t : Z) (b : block) : bool :=
  kge SEC SEC t (bstart b) && klt SEC SEC t (kadd SEC SEC (bstart b) (bduration b)).
Definition is_after_midnight (t : Z) (b : block) : bool :=
  kgt SEC HOUR (kadd SEC SEC (bstart b) (bduration b)) 24 &&
  klt SEC SEC t (ksub SEC HOUR (kadd SEC SEC (bstart b) (bduration b)) 24).
(** schedule.cpp:16-23 *)
Fixpoint value_at (l : list block) (t : Z) : V :=
  match l with
  | [] => zero
  | b :: l' => if is_today t b || is_after_midnight t b then bvalue b else value_at l' t
  end.

(** schedule.cpp:25-30; k_time_h(24) is converted to seconds *)
Fixpoint start_of_next_block (l : list block) (t : Z) : Z :=
  match l with
  | [] => kconv SEC HOUR 24
  | b :: l' => if klt SEC SEC t (bstart b) then bstart b else start_of_next_block l' t
  end.
End Sched.
Arguments mkBlock {V} _ _ _.
Arguments bstart {V} _.
Arguments bduration {V} _.
Arguments bvalue {V} _.
