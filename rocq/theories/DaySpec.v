(** Property C141: a schedule that is asked with the time of day of a DateTime. *)
From Coq Require Import ZArith List.
From Verif Require Import Base KTimeModel SchedModel CalModel.
Import ListNotations.
Open Scope Z_scope.

(** What the client does: k_time_s(t.getSecond()) + k_time_m(t.getMinute()) + k_time_h(t.getHour()) *)
Definition time_of_day (t : datetime) : outcome Z :=
  s <- getSecond t ;; mi <- getMinute t ;; h <- getHour t ;; Ok (kadd SEC HOUR (kadd SEC MIN s mi) h).
(** It asks the schedule by a Unix time; also how many seconds to sleep until the next block *)
Definition asked {V} (zero : V) (dbg : bool) (s : list (block V)) (unix : Z) : outcome V :=
  t <- DateTime_unix dbg unix ;; x <- time_of_day t ;; Ok (value_at V zero s x).
Definition nap {V} (dbg : bool) (s : list (block V)) (unix : Z) : outcome Z :=
  t <- DateTime_unix dbg unix ;; x <- time_of_day t ;; Ok (ksub SEC SEC (start_of_next_block V s x) x).

(** A block runs every day, [running] at the Unix time [u] if it began then or before, on that day or on the day before, and has not ended *)
Definition begins {V} (b : block V) (u : Z) : Prop := exists n, u = 86400 * n + bstart b.
Definition running {V} (b : block V) (u : Z) : Prop := exists u0, begins b u0 /\ u0 <= u < u0 + bduration b.
Definition midnight (u : Z) : Prop := exists n, u = 86400 * n.
