(** Property C118: moments, as a date of the calendar with a time of day and as a number of seconds. *)
From Coq Require Import ZArith.
From Verif Require Import Base DateSpec CalModel.
Open Scope Z_scope.

(** The day [n] days after 1970-01-01, counted one by one (backwards where n is negative) *)
Definition day_at (n : Z) (date : Z * Z * Z) : Prop :=
  (0 <= n /\ days_later (1970, 1, 1) n date) \/ (n < 0 /\ days_later date (- n) (1970, 1, 1)).
Definition clock (h mi s : Z) : Prop := 0 <= h < 24 /\ 0 <= mi < 60 /\ 0 <= s < 60.
(** [t] seconds after 1970-01-01 00:00:00 it is h:mi:s on the date given, a day [w] of the week counted from Sunday as 0, the day [k]
    of the year counted from 0; 1970-01-01 was a Thursday. *)
Definition moment (t y m d h mi s w k : Z) : Prop :=
  exists n, day_at n (y, m, d) /\ valid y m d /\ clock h mi s /\ t = 86400 * n + 3600 * h + 60 * mi + s /\
    w = (4 + n) mod 7 /\ days_later (y, 1, 1) k (y, m, d).
(** The earlier of two dates with times *)
Definition earlier (a b : Z * Z * Z * Z * Z * Z) : Prop :=
  let '(y, m, d, h, mi, s) := a in let '(y', m', d', h', mi', s') := b in
  y < y' \/ (y = y' /\ (m < m' \/ (m = m' /\ (d < d' \/ (d = d' /\ (h < h' \/ (h = h' /\ (mi < mi' \/ (mi = mi' /\ s < s'))))))))).

(** What a DateTime shows; getDST is 0 in UTC *)
Definition shows (t : datetime) (y m d h mi s w k : Z) : Prop :=
  getYear t = Ok y /\ getMonth t = Ok m /\ getDay t = Ok d /\ getHour t = Ok h /\ getMinute t = Ok mi /\ getSecond t = Ok s /\
  getWeekDay t = Ok w /\ getYearDay t = Ok k /\ getDST t = Ok 0.
(** Years whose difference from 1900 is an int *)
Definition year_fits (y : Z) : Prop := 1900 - 2 ^ 31 <= y < 2 ^ 31.
