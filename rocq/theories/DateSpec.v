(** Properties C36, C62: the Gregorian calendar, day by day. *)
From Coq Require Import ZArith Lia.
Open Scope Z_scope.

Definition leap (y : Z) : Prop := (4 | y) /\ (~ (100 | y) \/ (400 | y)).
(** The number of days of a month *)
Inductive month_days (y : Z) : Z -> Z -> Prop :=
| md_30 m : m = 4 \/ m = 6 \/ m = 9 \/ m = 11 -> month_days y m 30
| md_31 m : m = 1 \/ m = 3 \/ m = 5 \/ m = 7 \/ m = 8 \/ m = 10 \/ m = 12 -> month_days y m 31
| md_feb : ~ leap y -> month_days y 2 28
| md_feb_leap : leap y -> month_days y 2 29.
Definition valid (y m d : Z) : Prop := exists n, month_days y m n /\ 1 <= d <= n.
(** The next day *)
Inductive next_day : Z * Z * Z -> Z * Z * Z -> Prop :=
| nd_day y m d n : month_days y m n -> 1 <= d < n -> next_day (y, m, d) (y, m, d + 1)
| nd_month y m n : month_days y m n -> m < 12 -> next_day (y, m, n) (y, m + 1, 1)
| nd_year y : next_day (y, 12, 31) (y + 1, 1, 1).
(** [n] days later *)
Inductive days_later : Z * Z * Z -> Z -> Z * Z * Z -> Prop :=
| dl_0 a : days_later a 0 a
| dl_S a n b c : days_later a n b -> next_day b c -> days_later a (n + 1) c.
