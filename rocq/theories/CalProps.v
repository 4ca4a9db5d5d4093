(** Property C118: dates given as fields, as a Unix time and as text, structure/time/datetime.{hpp,cpp}, in UTC. *)
From Coq Require Import ZArith Lia Bool List String Ascii.
From Verif Require Import Base DateModel DateSpec DateProofs ScanModel ScanSpec ScanProofs CalModel CalSpec CalProofs.
Import ListNotations.
Open Scope Z_scope.

(** C118. A DateTime made of a date that exists and a time of day shows just these, its Unix time is the number of seconds, counted by
    days of the calendar from 1970, that leads there, and its weekday and day of the year are those of the calendar, whatever weekday and
    day of the year were given. A positive flag for daylight saving time is left to the library. *)
Theorem C118_fields :
  forall shift y m d h mi s wd yd dst,
    valid y m d -> clock h mi s -> year_fits y -> - 2 ^ 31 < wd < 2 ^ 31 -> dst <= 0 \/ shift = 0 ->
    exists t x w k, DateTime_fields shift y m d h mi s wd yd dst = Ok x /\ moment t y m d h mi s w k /\
      getUnixTime x = t /\ getY2kTime x = t - UNIX_OFFSET /\ shows x y m d h mi s w k.
Proof. exact fields_right. Qed.
Print Assumptions C118_fields.
Example C118_fields_case :
  valid 2024 2 29 /\ clock 23 59 1 /\ year_fits 2024 /\
  exists x, DateTime_fields 3600 2024 2 29 23 59 1 0 0 (-1) = Ok x /\ getUnixTime x = 1709251141 /\ shows x 2024 2 29 23 59 1 4 59.
Proof.
  split; [exists 29; split; [apply md_feb_leap; apply leap_ok; reflexivity|lia]|]. split; [unfold clock; lia|]. split; [unfold year_fits; lia|].
  eexists. split; [reflexivity|]. split; [reflexivity|]. repeat split.
Qed.

(** A DateTime made of a Unix time shows the date and time of day reached after so many seconds. Missing: times before 2000 in debug
    builds, which stop the program (C62), and times beyond the years of an int. *)
Theorem C118_unix_partial :
  forall dbg t, - 2 ^ 55 <= t <= 2 ^ 55 -> dbg = false \/ UNIX_OFFSET <= t ->
  exists x y m d h mi s w k, DateTime_unix dbg t = Ok x /\ moment t y m d h mi s w k /\
    getUnixTime x = t /\ getY2kTime x = t - UNIX_OFFSET /\ shows x y m d h mi s w k.
Proof. exact unix_right. Qed.
Print Assumptions C118_unix_partial.
Example C118_unix_case :
  (exists x, DateTime_unix true 951782400 = Ok x /\ shows x 2000 2 29 0 0 0 2 59) /\
  (exists x, DateTime_unix false (-1) = Ok x /\ shows x 1969 12 31 23 59 59 3 364).
Proof. split; (eexists; split; [reflexivity|]; repeat split). Qed.

(** There is only one such moment, so what is shown determines the time: going back through the fields gives the same DateTime. *)
Theorem C118_back :
  forall dbg shift t x y m d h mi s w k, - 2 ^ 55 <= t <= 2 ^ 55 -> DateTime_unix dbg t = Ok x -> shows x y m d h mi s w k ->
  exists x', DateTime_fields shift y m d h mi s 0 0 (-1) = Ok x' /\ getUnixTime x' = t /\ getY2kTime x' = getY2kTime x /\ shows x' y m d h mi s w k.
Proof. exact back_right. Qed.
Print Assumptions C118_back.
Example C118_back_case :
  exists x, DateTime_unix false 1709251141 = Ok x /\ shows x 2024 2 29 23 59 1 4 59.
Proof. eexists. split; [reflexivity|]. repeat split. Qed.
Theorem C118_once :
  forall t t' y m d h mi s w k w' k', moment t y m d h mi s w k -> moment t' y m d h mi s w' k' -> t = t' /\ w = w' /\ k = k'.
Proof. exact moment_time. Qed.
Print Assumptions C118_once.
Example C118_once_case : moment 0 1970 1 1 0 0 0 4 0.
Proof.
  exists 0. split; [left; split; [lia|apply dl_0]|]. split; [exists 31; split; [apply md_31|]; lia|]. split; [unfold clock; lia|].
  split; [reflexivity|]. split; [reflexivity|apply dl_0].
Qed.

(** Unix times compare as the dates do. *)
Theorem C118_order :
  forall shift x x' y m d h mi s wd yd dst y' m' d' h' mi' s' wd' yd' dst',
    valid y m d -> clock h mi s -> year_fits y -> - 2 ^ 31 < wd < 2 ^ 31 -> dst <= 0 ->
    valid y' m' d' -> clock h' mi' s' -> year_fits y' -> - 2 ^ 31 < wd' < 2 ^ 31 -> dst' <= 0 ->
    DateTime_fields shift y m d h mi s wd yd dst = Ok x -> DateTime_fields shift y' m' d' h' mi' s' wd' yd' dst' = Ok x' ->
    (getUnixTime x < getUnixTime x' <-> earlier (y, m, d, h, mi, s) (y', m', d', h', mi', s')).
Proof. exact order_right. Qed.
Print Assumptions C118_order.
Example C118_order_case :
  valid 1999 12 31 /\ valid 2000 1 1 /\ earlier (1999, 12, 31, 23, 59, 59) (2000, 1, 1, 0, 0, 0) /\
  exists x x', DateTime_fields 0 1999 12 31 23 59 59 0 0 0 = Ok x /\ DateTime_date 0 2000 1 1 = Ok x' /\
    getUnixTime x = 946684799 /\ getUnixTime x' = 946684800 /\ getY2kTime x' = 0.
Proof.
  split; [exists 31; split; [apply md_31|]; lia|]. split; [exists 31; split; [apply md_31|]; lia|]. split; [left; lia|].
  do 2 eexists. split; [reflexivity|]. split; [reflexivity|]. repeat split.
Qed.

(** A DateTime made of the text of a date and a time does the same. Missing: hours, minutes and seconds of 08 and 09 (C108), and memory that
    held a positive number where the flag for daylight saving time is. *)
Theorem C118_text_partial :
  forall shift wday dst buff y m d h mi s,
    0 <= y < 10000 -> valid y m d -> clock h mi s -> ~ eight_or_nine h -> ~ eight_or_nine mi -> ~ eight_or_nine s -> dst <= 0 \/ shift = 0 ->
    exists b x t w k, DateTime_text shift wday dst buff (date_text y m d) (time_text h mi s) = Ok (b, x) /\ moment t y m d h mi s w k /\
      getUnixTime x = t /\ getY2kTime x = t - UNIX_OFFSET /\ shows x y m d h mi s w k.
Proof. exact from_text. Qed.
Print Assumptions C118_text_partial.
Example C118_text_case :
  valid 2012 1 14 /\ clock 23 59 1 /\ ~ eight_or_nine 23 /\
  exists b x, DateTime_text 0 77 0 month_buff0 (chars "Jan 14 2012") (chars "23:59:01") = Ok (b, x) /\ shows x 2012 1 14 23 59 1 6 13.
Proof.
  split; [exists 31; split; [apply md_31|]; lia|]. split; [unfold clock; lia|]. split; [unfold eight_or_nine; lia|].
  do 2 eexists. split; [reflexivity|]. repeat split.
Qed.
(** With a library that takes the flag at its word the same text gives a time an hour off, by what the memory happened to hold. *)
Theorem C118_text_refuted :
  exists dst dst' x x', (exists b, DateTime_text 3600 0 dst month_buff0 (chars "Jan 14 2012") (chars "23:59:01") = Ok (b, x)) /\
    (exists b, DateTime_text 3600 0 dst' month_buff0 (chars "Jan 14 2012") (chars "23:59:01") = Ok (b, x')) /\ getHour x = Ok 23 /\ getHour x' = Ok 22.
Proof. exists 0, 1. do 2 eexists. split; [eexists; reflexivity|]. split; [eexists; reflexivity|]. split; reflexivity. Qed.

(** Fields beyond their ranges are carried over: the date is so many days, hours, minutes and seconds after the first of the month. *)
Theorem C118_carried :
  forall shift y m d h mi s,
    1 <= m <= 12 -> 1900 - 2 ^ 30 <= y <= 2 ^ 30 -> Z.abs d <= 2 ^ 31 -> Z.abs h <= 2 ^ 31 -> Z.abs mi <= 2 ^ 31 -> Z.abs s <= 2 ^ 31 ->
    exists n x t y' m' d' h' mi' s' w k, day_at n (y, m, 1) /\ t = 86400 * (n + (d - 1)) + 3600 * h + 60 * mi + s /\
      DateTime_fields shift y m d h mi s 0 0 (-1) = Ok x /\ getUnixTime x = t /\ moment t y' m' d' h' mi' s' w k /\ shows x y' m' d' h' mi' s' w k.
Proof. exact carried_right. Qed.
Print Assumptions C118_carried.
Example C118_carried_case : exists x, DateTime_fields 0 2023 12 31 23 59 60 0 0 (-1) = Ok x /\ shows x 2024 1 1 0 0 0 1 0.
Proof. eexists. split; [reflexivity|]. repeat split. Qed.
(** so a date that does not exist is not reported. *)
Theorem C118_nodate_refuted :
  exists y m d x, ~ valid y m d /\ DateTime_date 0 y m d = Ok x /\ getMonth x = Ok 3 /\ getDay x = Ok 2.
Proof.
  exists 2023, 2, 30. eexists. split; [|split; [reflexivity|split; reflexivity]].
  intros (n & Hm & Hd). inversion Hm as [? Hc|? Hc|Hl|Hl]; subst; try lia.
Qed.
(** The weekday is given as 1 to 7 but shown as 0 to 6: a DateTime given its right weekday always shows another. *)
Theorem C118_weekday_refuted :
  exists y m d wd x, valid y m d /\ 1 <= wd <= 7 /\ DateTime_fields 0 y m d 0 0 0 wd 0 (-1) = Ok x /\ getWeekDay x = Ok 4 /\ wd = 5.
Proof.
  exists 1970, 1, 1, 5. eexists. split; [exists 31; split; [apply md_31|]; lia|]. split; [lia|]. split; [reflexivity|]. split; reflexivity.
Qed.
(** A Unix time beyond the years of an int leaves the fields unset: reading them is undefined. *)
Theorem C118_far :
  forall t, 2 ^ 56 <= t < 2 ^ 63 -> exists x, DateTime_unix false t = Ok x /\ getUnixTime x = t /\ getYear x = UB /\ getDay x = UB.
Proof. exact far_right. Qed.
Print Assumptions C118_far.
Theorem C118_far_refuted : exists t x, t = 2 ^ 62 /\ DateTime_unix false t = Ok x /\ getYear x = UB.
Proof. exists (2 ^ 62). eexists. split; [reflexivity|]. split; reflexivity. Qed.
