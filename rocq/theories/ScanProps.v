(** Property C108: structure/time/datetime.cpp:126-142. *)
From Coq Require Import List ZArith Bool Lia String.
From Verif Require Import Base DateModel DateSpec DateProofs ScanModel ScanSpec ScanProofs.
Import ListNotations.
Open Scope Z_scope.

(** C108, the part that holds: a date and a time as __DATE__ and __TIME__ write them are read as they stand, and the day of the year is the
    number of days since January 1st, when none of hour, minute and second is 8 or 9. [dst] is what the object's memory held before,
    [buff] what the static buffer held. *)
Theorem C108_partial :
  forall dst buff y m d h mi s,
    0 <= y < 10000 -> valid y m d -> time_of_day h mi s -> ~ eight_or_nine h -> ~ eight_or_nine mi -> ~ eight_or_nine s ->
    exists yday, days_later (y, 1, 1) yday (y, m, d) /\
      date_of_text dst buff (date_text y m d) (time_text h mi s) = Ok (month_text m, mkTm (y - 1900) (m - 1) d h mi s yday dst).
Proof. exact text_right. Qed.
Print Assumptions C108_partial.
Example C108_case :
  valid 2024 2 29 /\ time_of_day 23 59 1 /\ ~ eight_or_nine 23 /\
  date_text 2024 2 9 = chars "Feb  9 2024" /\ time_text 23 59 1 = chars "23:59:01" /\
  date_of_text 0 month_buff0 (chars "Feb 29 2024") (chars "23:59:01") = Ok (chars "Feb", mkTm 124 1 29 23 59 1 59 0).
Proof.
  split; [exists 29; split; [apply md_feb_leap; apply leap_ok; reflexivity|lia]|]. unfold time_of_day, eight_or_nine.
  split; [lia|]. split; [lia|]. repeat split.
Qed.
(** False of the code: an hour or a minute of 08 or 09 is taken for an octal number, of which only the 0 is read; the minute and second, or
    the second, are never stored and read nonetheless. *)
Theorem C108_lost :
  forall dst buff y m d h mi s,
    0 <= y < 10000 -> valid y m d -> time_of_day h mi s -> eight_or_nine h \/ eight_or_nine mi ->
    date_of_text dst buff (date_text y m d) (time_text h mi s) = UB.
Proof. exact text_lost. Qed.
Print Assumptions C108_lost.
Theorem C108_lost_refuted :
  exists date time, date = chars "Jan 14 2012" /\ time = chars "09:30:00" /\ date_of_text 0 month_buff0 date time = UB /\
    sscanf_time time = Ok (Some 0, None, None).
Proof. do 2 eexists. repeat split. Qed.
Example C108_lost_case : valid 2012 1 14 /\ time_of_day 9 30 0 /\ time_text 9 30 0 = chars "09:30:00" /\ date_text 2012 1 14 = chars "Jan 14 2012".
Proof. split; [exists 31; split; [apply md_31; lia|lia]|]. unfold time_of_day. split; [lia|]. split; reflexivity. Qed.
(** Seconds of 08 or 09 are read as 0. *)
Theorem C108_seconds :
  forall dst buff y m d h mi s,
    0 <= y < 10000 -> valid y m d -> time_of_day h mi s -> ~ eight_or_nine h -> ~ eight_or_nine mi -> eight_or_nine s ->
    exists yday, days_later (y, 1, 1) yday (y, m, d) /\
      date_of_text dst buff (date_text y m d) (time_text h mi s) = Ok (month_text m, mkTm (y - 1900) (m - 1) d h mi 0 yday dst).
Proof. exact text_seconds. Qed.
Print Assumptions C108_seconds.
Theorem C108_seconds_refuted :
  exists date time, date = chars "Jan 14 2012" /\ time = chars "23:59:09" /\
    date_of_text 0 month_buff0 date time = Ok (chars "Jan", mkTm 112 0 14 23 59 0 13 0).
Proof. do 2 eexists. repeat split. Qed.
Example C108_seconds_case :
  valid 2012 1 14 /\ time_of_day 23 59 9 /\ ~ eight_or_nine 23 /\ ~ eight_or_nine 59 /\ eight_or_nine 9 /\ time_text 23 59 9 = chars "23:59:09".
Proof. split; [exists 31; split; [apply md_31; lia|lia]|]. unfold time_of_day, eight_or_nine. repeat split; lia. Qed.
(** The flag for daylight saving time that mktime is given is whatever the object's memory held. *)
Theorem C108_dst_refuted :
  exists dst dst' date time r r', date_of_text dst month_buff0 date time = Ok r /\ date_of_text dst' month_buff0 date time = Ok r' /\
    tm_isdst (snd r) = 0 /\ tm_isdst (snd r') = 1.
Proof.
  exists 0, 1, (chars "Jan 14 2012"), (chars "23:59:01"). do 2 eexists.
  split; [reflexivity|]. split; [reflexivity|]. split; reflexivity.
Qed.
(** A text that is no date is not rejected: the month is where its first word is found in the names of the months written together. *)
Theorem C108_text_refuted :
  exists date, date = chars "anF 14 2012" /\ exists b t,
    date_of_text 0 month_buff0 date (chars "23:59:01") = Ok (b, t) /\ tm_mon t = 0 /\ tm_mday t = 14 /\ tm_year t = 112.
Proof.
  exists (chars "anF 14 2012"). split; [reflexivity|]. do 2 eexists. split; [reflexivity|]. repeat split.
Qed.
(** Whatever the texts: if they are read at all, the word put into the buffer of five characters leaves room for its terminator, the month is
    one of the twelve, and day and year have no more than their two and four characters. *)
Theorem C108_bounds :
  forall dst buff date time b t, (List.length buff <= 4)%nat -> date_of_text dst buff date time = Ok (b, t) ->
    (List.length b <= 4)%nat /\ 0 <= tm_mon t <= 11 /\ -10 < tm_mday t < 100 /\ -1000 < tm_year t + 1900 < 10000.
Proof. exact text_bounds. Qed.
Print Assumptions C108_bounds.
Example C108_bounds_case : (List.length month_buff0 <= 4)%nat /\
  exists t, date_of_text 0 month_buff0 (chars "JunJ-9+9999") (chars "0x17:-1:7x") = Ok (chars "JunJ", t) /\ tm_mday t = -9 /\ tm_year t = 999 - 1900.
Proof. split; [cbn; lia|]. eexists. split; [reflexivity|]. split; reflexivity. Qed.
