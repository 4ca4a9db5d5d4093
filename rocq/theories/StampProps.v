(** Property C124: the text of a DateTime, structure/time/datetime.{hpp,cpp}, in UTC. *)
From Coq Require Import String Ascii List ZArith Bool Lia.
From Verif Require Import Base DateModel DateSpec DateProofs ScanModel ScanSpec ScanProofs CalModel CalSpec CalProofs StampModel StampSpec StampProofs.
Import ListNotations.
Open Scope Z_scope.

(** C124. By default the text is the weekday, month, day, time and year; it is written with its '\0' if both fit in the size given, and its
    length returned; otherwise 0 is returned; nothing is written beyond the size. C118 gives the DateTimes that show a moment. *)
Theorem C124_default : forall x t y m d h mi s w k, shows x y m d h mi s w k -> moment t y m d h mi s w k ->
  exists year, numeral year y /\ (1000 <= y < 10000 -> year = four y) /\
  (forall junk buffer size, (20 + length year < size <= length buffer)%nat ->
    exists buffer', strf_DateTime junk x buffer size default_format = Ok ((20 + length year)%nat, buffer') /\
      c_string buffer' = stamp w m d h mi s year /\ length buffer' = length buffer /\ skipn size buffer' = skipn size buffer) /\
  (forall junk buffer size, (size <= 20 + length year)%nat -> (size <= length buffer)%nat ->
    exists buffer', strf_DateTime junk x buffer size default_format = Ok (O, buffer') /\ length buffer' = length buffer /\ skipn size buffer' = skipn size buffer).
Proof. exact stamp_right. Qed.
Print Assumptions C124_default.
(** 2024-02-29 23:59:01 and the next second *)
Definition leap_day : datetime := mkDate 1709251141 762566341 (Some (mkB 1 59 23 29 1 124 4 59 0)).
Definition next_second : datetime := mkDate 1709251142 762566342 (Some (mkB 2 59 23 29 1 124 4 59 0)).
Definition morning : datetime := mkDate 1709197741 762512941 (Some (mkB 1 9 9 29 1 124 4 59 0)).
Example C124_default_case : exists x, DateTime_unix true 1709251141 = Ok x /\ shows x 2024 2 29 23 59 1 4 59 /\
  stamp 4 2 29 23 59 1 (four 2024) = chars "Thu Feb 29 23:59:01 2024" /\ default_format = chars "%a %h %d %T %Y" /\
  strf_DateTime [] x (repeat 7 26) 25 default_format = Ok (24%nat, chars "Thu Feb 29 23:59:01 2024" ++ [0; 7]) /\
  strf_DateTime [1; 2] x (repeat 7 26) 24 default_format = Ok (0%nat, 1 :: 2 :: repeat 7 24).
Proof. exists leap_day. vm_compute. repeat split. Qed.

(** In any format of the conversions modelled: the whole text or nothing. *)
Theorem C124_whole_partial : forall junk x buffer size fmt, d_tm x <> None -> (size <= length buffer)%nat ->
  strf_DateTime junk x buffer size fmt = Fuel \/
  exists text, (forall junk buffer size, (length text < size <= length buffer)%nat ->
      strf_DateTime junk x buffer size fmt = Ok (length text, text ++ [0] ++ skipn (length text + 1) buffer)) /\
    exists buffer', strf_DateTime junk x buffer size fmt = Ok (if (length text <? size)%nat then length text else O, buffer') /\
      length buffer' = length buffer /\ skipn size buffer' = skipn size buffer.
Proof. exact whole_right. Qed.
Print Assumptions C124_whole_partial.
Example C124_whole_case : exists x, DateTime_unix false 1709251141 = Ok x /\ d_tm x <> None /\
  strf_DateTime [] x (repeat 7 9) 9 (chars "day %j%%") = Ok (8%nat, chars "day 060%" ++ [0]).
Proof. exists leap_day. split; [vm_compute; reflexivity|]. split; [discriminate|]. vm_compute. reflexivity. Qed.

(** The text tells moments apart. *)
Theorem C124_distinct : forall x x' t t' y m d h mi s w k y' m' d' h' mi' s' w' k' junk junk' buffer buffer' size size' n n' b b',
  shows x y m d h mi s w k -> moment t y m d h mi s w k -> shows x' y' m' d' h' mi' s' w' k' -> moment t' y' m' d' h' mi' s' w' k' ->
  (size <= length buffer)%nat -> (size' <= length buffer')%nat ->
  strf_DateTime junk x buffer size default_format = Ok (n, b) -> strf_DateTime junk' x' buffer' size' default_format = Ok (n', b') ->
  (0 < n)%nat -> (0 < n')%nat -> c_string b = c_string b' -> t = t'.
Proof. exact distinct_right. Qed.
Print Assumptions C124_distinct.
Example C124_distinct_case : exists x x' b b', DateTime_unix true 1709251141 = Ok x /\ DateTime_unix true 1709251142 = Ok x' /\
  strf_DateTime [] x (repeat 0 30) 30 default_format = Ok (24%nat, b) /\ strf_DateTime [] x' (repeat 0 30) 30 default_format = Ok (24%nat, b') /\
  c_string b = chars "Thu Feb 29 23:59:01 2024" /\ c_string b' = chars "Thu Feb 29 23:59:02 2024".
Proof.
  exists leap_day, next_second, (chars "Thu Feb 29 23:59:01 2024" ++ repeat 0 6), (chars "Thu Feb 29 23:59:02 2024" ++ repeat 0 6). vm_compute. repeat split.
Qed.

(** Texts in a format that puts the year first sort by time. *)
Theorem C124_sorted : forall x x' t t' y m d h mi s w k y' m' d' h' mi' s' w' k',
  shows x y m d h mi s w k -> moment t y m d h mi s w k -> shows x' y' m' d' h' mi' s' w' k' -> moment t' y' m' d' h' mi' s' w' k' ->
  1000 <= y < 10000 -> 1000 <= y' < 10000 -> forall junk buffer size, (20 <= size <= length buffer)%nat ->
  exists b b', strf_DateTime junk x buffer size (chars "%Y-%m-%d %H:%M:%S") = Ok (19%nat, b) /\
    strf_DateTime junk x' buffer size (chars "%Y-%m-%d %H:%M:%S") = Ok (19%nat, b') /\
    c_string b = iso y m d h mi s /\ (before (c_string b) (c_string b') <-> t < t').
Proof. exact iso_right. Qed.
Print Assumptions C124_sorted.
Example C124_sorted_case : exists x b, DateTime_unix true 1709251141 = Ok x /\
  strf_DateTime [] x (repeat 0 20) 20 (chars "%Y-%m-%d %H:%M:%S") = Ok (19%nat, b) /\ c_string b = chars "2024-02-29 23:59:01" /\ iso 2024 2 29 23 59 1 = c_string b.
Proof. exists leap_day, (chars "2024-02-29 23:59:01" ++ [0]). vm_compute. repeat split. Qed.

(** A DateTime made of the date and the time within the text is the same moment, unless one of hour, minute and second is 08 or 09 (C108). *)
Theorem C124_back_partial : forall shift wday dst buff t y m d h mi s w k, moment t y m d h mi s w k -> 1000 <= y < 10000 -> dst <= 0 \/ shift = 0 ->
  let text := stamp w m d h mi s (four y) in
  (~ eight_or_nine h -> ~ eight_or_nine mi -> ~ eight_or_nine s ->
    exists b x, DateTime_text shift wday dst buff (date_part text) (time_part text) = Ok (b, x) /\ getUnixTime x = t /\ shows x y m d h mi s w k) /\
  (eight_or_nine h \/ eight_or_nine mi -> DateTime_text shift wday dst buff (date_part text) (time_part text) = UB).
Proof. exact back_stamp. Qed.
Print Assumptions C124_back_partial.
Example C124_back_case : date_part (chars "Thu Feb 29 23:59:01 2024") = chars "Feb 29 2024" /\ time_part (chars "Thu Feb 29 23:59:01 2024") = chars "23:59:01" /\
  exists x, DateTime_text 0 0 0 month_buff0 (chars "Feb 29 2024") (chars "23:59:01") = Ok (chars "Feb", x) /\ getUnixTime x = 1709251141.
Proof. do 2 (split; [reflexivity|]). exists leap_day. vm_compute. repeat split. Qed.
Theorem C124_back_refuted : exists x b, DateTime_unix true 1709197741 = Ok x /\ strf_DateTime [] x (repeat 0 25) 25 default_format = Ok (24%nat, b) /\
  c_string b = chars "Thu Feb 29 09:09:01 2024" /\ DateTime_text 0 0 0 month_buff0 (date_part (c_string b)) (time_part (c_string b)) = UB.
Proof. exists morning, (chars "Thu Feb 29 09:09:01 2024" ++ [0]). vm_compute. repeat split. Qed.
Print Assumptions C124_back_refuted.
(** A Unix time beyond the years of an int has no text: formatting it reads fields in which nothing was stored. *)
Theorem C124_far_refuted : exists t x, t = 2 ^ 62 /\ DateTime_unix false t = Ok x /\ forall junk buffer size fmt, strf_DateTime junk x buffer size fmt = UB.
Proof. exists (2 ^ 62). eexists. split; [reflexivity|]. split; [reflexivity|]. reflexivity. Qed.
Print Assumptions C124_far_refuted.
