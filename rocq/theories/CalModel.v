(** Model of the constructors and getters of DateTime, structure/time/datetime.{hpp,cpp}, where the zone of the C library is UTC.

    The C library is not part of the repository; what is assumed of it is written out here as two functions, mktime and gmtime_r, as
    POSIX describes them: mktime takes fields outside of their ranges, carries them over, stores the normalised fields with the
    weekday and day of the year computed (those given are not read) and returns the seconds since 1970; gmtime_r is null and stores
    nothing if the year does not fit. A positive tm_isdst in a zone without daylight saving time is taken differently by different
    libraries: [shift] is the number of seconds by which this one corrects (0 or 3600 in practice). Leap seconds do not exist.
    time_t has 64 bits, int 32. Not modelled: the AVR branch of set_timestamps (datetime.cpp:149-151); strf_DateTime is in StampModel. *)
From Coq Require Import ZArith Bool List.
From Verif Require Import Base DateModel ScanModel.
Import ListNotations.
Open Scope Z_scope.

(** struct tm *)
Record btm := mkB { b_sec : Z; b_min : Z; b_hour : Z; b_mday : Z; b_mon : Z; b_year : Z; b_wday : Z; b_yday : Z; b_isdst : Z }.
Definition int_fits (z : Z) : bool := (- 2 ^ 31 <=? z) && (z <? 2 ^ 31).
(** Arithmetic on int; overflow is undefined *)
Definition int32 (z : Z) : outcome Z := if int_fits z then Ok z else UB.

(** Assumed of the library: the days from 1970-01-01 to the first of a month, months counted from 0 *)
Definition month_start (leap : bool) (mon : Z) : Z :=
  match mon with 0 => 0 | 1 => 31 | 2 => 59 | 3 => 90 | 4 => 120 | 5 => 151 | 6 => 181 | 7 => 212 | 8 => 243 | 9 => 273 | 10 => 304 | _ => 334 end
  + if (1 <? mon) && leap then 1 else 0.
Definition leaps (y : Z) : Z := y / 4 - y / 100 + y / 400.
Definition lib_leap (y : Z) : bool := (y mod 4 =? 0) && (negb (y mod 100 =? 0) || (y mod 400 =? 0)).
Definition day_number (y mon mday : Z) : Z :=
  365 * (y - 1970) + (leaps (y - 1) - leaps 1969) + month_start (lib_leap y) mon + (mday - 1).
(** Assumed of the library: the date of a day, by cycles of 400 years that begin in March *)
Definition in_cycle (doe : Z) : Z * Z * Z :=
  let yoe := (doe - doe / 1460 + doe / 36524 - doe / 146096) / 365 in
  let doy := doe - (365 * yoe + yoe / 4 - yoe / 100) in
  let mp := (5 * doy + 2) / 153 in
  let m := if mp <? 10 then mp + 3 else mp - 9 in
  (if m <=? 2 then yoe + 1 else yoe, m, doy - (153 * mp + 2) / 5 + 1).
Definition date_of_day (n : Z) : Z * Z * Z :=
  let '(y, m, d) := in_cycle ((n + 719468) mod 146097) in (y + 400 * ((n + 719468) / 146097), m, d).

(** Assumed: gmtime_r; None where it returns null *)
Definition gmtime (t : Z) : option btm :=
  let n := t / 86400 in
  let s := t mod 86400 in
  let '(y, m, d) := date_of_day n in
  if int_fits (y - 1900) then Some (mkB (s mod 60) (s / 60 mod 60) (s / 3600) d (m - 1) (y - 1900) ((n + 4) mod 7) (n - day_number y 0 1) 0) else None.
(** Assumed: mktime in UTC; -1 and the fields left alone if the year does not fit *)
Definition mktime (shift : Z) (x : btm) : Z * btm :=
  let y := b_year x + 1900 + b_mon x / 12 in
  let t := 86400 * day_number y (b_mon x mod 12) (b_mday x) + 3600 * b_hour x + 60 * b_min x + b_sec x - (if 0 <? b_isdst x then shift else 0) in
  match gmtime t with Some x' => (t, x') | None => (-1, x) end.

(** datetime.hpp:52-54; None while nothing was stored in _tm *)
Record datetime := mkDate { d_unix : Z; d_y2k : Z; d_tm : option btm }.

(** datetime.cpp:148-156 *)
Definition stamped (shift : Z) (x : btm) : datetime :=
  let '(t, x') := mktime shift x in let '(u, y2k) := set_timestamps t in mkDate u y2k (Some x').
(** datetime.cpp:87-91 *)
Definition DateTime_unix (dbg : bool) (unix : Z) : outcome datetime :=
  '(u, y2k) <- date_of_unix dbg unix ;; Ok (mkDate u y2k (gmtime u)).
(** datetime.cpp:105-117; datetime.hpp:23-24 for the defaults of the arguments *)
Definition DateTime_fields (shift year month day hour min sec wday yday dst : Z) : outcome datetime :=
  mon <- int32 (month - 1) ;; y <- int32 (year - 1900) ;; w <- int32 (wday - 1) ;;
  Ok (stamped shift (mkB sec min hour day mon y w yday dst)).
Definition DateTime_date (shift year month day : Z) : outcome datetime := DateTime_fields shift year month day 0 0 0 0 0 (-1).
(** datetime.cpp:126-142; [wday] and [dst] are what the memory of the object held in the two places that are not written *)
Definition DateTime_text (shift wday dst : Z) (buff date time : list Z) : outcome (list Z * datetime) :=
  '(b, x) <- date_of_text dst buff date time ;;
  Ok (b, stamped shift (mkB (tm_sec x) (tm_min x) (tm_hour x) (tm_mday x) (tm_mon x) (tm_year x) wday (tm_yday x) (tm_isdst x))).

(** datetime.hpp:28-36; reading what nothing was stored in is undefined *)
Definition field (f : btm -> outcome Z) (t : datetime) : outcome Z := match d_tm t with Some x => f x | None => UB end.
Definition getYear : datetime -> outcome Z := field (fun x => int32 (b_year x + 1900)).
Definition getMonth : datetime -> outcome Z := field (fun x => int32 (b_mon x + 1)).
Definition getDay : datetime -> outcome Z := field (fun x => Ok (b_mday x)).
Definition getHour : datetime -> outcome Z := field (fun x => Ok (b_hour x)).
Definition getMinute : datetime -> outcome Z := field (fun x => Ok (b_min x)).
Definition getSecond : datetime -> outcome Z := field (fun x => Ok (b_sec x)).
Definition getWeekDay : datetime -> outcome Z := field (fun x => Ok (b_wday x)).
Definition getYearDay : datetime -> outcome Z := field (fun x => Ok (b_yday x)).
Definition getDST : datetime -> outcome Z := field (fun x => Ok (b_isdst x)).
(** datetime.hpp:40, 46 *)
Definition getY2kTime (t : datetime) : Z := d_y2k t.
Definition getUnixTime (t : datetime) : Z := d_unix t.
