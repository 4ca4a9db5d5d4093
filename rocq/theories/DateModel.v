(** Model of structure/time/datetime.cpp. Not modelled: the libc functions gmtime_r, mktime (in CalModel for UTC) and strftime. The constructor from
    text (126-142) with its sscanf is in ScanModel. *)
From Coq Require Import ZArith Bool List.
From Verif Require Import Base.
Import ListNotations.
Open Scope Z_scope.

(** datetime.cpp:28 *)
Definition UNIX_OFFSET : Z := 946684800.
(** datetime.cpp:38 *)
Definition daysInMonth : list Z := [31; 28; 31; 30; 31; 30; 31; 31; 30; 31; 30; 31].

(** datetime.cpp:47-54; % truncates, an integer is true if it is not 0 *)
Definition isleapYear (year : Z) : bool :=
  if negb (Z.rem year 4 =? 0) then false
  else negb (Z.rem year 100 =? 0) || (Z.rem year 400 =? 0).

(** datetime.cpp:66-67; [k] iterations left. The counter is a uint8_t, which for months above 255 would never reach them; the
    read outside of the array comes first. *)
Fixpoint month_loop (k i : nat) (days : Z) : outcome Z :=
  match k with
  | O => Ok days
  | S k' => d <- rd daysInMonth (i - 1) ;; month_loop k' (i + 1) (days + d)
  end.
(** datetime.cpp:64-70 *)
Definition calcYearDay (year month day : Z) : outcome Z :=
  days <- month_loop (Z.to_nat (month - 1)) 1 (day - 1) ;;
  Ok (if (2 <? month) && isleapYear year then days + 1 else days).

(** datetime.cpp:77, on a byte *)
Definition bcd2bin (val : Z) : Z := (val - 6 * (Z.shiftr val 4)) mod 256.

(** datetime.cpp:87-91: the two timestamps. time_t and long have 64 bits; the difference with the unsigned constant is unsigned,
    as is the comparison; its conversion to time_t is modulo 2^64. *)
Definition to_time_t (x : Z) : Z := (x + 2 ^ 63) mod 2 ^ 64 - 2 ^ 63.
Definition date_of_unix (dbg : bool) (unix : Z) : outcome (Z * Z) :=
  let diff := (unix - UNIX_OFFSET) mod 2 ^ 64 in
  sassert dbg (diff <=? 2 ^ 63 - 1) ;;;
  Ok (unix, to_time_t diff).
(** datetime.cpp:148-156, not on AVR; [mk] is what mktime returned *)
Definition set_timestamps (mk : Z) : Z * Z := (mk, to_time_t ((mk - UNIX_OFFSET) mod 2 ^ 64)).
