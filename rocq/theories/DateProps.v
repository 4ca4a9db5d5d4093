(** Properties C36, C62: structure/time/datetime.cpp. *)
From Coq Require Import ZArith Lia Bool List.
From Verif Require Import Base DateModel DateSpec DateProofs.
Import ListNotations.
Open Scope Z_scope.

(** C36. For every valid date of any year the day of the year is the number of days, counted one by one, since January 1st. *)
Theorem C36_day_of_year :
  forall y m d, valid y m d -> exists n, calcYearDay y m d = Ok n /\ days_later (y, 1, 1) n (y, m, d).
Proof. exact year_day_spec. Qed.
Print Assumptions C36_day_of_year.
Example C36_day_of_year_case : valid 2024 12 31 /\ calcYearDay 2024 12 31 = Ok 365.
Proof. split; [exists 31; split; [apply md_31; lia|lia]|reflexivity]. Qed.
(** and no other number of days leads there. *)
Theorem C36_unique : forall y m d n, days_later (y, 1, 1) n (y, m, d) -> calcYearDay y m d = Ok n.
Proof. exact year_day_later. Qed.
Print Assumptions C36_unique.
Example C36_case : valid 2024 2 29 /\ ~ valid 1900 2 29 /\ calcYearDay 2000 12 31 = Ok 365 /\ calcYearDay 1900 12 31 = Ok 364 /\ calcYearDay 2024 3 1 = Ok 60.
Proof.
  split; [exists 29; split; [apply md_feb_leap; apply leap_ok; reflexivity|lia]|]. split; [|repeat split].
  intros (n & Hm & Hd). inversion Hm as [? Hc|? Hc|Hl|Hl]; subst; try lia. apply leap_ok in Hl. discriminate.
Qed.

(** The leap years are those divisible by 4 except for centuries not divisible by 400. *)
Theorem C36_leap : forall y, isleapYear y = true <-> ((4 | y) /\ (~ (100 | y) \/ (400 | y))).
Proof. exact leap_ok. Qed.
Print Assumptions C36_leap.
Example C36_leap_case : isleapYear 2000 = true /\ isleapYear 2100 = false /\ isleapYear (-4) = true. Proof. repeat split. Qed.

(** C62. The two epochs are as many seconds apart as there are in the days counted from 1970 to 2000; a DateTime made of a Unix
    timestamp from 2000 on keeps it and the difference. Missing: earlier times in debug builds, see C62_debug_refuted. *)
Theorem C62_epochs_partial :
  (exists n, days_later (1970, 1, 1) n (2000, 1, 1) /\ UNIX_OFFSET = 86400 * n) /\
  forall dbg unix, - 2 ^ 63 + UNIX_OFFSET <= unix < 2 ^ 63 -> dbg = false \/ UNIX_OFFSET <= unix ->
  date_of_unix dbg unix = Ok (unix, unix - UNIX_OFFSET) /\ set_timestamps unix = (unix, unix - UNIX_OFFSET).
Proof.
  split.
  - exists 10957. split; [apply to_2000|reflexivity].
  - intros dbg unix Hu Hd. rewrite y2k_ok by (unfold UNIX_OFFSET in *; lia). destruct (Z.leb_spec (- 2 ^ 63 + UNIX_OFFSET) unix); [|lia]. split.
    + destruct Hd as [->|Hd]; [reflexivity|]. destruct (Z.ltb_spec unix UNIX_OFFSET); [lia|]. rewrite andb_false_r. reflexivity.
    + pose proof (y2k_ok false unix ltac:(unfold UNIX_OFFSET in *; lia)) as E. unfold date_of_unix in E. cbn [andb] in E.
      destruct (Z.leb_spec (- 2 ^ 63 + UNIX_OFFSET) unix); [|lia]. destruct ((unix - UNIX_OFFSET) mod 2 ^ 64 <=? 2 ^ 63 - 1); cbn [sassert bind] in E; inversion E; unfold set_timestamps; congruence.
Qed.
Print Assumptions C62_epochs_partial.
Example C62_case : date_of_unix true 1700000000 = Ok (1700000000, 753315200) /\ date_of_unix false 0 = Ok (0, -946684800). Proof. split; reflexivity. Qed.

(** In a debug build every time before 2000 stops the program, including that of a DateTime made without arguments (time 0). *)
Theorem C62_debug_refuted : exists unix, unix = 0 /\ date_of_unix true unix = Halt.
Proof. exists 0. split; reflexivity. Qed.
Print Assumptions C62_debug_refuted.
Theorem C62_debug : forall unix, - 2 ^ 63 + UNIX_OFFSET <= unix < UNIX_OFFSET -> date_of_unix true unix = Halt.
Proof.
  intros unix H. rewrite y2k_ok by (unfold UNIX_OFFSET in *; lia). destruct (Z.ltb_spec unix UNIX_OFFSET); [|lia].
  destruct (Z.leb_spec (- 2 ^ 63 + UNIX_OFFSET) unix); [reflexivity|lia].
Qed.
Print Assumptions C62_debug.
