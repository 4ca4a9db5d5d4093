(** Properties C53 and C83: texts for times. *)
From Coq Require Import List Arith ZArith Bool Lia.
From Verif Require Import Base KTimeModel KTimeSpec ReprModel ReprSpec ReprProofs.
Import ListNotations.
Open Scope Z_scope.

(** C53. parse_time accepts exactly the texts that denote a time, and gives that time *)
Theorem C53_accepts : forall input u v, parse_time input = Ok (Some (u, v)) <-> denotes input u v.
Proof. intros input u v. split; [apply parse_some | apply parse_denotes]. Qed.
Print Assumptions C53_accepts.
Example C53_accepts_case : denotes [49; 53; 109]%nat MIN 15.
Proof. apply C53_accepts. vm_compute. reflexivity. Qed.
(** It throws exactly on texts that do not start with a digit and on numbers beyond the range of int *)
Theorem C53_rejects_partial : forall input,
  (parse_time input = Throw <->
   (exists c r, input = c :: r /\ ~ (48 <= c <= 57)%nat) \/
   (exists ds c r, input = ds ++ c :: r /\ is_number ds /\ ~ (48 <= c <= 57)%nat /\ 2 ^ 31 <= decimal ds)) /\
  (parse_time input = Throw \/ exists r, parse_time input = Ok r).
Proof.
  assert (D : forall c, is_digit c = false <-> ~ (48 <= c <= 57)%nat) by (intros c; rewrite <- is_digit_range; destruct (is_digit c); split; congruence).
  intros input. split; [| apply parse_outcomes]. rewrite parse_throws. split.
  - intros [(c & r & E & C) | (ds & c & r & E & N & C & L)]; [left; exists c, r | right; exists ds, c, r]; rewrite <- D; auto.
  - intros [(c & r & E & C) | (ds & c & r & E & N & C & L)]; [left; exists c, r | right; exists ds, c, r]; rewrite D; auto.
Qed.
Print Assumptions C53_rejects_partial.
Example C53_rejects_case : parse_time [120; 49; 115]%nat = Throw /\ parse_time [52; 50; 57; 52; 57; 54; 55; 50; 57; 54; 115]%nat = Throw /\
  parse_time [52; 50; 113; 113]%nat = Ok None.
Proof. vm_compute. auto. Qed.
(** What repr writes for a time that is not negative (up to 2^30 days) is read back as the same time, up to half a count of the
    printed unit and the error of single precision; in the unit of the time itself exactly *)
Theorem C53_round_trip_partial : forall u x, 0 <= x -> x * micros_per u <= 2 ^ 30 * 86400000000 ->
  exists w v, parse_time (repr u x) = Ok (Some (w, v)) /\ (w = u -> v = x) /\
    2 ^ 24 * (2 * Z.abs (v * micros_per w - x * micros_per u)) <= 2 ^ 24 * micros_per w + 10 * (x * micros_per u).
Proof.
  intros u x X B. destruct (round_trip u x X B) as (w & v & P & C). destruct (choose_unit u x X) as (w' & v' & C' & _ & E & S & _).
  rewrite C in C'. injection C' as <- <-. exists w, v. auto.
Qed.
Print Assumptions C53_round_trip_partial.
Example C53_round_trip_case : 0 <= 5400 /\ 5400 * micros_per SEC <= 2 ^ 30 * 86400000000 /\ repr SEC 5400 = [57; 48; 109]%nat /\
  parse_time (repr SEC 5400) = Ok (Some (MIN, 90)) /\ 90 * micros_per MIN = 5400 * micros_per SEC.
Proof. repeat split; vm_compute; first [reflexivity | discriminate]. Qed.
(** Negative times are written so that parse_time throws, and "abc", "-5s" and "2147483648s" make it throw *)
Theorem C53_refuted :
  (forall u x v, x < 0 -> choose u x = Some (US, v) -> v < 0 -> parse_time (repr u x) = Throw) /\
  (exists x, repr MS x = [45; 53; 48; 48; 48; 117; 115]%nat /\ parse_time (repr MS x) = Throw) /\
  (exists a b c, parse_time a = Throw /\ parse_time b = Throw /\ parse_time c = Throw /\
    a = [97; 98; 99]%nat /\ b = [45; 53; 115]%nat /\ c = [50; 49; 52; 55; 52; 56; 51; 54; 52; 56; 115]%nat).
Proof.
  split.
  { intros u x v X C V. unfold repr. rewrite C. unfold show. destruct (Z.ltb_spec v 0); [| lia]. cbn [app].
    destruct (64 <=? _)%nat; [reflexivity |]. reflexivity. }
  split; [exists (-5); split; vm_compute; reflexivity |].
  do 3 eexists. repeat match goal with |- _ /\ _ => split end; [| | | reflexivity | reflexivity | reflexivity]; vm_compute; reflexivity.
Qed.
Print Assumptions C53_refuted.
Example C53_case : repr MS 1500 = [50; 115]%nat /\ parse_time (repr MS 1500) = Ok (Some (SEC, 2)) /\ parse_time [49; 48; 117; 115]%nat = Ok (Some (US, 10)) /\
  parse_time [53; 120]%nat = Ok None.
Proof. vm_compute. auto. Qed.

(** C83. The unit repr chooses for a time of T microseconds that is not negative. In the gaps the rounding decides. *)
Theorem C83_units_partial : forall u x, 0 <= x -> let T := x * micros_per u in
  exists w v, choose u x = Some (w, v) /\ (x * micros_per u <= 2 ^ 30 * 86400000000 -> repr u x = show v ++ suffix_of w) /\
  (T < 1000 -> w = US /\ v = T) /\ (1000 <= T <= 999 * 1000 -> w = MS) /\ (1000000 <= T <= 899 * 1000000 -> w = SEC) /\
  (900 * 1000000 <= T <= 1439 * 60000000 -> w = MIN) /\ (24 * 3600000000 <= T -> w = DAY).
Proof.
  intros u x X T. destruct (choose_unit u x X) as (w & v & C & V & E & _ & _ & H). exists w, v. split; [exact C |]. split; [| exact H].
  intros B. apply repr_text; [exact C |]. split; [exact V |].
  assert (v * 1 <= v * micros_per w) by (apply Z.mul_le_mono_nonneg_l; [exact V | destruct w; vm_compute; discriminate]).
  assert (micros_per w <= 86400000000) by (destruct w; vm_compute; discriminate).
  change (2 ^ 24) with 16777216 in E. change (2 ^ 30) with 1073741824 in B. apply Z.lt_trans with (10 ^ 30); [| reflexivity].
  change (10 ^ 30) with 1000000000000000000000000000000. lia.
Qed.
Print Assumptions C83_units_partial.
Example C83_units_case : choose MS 1500 = Some (SEC, 2) /\ choose US 999 = Some (US, 999) /\ choose SEC 86400 = Some (DAY, 1) /\ choose MIN 90 = Some (MIN, 90).
Proof. vm_compute. auto. Qed.
(** The numbers are the ones written in decimal *)
Theorem C83_numbers : forall n, 0 <= n -> is_number (show n) /\ decimal (show n) = n.
Proof. exact show_number. Qed.
Print Assumptions C83_numbers.
Example C83_numbers_case : show 1024 = [49; 48; 50; 52]%nat /\ decimal [49; 48; 50; 52]%nat = 1024 /\ show 0 = [48]%nat.
Proof. vm_compute. auto. Qed.
(** Hours are never used: three hours are written as 180 minutes, twenty-five hours as one day *)
Theorem C83_hours_refuted : (forall u x, 0 <= x -> forall v, choose u x <> Some (HOUR, v)) /\
  exists x, repr HOUR x = [49; 56; 48; 109]%nat /\ exists y, repr HOUR y = [49; 100]%nat /\ x = 3 /\ y = 25.
Proof.
  split; [| exists 3; split; [vm_compute; reflexivity |]; exists 25; split; [vm_compute; reflexivity | auto]].
  intros u x X v E. destruct (choose_unit u x X) as (w & v' & C & _ & _ & _ & H & _). rewrite C in E. injection E as -> _. now apply H.
Qed.
Print Assumptions C83_hours_refuted.
Example C83_case : repr US 999 = [57; 57; 57; 117; 115]%nat /\ repr SEC 899 = [56; 57; 57; 115]%nat /\ repr SEC 900 = [49; 53; 109]%nat.
Proof. vm_compute. auto. Qed.
