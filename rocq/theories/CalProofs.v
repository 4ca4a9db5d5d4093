(** Lemmas about DateTimes made of fields and timestamps. *)
From Coq Require Import ZArith Lia Bool List Znumtheory.
From Verif Require Import Base DateModel DateSpec DateProofs ScanModel ScanSpec ScanProofs CalModel CalSpec.
Import ListNotations.
Open Scope Z_scope.

Lemma leap_lib y : lib_leap y = isleapYear y.
Proof.
  unfold lib_leap, isleapYear.
  assert (H : forall b, b <> 0 -> (Z.rem y b =? 0) = (y mod b =? 0)).
  { intros b Hb. apply eq_true_iff_eq. rewrite !Z.eqb_eq. rewrite Z.rem_divide, Z.mod_divide by auto. reflexivity. }
  rewrite !H by lia. destruct (y mod 4 =? 0), (y mod 100 =? 0), (y mod 400 =? 0); reflexivity.
Qed.
Lemma div_step y b : 0 < b -> y / b - (y - 1) / b = if y mod b =? 0 then 1 else 0.
Proof.
  intros Hb. pose proof (Z.div_mod y b ltac:(lia)) as E. pose proof (Z.mod_pos_bound y b Hb) as Hr.
  destruct (Z.eqb_spec (y mod b) 0) as [E0|E0].
  - replace ((y - 1) / b) with (y / b - 1); [lia|]. apply Z.div_unique with (b - 1); lia.
  - replace ((y - 1) / b) with (y / b); [lia|]. apply Z.div_unique with (y mod b - 1); lia.
Qed.
Lemma leaps_step y : leaps y - leaps (y - 1) = if isleapYear y then 1 else 0.
Proof.
  rewrite <- leap_lib. unfold leaps, lib_leap. pose proof (div_step y 4 ltac:(lia)). pose proof (div_step y 100 ltac:(lia)). pose proof (div_step y 400 ltac:(lia)).
  assert (y mod 400 = 0 -> y mod 100 = 0). { intros H4. apply Z.mod_divide in H4; [|lia]. apply Z.mod_divide; [lia|]. eapply Z.divide_trans; [|exact H4]. now exists 4. }
  assert (y mod 100 = 0 -> y mod 4 = 0). { intros H4. apply Z.mod_divide in H4; [|lia]. apply Z.mod_divide; [lia|]. eapply Z.divide_trans; [|exact H4]. now exists 25. }
  destruct (Z.eqb_spec (y mod 4) 0), (Z.eqb_spec (y mod 100) 0), (Z.eqb_spec (y mod 400) 0); cbn [andb orb negb]; lia.
Qed.

(** The number of a day *)
Definition dayno (a : Z * Z * Z) : Z := let '(y, m, d) := a in day_number y (m - 1) d.
Lemma month_start_before l m : 1 <= m <= 12 -> month_start l (m - 1) = before m + if (2 <? m) && l then 1 else 0.
Proof.
  intros Hm. unfold month_start. replace (1 <? m - 1) with (2 <? m) by (destruct (Z.ltb_spec 2 m), (Z.ltb_spec 1 (m - 1)); lia).
  f_equal. assert (m = 1 \/ m = 2 \/ m = 3 \/ m = 4 \/ m = 5 \/ m = 6 \/ m = 7 \/ m = 8 \/ m = 9 \/ m = 10 \/ m = 11 \/ m = 12) as Hc by lia.
  repeat (destruct Hc as [->|Hc]); try subst m; reflexivity.
Qed.
Lemma dayno_year y m d k : 1 <= m <= 12 -> calcYearDay y m d = Ok k -> dayno (y, m, d) = day_number y 0 1 + k.
Proof.
  intros Hm. rewrite year_day_eq by auto. intros E. inversion E; subst. unfold dayno, day_number. rewrite month_start_before by auto. rewrite leap_lib.
  change (month_start (isleapYear y) 0) with 0. lia.
Qed.
Lemma year_start y : day_number (y + 1) 0 1 = day_number y 0 1 + if isleapYear y then 366 else 365.
Proof.
  unfold day_number. change (month_start (lib_leap y) 0) with 0. change (month_start (lib_leap (y + 1)) 0) with 0.
  pose proof (leaps_step y) as H. replace (y + 1 - 1) with y by lia. destruct (isleapYear y); lia.
Qed.
Lemma dayno_next a b : next_day a b -> dayno b = dayno a + 1.
Proof.
  intros H. destruct a as [[y m] d], b as [[y' m'] d'].
  assert (1 <= m <= 12 /\ 1 <= m' <= 12) as [Hm Hm'].
  { inversion H as [? ? ? n Hd|? ? n Hd|?]; subst; try (apply md_range in Hd); lia. }
  assert (exists k, calcYearDay y m d = Ok k) as [k Hk]. { rewrite year_day_eq by auto. eauto. }
  pose proof (step_ok _ _ _ _ _ _ _ H Hk) as Hk'. rewrite (dayno_year _ _ _ _ Hm Hk), (dayno_year _ _ _ _ Hm' Hk').
  destruct (Z.eqb_spec y' y) as [->|Hy]; [lia|]. inversion H; subst; try congruence. rewrite year_start.
  rewrite year_day_eq in Hk by lia. change (before 12) with 334 in Hk. change (2 <? 12) with true in Hk. cbn [andb] in Hk.
  assert (k = 334 + (31 - 1) + if isleapYear y then 1 else 0) as -> by congruence. destruct (isleapYear y); lia.
Qed.
Lemma dayno_later a n b : days_later a n b -> dayno b = dayno a + n.
Proof. induction 1 as [|a n b c H IH Hn]; [lia|]. rewrite (dayno_next _ _ Hn). lia. Qed.

(** The order of the numbers is that of the dates *)
Lemma year_starts y k : (0 <= k) -> day_number y 0 1 + 365 * k <= day_number (y + k) 0 1.
Proof.
  intros Hk. revert k Hk. apply natlike_ind; [replace (y + 0) with y by lia; lia|]. intros k Hk IH. replace (y + Z.succ k) with (y + k + 1) by lia. rewrite year_start.
  destruct (isleapYear (y + k)); lia.
Qed.
Lemma valid_month y m d : valid y m d -> 1 <= m <= 12.
Proof. intros (n & Hm & _). apply md_range in Hm. tauto. Qed.
Lemma valid_len y m n : month_days y m n -> n = month_start (isleapYear y) m - month_start (isleapYear y) (m - 1) \/ m = 12 /\ n = 31.
Proof.
  intros Hm. inversion Hm as [? Hc|? Hc|Hl|Hl]; subst.
  - left. destruct Hc as [->|[->|[->| ->]]]; destruct (isleapYear y); reflexivity.
  - destruct Hc as [->|[->|[->|[->|[->|[->| ->]]]]]]; try (left; destruct (isleapYear y); reflexivity). right. auto.
  - left. destruct (isleapYear y) eqn:E; [apply leap_ok in E; contradiction|reflexivity].
  - left. apply leap_ok in Hl. rewrite Hl. reflexivity.
Qed.
Lemma month_mono l m m' : 0 <= m -> m < m' -> m' <= 11 -> month_start l (m + 1) <= month_start l m'.
Proof.
  intros H0 H1 H2.
  assert (m = 0 \/ m = 1 \/ m = 2 \/ m = 3 \/ m = 4 \/ m = 5 \/ m = 6 \/ m = 7 \/ m = 8 \/ m = 9 \/ m = 10) as Hc by lia.
  assert (m' = 1 \/ m' = 2 \/ m' = 3 \/ m' = 4 \/ m' = 5 \/ m' = 6 \/ m' = 7 \/ m' = 8 \/ m' = 9 \/ m' = 10 \/ m' = 11) as Hc' by lia.
  repeat (destruct Hc as [->|Hc]); try subst m; repeat (destruct Hc' as [->|Hc']); try subst m'; try lia; destruct l; vm_compute; congruence.
Qed.
Lemma in_year y m d : valid y m d -> day_number y 0 1 <= dayno (y, m, d) < day_number (y + 1) 0 1.
Proof.
  intros Hv. destruct (year_day_spec _ _ _ Hv) as (k & Hk & Hl). rewrite (dayno_year _ _ _ _ (valid_month _ _ _ Hv) Hk), year_start.
  pose proof (later_year _ _ _ Hl) as [H0 _]. split; [lia|]. destruct Hv as (n & Hm & Hd). rewrite year_day_eq in Hk by (apply md_range in Hm; tauto). 
  assert (k = before m + (d - 1) + (if (2 <? m) && isleapYear y then 1 else 0)) as -> by congruence.
  pose proof (md_range _ _ _ Hm) as [Hr _]. inversion Hm as [? Hc|? Hc|Hl'|Hl']; subst.
  - destruct Hc as [->|[->|[->| ->]]]; destruct (isleapYear y); cbn [before andb Z.ltb Z.compare Pos.compare Pos.compare_cont]; lia.
  - destruct Hc as [->|[->|[->|[->|[->|[->| ->]]]]]]; destruct (isleapYear y); cbn [before andb Z.ltb Z.compare Pos.compare Pos.compare_cont]; lia.
  - destruct (isleapYear y); cbn [before andb Z.ltb Z.compare Pos.compare Pos.compare_cont]; lia.
  - destruct (isleapYear y); cbn [before andb Z.ltb Z.compare Pos.compare Pos.compare_cont]; lia.
Qed.
Lemma dayno_order y m d y' m' d' : valid y m d -> valid y' m' d' ->
  y < y' \/ y = y' /\ (m < m' \/ m = m' /\ d < d') -> dayno (y, m, d) < dayno (y', m', d').
Proof.
  intros Hv Hv' [Hy|(-> & [Hm|(-> & Hd)])].
  - pose proof (in_year _ _ _ Hv). pose proof (in_year _ _ _ Hv'). pose proof (year_starts (y + 1) (y' - (y + 1)) ltac:(lia)) as Hs.
    replace (y + 1 + (y' - (y + 1))) with y' in Hs by lia. lia.
  - pose proof (valid_month _ _ _ Hv) as H1. pose proof (valid_month _ _ _ Hv') as H2. destruct Hv as (n & Hn & Hd), Hv' as (n' & Hn' & Hd').
    cbn [dayno]. unfold day_number. rewrite !leap_lib. pose proof (valid_len _ _ _ Hn) as [E|[E _]]; [|lia].
    pose proof (month_mono (isleapYear y') (m - 1) (m' - 1) ltac:(lia) ltac:(lia) ltac:(lia)) as Hmm. replace (m - 1 + 1) with m in Hmm by lia. lia.
  - cbn [dayno]. unfold day_number. lia.
Qed.
Lemma dayno_inj y m d y' m' d' : valid y m d -> valid y' m' d' -> dayno (y, m, d) = dayno (y', m', d') -> (y, m, d) = (y', m', d').
Proof.
  intros Hv Hv' E.
  destruct (Z.lt_trichotomy y y') as [H|[H|H]]; [exfalso; pose proof (dayno_order _ _ _ _ _ _ Hv Hv' ltac:(lia)); lia| |exfalso; pose proof (dayno_order _ _ _ _ _ _ Hv' Hv ltac:(lia)); lia].
  destruct (Z.lt_trichotomy m m') as [H1|[H1|H1]]; [exfalso; pose proof (dayno_order _ _ _ _ _ _ Hv Hv' ltac:(lia)); lia| |exfalso; pose proof (dayno_order _ _ _ _ _ _ Hv' Hv ltac:(lia)); lia].
  destruct (Z.lt_trichotomy d d') as [H2|[H2|H2]]; [exfalso; pose proof (dayno_order _ _ _ _ _ _ Hv Hv' ltac:(lia)); lia| |exfalso; pose proof (dayno_order _ _ _ _ _ _ Hv' Hv ltac:(lia)); lia].
  congruence.
Qed.

(** The date of a day: years begin in March, so that the leap day is the last *)
Definition mlen (y m : Z) : Z := if m =? 2 then if isleapYear y then 29 else 28 else if (m =? 4) || (m =? 6) || (m =? 9) || (m =? 11) then 30 else 31.
Lemma mlen_ok y m : 1 <= m <= 12 -> month_days y m (mlen y m).
Proof.
  intros H. unfold mlen. destruct (Z.eqb_spec m 2) as [->|H2].
  { destruct (isleapYear y) eqn:E; [apply md_feb_leap; now apply leap_ok|apply md_feb]. intros Hl. apply leap_ok in Hl. congruence. }
  destruct (Z.eqb_spec m 4), (Z.eqb_spec m 6), (Z.eqb_spec m 9), (Z.eqb_spec m 11); cbn [orb]; try lia; try (apply md_30; lia); apply md_31; lia.
Qed.
Lemma mlen_year y y' m : m <> 2 -> mlen y m = mlen y' m.
Proof. intros H. unfold mlen. destruct (Z.eqb_spec m 2); [contradiction|reflexivity]. Qed.
Lemma leap_400 y k : leap (y + 400 * k) <-> leap y.
Proof.
  assert (forall b c, 400 = b * c -> (b | y + 400 * k) <-> (b | y)) as Hd.
  { intros b c E. split; intros H.
    - replace y with (y + 400 * k - b * (c * k)) by (rewrite E; ring). apply Z.divide_sub_r; auto. apply Z.divide_factor_l.
    - replace (y + 400 * k) with (y + b * (c * k)) by (rewrite E; ring). apply Z.divide_add_r; auto. apply Z.divide_factor_l. }
  unfold leap. rewrite (Hd 4 100), (Hd 100 4), (Hd 400 1) by reflexivity. reflexivity.
Qed.
Lemma next_400 y m d y' m' d' k : next_day (y, m, d) (y', m', d') -> next_day (y + 400 * k, m, d) (y' + 400 * k, m', d').
Proof.
  assert (Hm : forall m n, month_days y m n -> month_days (y + 400 * k) m n).
  { intros m0 n H. inversion H; subst; [now apply md_30|now apply md_31|apply md_feb; now rewrite leap_400|apply md_feb_leap; now rewrite leap_400]. }
  intros H. inversion H; subst; [econstructor; eauto|econstructor; eauto|]. replace (y + 1 + 400 * k) with (y + 400 * k + 1) by lia. apply nd_year.
Qed.
Definition month_of (doy : Z) : Z * Z := let mp := (5 * doy + 2) / 153 in (if mp <? 10 then mp + 3 else mp - 9, doy - (153 * mp + 2) / 5 + 1).
Definition day_of (y doy : Z) : Z * Z * Z := let '(m, d) := month_of doy in (if m <=? 2 then y + 1 else y, m, d).
Definition year_of (doe : Z) : Z := (doe - doe / 1460 + doe / 36524 - doe / 146096) / 365.
Lemma in_cycle_day doe : in_cycle doe = day_of (year_of doe) (doe - (365 * year_of doe + year_of doe / 4 - year_of doe / 100)).
Proof. reflexivity. Qed.
(** Days of a year up to the 28th of February *)
Definition step_b (a b : Z * Z) : bool :=
  let '(m, d) := a in let '(m', d') := b in
  (1 <=? m) && (m <=? 12) &&
  (((m' =? m) && (d' =? d + 1) && (1 <=? d) && (d <? if m =? 2 then 28 else mlen 1 m)) ||
   ((m' =? m + 1) && (d' =? 1) && (d =? mlen 1 m) && (m <? 12) && negb (m =? 2)) ||
   ((m =? 12) && (m' =? 1) && (d =? 31) && (d' =? 1))).
Fixpoint all_below (f : Z -> bool) (n : nat) : bool := match n with O => true | S k => f (Z.of_nat k) && all_below f k end.
Lemma all_below_ok f n : all_below f n = true -> forall k, 0 <= k < Z.of_nat n -> f k = true.
Proof.
  induction n as [|n IH]; intros H k Hk; [lia|]. cbn [all_below] in H. apply andb_true_iff in H as [H1 H2].
  destruct (Z.eq_dec k (Z.of_nat n)) as [->|]; auto. apply IH; auto. lia.
Qed.
Lemma months_right : all_below (fun doy => step_b (month_of doy) (month_of (doy + 1))) 364 = true.
Proof. vm_compute. reflexivity. Qed.
Lemma day_step y doy : 0 <= doy < 364 -> next_day (day_of y doy) (day_of y (doy + 1)).
Proof.
  intros H. pose proof (all_below_ok _ _ months_right doy ltac:(lia)) as B. cbn beta in B. unfold day_of.
  destruct (month_of doy) as [m d], (month_of (doy + 1)) as [m' d']. unfold step_b in B.
  rewrite !andb_true_iff, !orb_true_iff, !andb_true_iff, negb_true_iff, !Z.eqb_eq, !Z.leb_le, !Z.ltb_lt, Z.eqb_neq in B. destruct B as [Hm [[B|B]|B]].
  - destruct B as (((-> & ->) & H1) & H2). set (x := if m <=? 2 then y + 1 else y). apply nd_day with (n := mlen x m); [now apply mlen_ok|].
    revert H2. destruct (Z.eqb_spec m 2) as [->|N]; intros H2; [change (mlen x 2) with (if isleapYear x then 29 else 28); destruct (isleapYear x); lia|]. rewrite (mlen_year x 1) by auto. lia.
  - destruct B as ((((-> & ->) & ->) & H1) & H2). assert ((m + 1 <=? 2) = (m <=? 2)) as -> by (destruct (Z.leb_spec (m + 1) 2), (Z.leb_spec m 2); lia).
    set (x := if m <=? 2 then y + 1 else y). rewrite (mlen_year 1 x) by auto. apply nd_month; [now apply mlen_ok|lia].
  - destruct B as (((-> & ->) & ->) & ->). apply nd_year.
Qed.
Lemma leap_day y : isleapYear (y + 1) = true -> next_day (day_of y 364) (day_of y 365).
Proof. intros L. apply (nd_day (y + 1) 2 28 29); [|lia]. apply md_feb_leap. now apply leap_ok. Qed.
Lemma march y : next_day (day_of y (if isleapYear (y + 1) then 365 else 364)) (day_of (y + 1) 0).
Proof.
  destruct (isleapYear (y + 1)) eqn:L; [apply (nd_month (y + 1) 2 29)|apply (nd_month (y + 1) 2 28)]; try lia.
  - apply md_feb_leap. now apply leap_ok.
  - apply md_feb. intros H. apply leap_ok in H. congruence.
Qed.
(** The year of a day, from the first and the last day of each *)
Definition march_first (y : Z) : Z := 365 * y + leaps y.
Lemma year_mono d : 0 <= d < 146096 -> d - d / 1460 + d / 36524 - d / 146096 <= d + 1 - (d + 1) / 1460 + (d + 1) / 36524 - (d + 1) / 146096.
Proof.
  intros H. destruct (Z.eq_dec d 146095) as [->|N]; [vm_compute; discriminate|].
  rewrite !(Z.div_small _ 146096) by lia. pose proof (Z.div_le_mono d (d + 1) 36524 ltac:(lia) ltac:(lia)).
  assert ((d + 1) / 1460 <= d / 1460 + 1); [|lia]. replace (d / 1460 + 1) with ((d + 1 * 1460) / 1460) by (apply Z.div_add; lia). apply Z.div_le_mono; lia.
Qed.
Lemma year_mono_far d n : 0 <= n -> 0 <= d -> d + n <= 146096 -> d - d / 1460 + d / 36524 - d / 146096 <= d + n - (d + n) / 1460 + (d + n) / 36524 - (d + n) / 146096.
Proof.
  intros Hn Hd. revert n Hn. refine (natlike_ind _ _ _); [rewrite Z.add_0_r; lia|]. intros n Hn IH H. pose proof (year_mono (d + n) ltac:(lia)) as M.
  replace (d + Z.succ n) with (d + n + 1) by lia. specialize (IH ltac:(lia)). lia.
Qed.
Lemma years_right : all_below (fun y => (year_of (march_first y) =? y) && (year_of (march_first (y + 1) - 1) =? y)) 400 = true.
Proof. vm_compute. reflexivity. Qed.
Lemma march_step y : march_first (y + 1) = march_first y + if isleapYear (y + 1) then 366 else 365.
Proof. unfold march_first. pose proof (leaps_step (y + 1)) as H. replace (y + 1 - 1) with y in H by lia. destruct (isleapYear (y + 1)); lia. Qed.
Lemma march_pos y : 0 <= y -> 0 <= march_first y.
Proof. revert y. apply natlike_ind; [vm_compute; discriminate|]. intros y Hy IH. replace (Z.succ y) with (y + 1) by lia. rewrite march_step. destruct (isleapYear (y + 1)); lia. Qed.
Lemma march_mono y n : 0 <= n -> march_first y <= march_first (y + n).
Proof.
  revert n. apply natlike_ind; [rewrite Z.add_0_r; lia|]. intros n Hn IH. replace (y + Z.succ n) with (y + n + 1) by lia. rewrite march_step. destruct (isleapYear (y + n + 1)); lia.
Qed.
Lemma year_in y doe : 0 <= y < 400 -> march_first y <= doe < march_first (y + 1) -> year_of doe = y.
Proof.
  intros Hy H. pose proof (all_below_ok _ _ years_right y ltac:(lia)) as B. cbn beta in B. apply andb_true_iff in B as [B1 B2]. apply Z.eqb_eq in B1, B2.
  pose proof (march_pos y ltac:(lia)) as P. pose proof (march_mono (y + 1) (399 - y) ltac:(lia)) as E. replace (y + 1 + (399 - y)) with 400 in E by lia. change (march_first 400) with 146097 in E.
  apply Z.le_antisymm.
  - rewrite <- B2. unfold year_of. apply Z.div_le_mono; [lia|]. pose proof (year_mono_far doe (march_first (y + 1) - 1 - doe) ltac:(lia) ltac:(lia) ltac:(lia)) as M.
    replace (doe + (march_first (y + 1) - 1 - doe)) with (march_first (y + 1) - 1) in M by lia. exact M.
  - rewrite <- B1 at 1. unfold year_of. apply Z.div_le_mono; [lia|]. pose proof (year_mono_far (march_first y) (doe - march_first y) ltac:(lia) ltac:(lia) ltac:(lia)) as M.
    replace (march_first y + (doe - march_first y)) with doe in M by lia. exact M.
Qed.
Lemma of_year y doe : 0 <= y < 400 -> march_first y <= doe < march_first (y + 1) -> in_cycle doe = day_of y (doe - march_first y).
Proof.
  intros Hy H. rewrite in_cycle_day, (year_in y doe Hy H). unfold march_first, leaps. rewrite (Z.div_small y 400) by lia. f_equal. lia.
Qed.
Lemma year_found n doe : 0 <= n -> 0 <= doe < march_first n -> exists y, 0 <= y < n /\ march_first y <= doe < march_first (y + 1).
Proof.
  intros Hn. revert n Hn. refine (natlike_ind _ _ _); [change (march_first 0) with 0; lia|]. intros n Hn IH H.
  destruct (Z.lt_ge_cases doe (march_first n)) as [L|L]; [destruct (IH ltac:(lia)) as (y & Hy & Hd); exists y; split; [lia|exact Hd]|].
  exists n. split; [lia|]. replace (n + 1) with (Z.succ n) by lia. lia.
Qed.
Lemma cycle_step k : 0 <= k < 146096 -> next_day (in_cycle k) (in_cycle (k + 1)).
Proof.
  intros Hk. destruct (year_found 400 k ltac:(lia)) as (y & Hy & H); [change (march_first 400) with 146097; lia|]. rewrite (of_year y k Hy H). pose proof (march_step y) as L.
  destruct (Z.eq_dec (k + 1) (march_first (y + 1))) as [E|N].
  - assert (y < 399) as Y. { destruct (Z.eq_dec y 399) as [->|]; [change (march_first (399 + 1)) with 146097 in E; lia|lia]. }
    pose proof (march_step (y + 1)) as L'. rewrite (of_year (y + 1) (k + 1)) by (destruct (isleapYear (y + 1 + 1)); lia). rewrite E, Z.sub_diag.
    replace (k - march_first y) with (if isleapYear (y + 1) then 365 else 364) by (destruct (isleapYear (y + 1)); lia). apply march.
  - rewrite (of_year y (k + 1) Hy) by lia. replace (k + 1 - march_first y) with (k - march_first y + 1) by lia.
    destruct (Z.lt_ge_cases (k - march_first y) 364) as [S1|S1]; [apply day_step; lia|]. destruct (isleapYear (y + 1)) eqn:Lp; [|lia]. replace (k - march_first y) with 364 by lia. now apply leap_day.
Qed.
Lemma date_step n : next_day (date_of_day n) (date_of_day (n + 1)).
Proof.
  unfold date_of_day. set (z := n + 719468). replace (n + 1 + 719468) with (z + 1) by lia.
  pose proof (Z.mod_pos_bound z 146097 ltac:(lia)) as Hr. pose proof (Z.div_mod z 146097 ltac:(lia)) as E.
  destruct (Z.eq_dec (z mod 146097) 146096) as [E1|E1].
  - replace ((z + 1) / 146097) with (z / 146097 + 1) by (apply Z.div_unique with 0; lia).
    replace ((z + 1) mod 146097) with 0 by (apply Z.mod_unique with (z / 146097 + 1); lia). rewrite E1.
    change (in_cycle 146096) with (400, 2, 29). change (in_cycle 0) with (0, 3, 1). cbn match.
    replace (0 + 400 * (z / 146097 + 1)) with (400 + 400 * (z / 146097)) by lia. apply next_400. change 3 with (2 + 1). apply nd_month; [|lia].
    apply md_feb_leap. apply leap_ok. reflexivity.
  - replace ((z + 1) / 146097) with (z / 146097) by (apply Z.div_unique with (z mod 146097 + 1); lia).
    replace ((z + 1) mod 146097) with (z mod 146097 + 1) by (apply Z.mod_unique with (z / 146097); lia).
    pose proof (cycle_step (z mod 146097) ltac:(lia)) as H.
    destruct (in_cycle (z mod 146097)) as [[y m] d], (in_cycle (z mod 146097 + 1)) as [[y' m'] d']. now apply next_400.
Qed.
Lemma date_epoch : date_of_day 0 = (1970, 1, 1). Proof. reflexivity. Qed.
Lemma dates_later n k : 0 <= k -> days_later (date_of_day n) k (date_of_day (n + k)).
Proof.
  revert k. apply natlike_ind; [rewrite Z.add_0_r; apply dl_0|]. intros k Hk IH. replace (Z.succ k) with (k + 1) by lia. rewrite Z.add_assoc.
  eapply dl_S; [exact IH|apply date_step].
Qed.
Lemma date_at n : day_at n (date_of_day n).
Proof.
  unfold day_at. rewrite <- date_epoch. destruct (Z.le_gt_cases 0 n) as [H|H]; [left|right]; split; try lia.
  - exact (dates_later 0 n H).
  - pose proof (dates_later n (- n) ltac:(lia)) as Hd. now rewrite Z.add_opp_diag_r in Hd.
Qed.
Lemma next_valid y m d b : next_day (y, m, d) b -> valid y m d.
Proof.
  intros H. inversion H as [? ? ? n Hm|? ? n Hm|?]; subst.
  - exists n. split; auto. lia.
  - exists d. split; auto. apply md_range in Hm. lia.
  - exists 31. split; [apply md_31|]; lia.
Qed.
Lemma date_valid n y m d : date_of_day n = (y, m, d) -> valid y m d.
Proof. intros E. pose proof (date_step n) as H. rewrite E in H. eapply next_valid; eauto. Qed.
Lemma dayno_at n a : day_at n a -> dayno a = n.
Proof.
  assert (E0 : dayno (1970, 1, 1) = 0) by reflexivity.
  intros [[H Hd]|[H Hd]]; apply dayno_later in Hd; lia.
Qed.
Lemma date_of_dayno y m d : valid y m d -> date_of_day (dayno (y, m, d)) = (y, m, d).
Proof.
  intros Hv. pose proof (dayno_at _ _ (date_at (dayno (y, m, d)))) as E. destruct (date_of_day (dayno (y, m, d))) as [[y' m'] d'] eqn:E1.
  apply dayno_inj; auto. eapply date_valid; eauto.
Qed.
Lemma at_dayno y m d : valid y m d -> day_at (dayno (y, m, d)) (y, m, d).
Proof. intros Hv. rewrite <- (date_of_dayno _ _ _ Hv) at 2. apply date_at. Qed.

(** Seconds of a day *)
Lemma clock_split n h mi s : clock h mi s ->
  (86400 * n + 3600 * h + 60 * mi + s) / 86400 = n /\ (86400 * n + 3600 * h + 60 * mi + s) mod 86400 = 3600 * h + 60 * mi + s.
Proof. intros (Hh & Hm & Hs). split; [symmetry; apply Z.div_unique with (3600 * h + 60 * mi + s); lia|symmetry; apply Z.mod_unique with n; lia]. Qed.
Lemma clock_parts h mi s : clock h mi s ->
  (3600 * h + 60 * mi + s) mod 60 = s /\ (3600 * h + 60 * mi + s) / 60 mod 60 = mi /\ (3600 * h + 60 * mi + s) / 3600 = h.
Proof.
  intros (Hh & Hm & Hs). split; [symmetry; apply Z.mod_unique with (60 * h + mi); lia|]. split.
  - replace ((3600 * h + 60 * mi + s) / 60) with (60 * h + mi) by (apply Z.div_unique with s; lia). symmetry. apply Z.mod_unique with h; lia.
  - symmetry. apply Z.div_unique with (60 * mi + s); lia.
Qed.
Lemma clock_exists x : 0 <= x < 86400 -> clock (x / 3600) (x / 60 mod 60) (x mod 60) /\ x = 3600 * (x / 3600) + 60 * (x / 60 mod 60) + x mod 60.
Proof.
  intros Hx. pose proof (Z.div_mod x 60 ltac:(lia)). pose proof (Z.mod_pos_bound x 60 ltac:(lia)).
  pose proof (Z.div_mod (x / 60) 60 ltac:(lia)). pose proof (Z.mod_pos_bound (x / 60) 60 ltac:(lia)).
  assert (E : x / 60 / 60 = x / 3600) by (rewrite Z.div_div by lia; reflexivity). rewrite E in *.
  pose proof (Z.div_mod x 3600 ltac:(lia)). pose proof (Z.mod_pos_bound x 3600 ltac:(lia)).
  unfold clock. split; [split; [|lia]; split; [apply Z.div_pos; lia|apply Z.div_lt_upper_bound; lia]|lia].
Qed.

Lemma gmtime_right t y m d h mi s w k : moment t y m d h mi s w k -> int_fits (y - 1900) = true ->
  gmtime t = Some (mkB s mi h d (m - 1) (y - 1900) w k 0).
Proof.
  intros (n & Hn & Hv & Hc & -> & -> & Hk) Hf. unfold gmtime. destruct (clock_split n _ _ _ Hc) as [-> ->]. destruct (clock_parts _ _ _ Hc) as (-> & -> & ->).
  pose proof (dayno_at _ _ Hn) as En. rewrite <- En at 1. rewrite date_of_dayno by auto. rewrite Hf. do 2 f_equal; [f_equal; lia|].
  apply dayno_later in Hk. cbn [dayno] in Hk, En. rewrite <- En. rewrite Hk. change (1 - 1) with 0. lia.
Qed.
Lemma moment_exists t : exists y m d h mi s w k, moment t y m d h mi s w k /\ date_of_day (t / 86400) = (y, m, d).
Proof.
  destruct (date_of_day (t / 86400)) as [[y m] d] eqn:E. pose proof (date_valid _ _ _ _ E) as Hv. destruct (all_reached _ _ _ Hv) as [k Hk].
  pose proof (Z.mod_pos_bound t 86400 ltac:(lia)) as Hx. destruct (clock_exists _ Hx) as [Hc Ex].
  exists y, m, d. do 3 eexists. exists ((4 + t / 86400) mod 7), k. split; [|reflexivity]. exists (t / 86400). rewrite <- E at 1. split; [apply date_at|]. split; auto. split; [exact Hc|].
  split; [|auto]. rewrite (Z.div_mod t 86400) at 1 by lia. lia.
Qed.
Lemma moment_of y m d h mi s : valid y m d -> clock h mi s ->
  exists w k, moment (86400 * dayno (y, m, d) + 3600 * h + 60 * mi + s) y m d h mi s w k.
Proof.
  intros Hv Hc. destruct (all_reached _ _ _ Hv) as [k Hk]. exists ((4 + dayno (y, m, d)) mod 7), k. exists (dayno (y, m, d)).
  split; [now apply at_dayno|]. auto.
Qed.

Lemma fits_1900 y : year_fits y -> int_fits (y - 1900) = true /\ int_fits y = true.
Proof. unfold year_fits, int_fits. intros H. rewrite !andb_true_iff, !Z.leb_le, !Z.ltb_lt. lia. Qed.
Lemma month_fits m : 1 <= m <= 12 -> int_fits m = true /\ int_fits (m - 1) = true.
Proof. unfold int_fits. intros H. rewrite !andb_true_iff, !Z.leb_le, !Z.ltb_lt. lia. Qed.
Lemma shows_tm u y2k y m d h mi s w k : year_fits y -> 1 <= m <= 12 ->
  shows (mkDate u y2k (Some (mkB s mi h d (m - 1) (y - 1900) w k 0))) y m d h mi s w k.
Proof.
  intros Hy Hm. destruct (fits_1900 _ Hy) as [_ H1]. destruct (month_fits _ Hm) as [H2 _].
  unfold shows, getYear, getMonth, getDay, getHour, getMinute, getSecond, getWeekDay, getYearDay, getDST, field, int32. cbn [d_tm b_sec b_min b_hour b_mday b_mon b_year b_wday b_yday b_isdst].
  replace (y - 1900 + 1900) with y by lia. replace (m - 1 + 1) with m by lia. rewrite H1, H2. repeat split.
Qed.
(** The year of a moment is bounded by its distance *)
Lemma dayno_bound y m d : valid y m d -> Z.abs (dayno (y, m, d)) <= 366 * (Z.abs (y - 1970) + 1).
Proof.
  intros Hv. pose proof (in_year _ _ _ Hv) as H. rewrite year_start in H. unfold day_number in H. change (month_start (lib_leap y) 0) with 0 in H.
  unfold leaps in H. change (1969 / 4 - 1969 / 100 + 1969 / 400) with 477 in H.
  pose proof (Z.div_mod (y - 1) 4 ltac:(lia)). pose proof (Z.mod_pos_bound (y - 1) 4 ltac:(lia)).
  pose proof (Z.div_mod (y - 1) 100 ltac:(lia)). pose proof (Z.mod_pos_bound (y - 1) 100 ltac:(lia)).
  pose proof (Z.div_mod (y - 1) 400 ltac:(lia)). pose proof (Z.mod_pos_bound (y - 1) 400 ltac:(lia)).
  destruct (isleapYear y); lia.
Qed.
Lemma dayno_far y m d : valid y m d -> 365 * Z.abs (y - 1970) <= Z.abs (dayno (y, m, d)) + 366.
Proof.
  intros Hv. pose proof (in_year _ _ _ Hv) as H. rewrite year_start in H. unfold day_number in H. change (month_start (lib_leap y) 0) with 0 in H.
  unfold leaps in H. change (1969 / 4 - 1969 / 100 + 1969 / 400) with 477 in H.
  pose proof (Z.div_mod (y - 1) 4 ltac:(lia)). pose proof (Z.mod_pos_bound (y - 1) 4 ltac:(lia)).
  pose proof (Z.div_mod (y - 1) 100 ltac:(lia)). pose proof (Z.mod_pos_bound (y - 1) 100 ltac:(lia)).
  pose proof (Z.div_mod (y - 1) 400 ltac:(lia)). pose proof (Z.mod_pos_bound (y - 1) 400 ltac:(lia)).
  destruct (isleapYear y); lia.
Qed.
Lemma time_bound y m d h mi s : valid y m d -> clock h mi s -> year_fits y -> - 2 ^ 62 <= 86400 * dayno (y, m, d) + 3600 * h + 60 * mi + s < 2 ^ 62.
Proof. intros Hv (Hh & Hm & Hs) Hy. pose proof (dayno_bound _ _ _ Hv). unfold year_fits in Hy. lia. Qed.
Lemma stamps_ok t : - 2 ^ 62 <= t < 2 ^ 62 -> set_timestamps t = (t, t - UNIX_OFFSET).
Proof.
  intros Ht. unfold set_timestamps, to_time_t, UNIX_OFFSET. f_equal. rewrite Z.add_mod_idemp_l by lia.
  rewrite Z.mod_small; lia.
Qed.

(** mktime, for a year that fits *)
Lemma mktime_right shift y m d h mi s w0 k0 dst : valid y m d -> clock h mi s -> year_fits y -> dst <= 0 \/ shift = 0 ->
  exists w k, moment (86400 * dayno (y, m, d) + 3600 * h + 60 * mi + s) y m d h mi s w k /\
    mktime shift (mkB s mi h d (m - 1) (y - 1900) w0 k0 dst) = (86400 * dayno (y, m, d) + 3600 * h + 60 * mi + s, mkB s mi h d (m - 1) (y - 1900) w k 0).
Proof.
  intros Hv Hc Hy Hs. destruct (moment_of _ _ _ _ _ _ Hv Hc) as (w & k & Hm). exists w, k. split; auto.
  unfold mktime. cbn [b_sec b_min b_hour b_mday b_mon b_year b_wday b_yday b_isdst]. pose proof (valid_month _ _ _ Hv) as Hr.
  rewrite Z.div_small, Z.mod_small by lia. replace (y - 1900 + 1900 + 0) with y by lia.
  assert ((if 0 <? dst then shift else 0) = 0) as -> by (destruct (Z.ltb_spec 0 dst); lia). rewrite Z.sub_0_r. change (day_number y (m - 1) d) with (dayno (y, m, d)).
  rewrite (gmtime_right _ _ _ _ _ _ _ _ _ Hm) by (eapply proj1, fits_1900; assumption). reflexivity.
Qed.
Lemma fields_right shift y m d h mi s wd yd dst :
  valid y m d -> clock h mi s -> year_fits y -> - 2 ^ 31 < wd < 2 ^ 31 -> dst <= 0 \/ shift = 0 ->
  exists t x w k, DateTime_fields shift y m d h mi s wd yd dst = Ok x /\ moment t y m d h mi s w k /\
    getUnixTime x = t /\ getY2kTime x = t - UNIX_OFFSET /\ shows x y m d h mi s w k.
Proof.
  intros Hv Hc Hy Hw Hs. destruct (mktime_right shift y m d h mi s (wd - 1) yd dst Hv Hc Hy Hs) as (w & k & Hm & E).
  exists (86400 * dayno (y, m, d) + 3600 * h + 60 * mi + s). eexists. exists w, k. unfold DateTime_fields, int32. pose proof (valid_month _ _ _ Hv) as Hr.
  destruct (month_fits _ Hr) as [_ ->]. destruct (fits_1900 _ Hy) as [-> _].
  assert (int_fits (wd - 1) = true) as -> by (unfold int_fits; rewrite andb_true_iff, Z.leb_le, Z.ltb_lt; lia). cbn [bind]. unfold stamped. rewrite E.
  rewrite stamps_ok by (apply time_bound; auto). split; [reflexivity|]. split; auto. split; [reflexivity|]. split; [reflexivity|]. now apply shows_tm.
Qed.
Lemma moment_year t y m d h mi s w k : moment t y m d h mi s w k -> - 2 ^ 55 <= t <= 2 ^ 55 -> year_fits y.
Proof.
  intros (n & Hn & Hv & (Hh & Hm & Hs) & -> & _) Ht. pose proof (dayno_far _ _ _ Hv) as Hf. rewrite (dayno_at _ _ Hn) in Hf. unfold year_fits.
  assert (Z.abs n <= 417000000000) by lia. lia.
Qed.
Lemma unix_right dbg t : - 2 ^ 55 <= t <= 2 ^ 55 -> dbg = false \/ UNIX_OFFSET <= t ->
  exists x y m d h mi s w k, DateTime_unix dbg t = Ok x /\ moment t y m d h mi s w k /\
    getUnixTime x = t /\ getY2kTime x = t - UNIX_OFFSET /\ shows x y m d h mi s w k.
Proof.
  intros Ht Hd. destruct (moment_exists t) as (y & m & d & h & mi & s & w & k & Hm & _). eexists. exists y, m, d, h, mi, s, w, k.
  unfold DateTime_unix. rewrite y2k_ok by lia. unfold UNIX_OFFSET in *.
  replace (dbg && (t <? 946684800) && (- 2 ^ 63 + 946684800 <=? t)) with false.
  2:{ destruct Hd as [->|Hd]; [reflexivity|]. destruct (Z.ltb_spec t 946684800); [lia|]. now rewrite andb_false_r. }
  cbn [bind]. split; [reflexivity|]. split; auto. split; [reflexivity|]. split.
  { cbn [getY2kTime d_y2k]. destruct (Z.leb_spec (- 2 ^ 63 + 946684800) t); lia. }
  pose proof (moment_year _ _ _ _ _ _ _ _ _ Hm Ht) as Hy. rewrite (gmtime_right _ _ _ _ _ _ _ _ _ Hm) by (eapply proj1, fits_1900; assumption).
  apply shows_tm; auto. destruct Hm as (n & _ & Hv & _). eapply valid_month; eauto.
Qed.
Lemma moment_time t t' y m d h mi s w k w' k' : moment t y m d h mi s w k -> moment t' y m d h mi s w' k' -> t = t' /\ w = w' /\ k = k'.
Proof.
  intros (n & Hn & _ & _ & -> & -> & Hk) (n' & Hn' & _ & _ & -> & -> & Hk'). assert (n = n') as -> by (apply dayno_at in Hn; apply dayno_at in Hn'; congruence).
  split; [lia|]. split; auto. apply year_day_later in Hk. apply year_day_later in Hk'. congruence.
Qed.
Lemma moment_order t t' y m d h mi s w k y' m' d' h' mi' s' w' k' :
  moment t y m d h mi s w k -> moment t' y' m' d' h' mi' s' w' k' -> earlier (y, m, d, h, mi, s) (y', m', d', h', mi', s') -> t < t'.
Proof.
  intros (n & Hn & Hv & (Hh & Hm & Hs) & -> & _) (n' & Hn' & Hv' & (Hh' & Hm' & Hs') & -> & _) H. apply dayno_at in Hn. apply dayno_at in Hn'. cbn [earlier] in H.
  assert (n < n' \/ n = n' /\ (h < h' \/ h = h' /\ (mi < mi' \/ mi = mi' /\ s < s'))) as Hc; [|lia].
  destruct H as [H|(-> & [H|(-> & [H|(-> & H)])])]; [left|left|left|right; split; [congruence|lia]];
    rewrite <- Hn, <- Hn'; apply dayno_order; auto; lia.
Qed.
Lemma earlier_total y m d h mi s y' m' d' h' mi' s' :
  earlier (y, m, d, h, mi, s) (y', m', d', h', mi', s') \/ (y, m, d, h, mi, s) = (y', m', d', h', mi', s') \/ earlier (y', m', d', h', mi', s') (y, m, d, h, mi, s).
Proof.
  unfold earlier. destruct (Z.lt_trichotomy y y') as [?|[->|?]]; [lia| |lia]. destruct (Z.lt_trichotomy m m') as [?|[->|?]]; [lia| |lia].
  destruct (Z.lt_trichotomy d d') as [?|[->|?]]; [lia| |lia]. destruct (Z.lt_trichotomy h h') as [?|[->|?]]; [lia| |lia].
  destruct (Z.lt_trichotomy mi mi') as [?|[->|?]]; [lia| |lia]. destruct (Z.lt_trichotomy s s') as [?|[->|?]]; [lia| |lia]. right. left. reflexivity.
Qed.
Lemma order_right shift x x' y m d h mi s wd yd dst y' m' d' h' mi' s' wd' yd' dst' :
  valid y m d -> clock h mi s -> year_fits y -> - 2 ^ 31 < wd < 2 ^ 31 -> dst <= 0 ->
  valid y' m' d' -> clock h' mi' s' -> year_fits y' -> - 2 ^ 31 < wd' < 2 ^ 31 -> dst' <= 0 ->
  DateTime_fields shift y m d h mi s wd yd dst = Ok x -> DateTime_fields shift y' m' d' h' mi' s' wd' yd' dst' = Ok x' ->
  (getUnixTime x < getUnixTime x' <-> earlier (y, m, d, h, mi, s) (y', m', d', h', mi', s')).
Proof.
  intros Hv Hc Hy Hw Hd Hv' Hc' Hy' Hw' Hd' E E'.
  destruct (fields_right shift y m d h mi s wd yd dst Hv Hc Hy Hw (or_introl Hd)) as (t & x1 & w & k & E1 & Hm & Ht & _). rewrite E in E1. inversion E1; subst x1.
  destruct (fields_right shift y' m' d' h' mi' s' wd' yd' dst' Hv' Hc' Hy' Hw' (or_introl Hd')) as (t' & x1' & w' & k' & E1' & Hm' & Ht' & _). rewrite E' in E1'. inversion E1'; subst x1'.
  rewrite Ht, Ht'. split; intros H.
  - destruct (earlier_total y m d h mi s y' m' d' h' mi' s') as [H1|[H1|H1]]; auto.
    + inversion H1; subst. destruct (moment_time _ _ _ _ _ _ _ _ _ _ _ _ Hm Hm'). lia.
    + pose proof (moment_order _ _ _ _ _ _ _ _ _ _ _ _ _ _ _ _ _ _ Hm' Hm H1). lia.
  - eapply moment_order; eauto.
Qed.
Lemma back_right dbg shift t x y m d h mi s w k : - 2 ^ 55 <= t <= 2 ^ 55 -> DateTime_unix dbg t = Ok x -> shows x y m d h mi s w k ->
  exists x', DateTime_fields shift y m d h mi s 0 0 (-1) = Ok x' /\ getUnixTime x' = t /\ getY2kTime x' = getY2kTime x /\ shows x' y m d h mi s w k.
Proof.
  intros Ht E Hs. assert (Hd : dbg = false \/ UNIX_OFFSET <= t).
  { destruct dbg; auto. right. unfold DateTime_unix in E. rewrite y2k_ok in E by lia. unfold UNIX_OFFSET in *. destruct (Z.ltb_spec t 946684800); [|lia].
    destruct (Z.leb_spec (- 2 ^ 63 + 946684800) t); [|lia]. discriminate. }
  destruct (unix_right dbg t Ht Hd) as (x1 & y1 & m1 & d1 & h1 & mi1 & s1 & w1 & k1 & E1 & Hm & Hu & H2 & Hs1). rewrite E in E1. inversion E1; subst x1.
  destruct Hs as (A1 & A2 & A3 & A4 & A5 & A6 & A7 & A8 & _), Hs1 as (B1 & B2 & B3 & B4 & B5 & B6 & B7 & B8 & _).
  assert (y1 = y /\ m1 = m /\ d1 = d /\ h1 = h /\ mi1 = mi /\ s1 = s /\ w1 = w /\ k1 = k) as (-> & -> & -> & -> & -> & -> & -> & ->) by (repeat split; congruence).
  pose proof (moment_year _ _ _ _ _ _ _ _ _ Hm Ht) as Hy. assert (Hm0 := Hm). destruct Hm0 as (n & Hn & Hv & Hc & _).
  destruct (fields_right shift y m d h mi s 0 0 (-1) Hv Hc Hy ltac:(lia) ltac:(lia)) as (t' & x' & w' & k' & E' & Hm' & Hu' & H2' & Hs').
  destruct (moment_time _ _ _ _ _ _ _ _ _ _ _ _ Hm Hm') as (<- & <- & <-). exists x'. split; auto. split; auto. split; [lia|]. exact Hs'.
Qed.

(** Fields beyond their ranges *)
Lemma carried_right shift y m d h mi s :
  1 <= m <= 12 -> 1900 - 2 ^ 30 <= y <= 2 ^ 30 -> Z.abs d <= 2 ^ 31 -> Z.abs h <= 2 ^ 31 -> Z.abs mi <= 2 ^ 31 -> Z.abs s <= 2 ^ 31 ->
  exists n x t y' m' d' h' mi' s' w k, day_at n (y, m, 1) /\ t = 86400 * (n + (d - 1)) + 3600 * h + 60 * mi + s /\
    DateTime_fields shift y m d h mi s 0 0 (-1) = Ok x /\ getUnixTime x = t /\ moment t y' m' d' h' mi' s' w k /\ shows x y' m' d' h' mi' s' w k.
Proof.
  intros Hm Hy Hd Hh Hmi Hs.
  assert (Hv : valid y m 1). { destruct (md_exists y m Hm) as [n Hn]. exists n. split; auto. apply md_range in Hn. lia. }
  set (t0 := 86400 * dayno (y, m, 1)). set (t := t0 + 86400 * (d - 1) + 3600 * h + 60 * mi + s).
  destruct (moment_exists t) as (y' & m' & d' & h' & mi' & s' & w & k & Hmom & _).
  assert (Ht : Z.abs t <= 2 ^ 55). { pose proof (dayno_bound _ _ _ Hv). unfold t, t0. lia. }
  exists (dayno (y, m, 1)). eexists. exists t, y', m', d', h', mi', s', w, k. split; [now apply at_dayno|]. split; [unfold t, t0; lia|].
  unfold DateTime_fields, int32. destruct (month_fits _ Hm) as [_ ->].
  assert (int_fits (y - 1900) = true) as -> by (apply (proj1 (fits_1900 y ltac:(unfold year_fits; lia)))). change (int_fits (0 - 1)) with true. cbn [bind]. unfold stamped, mktime.
  cbn [b_sec b_min b_hour b_mday b_mon b_year b_wday b_yday b_isdst]. rewrite Z.div_small, Z.mod_small by lia. replace (y - 1900 + 1900 + 0) with y by lia. change (0 <? -1) with false. cbn match.
  assert (86400 * day_number y (m - 1) d + 3600 * h + 60 * mi + s - 0 = t) as ->. { unfold t, t0. cbn [dayno]. unfold day_number. lia. }
  pose proof (moment_year _ _ _ _ _ _ _ _ _ Hmom ltac:(lia)) as Hyf.
  rewrite (gmtime_right _ _ _ _ _ _ _ _ _ Hmom) by (eapply proj1, fits_1900; assumption). rewrite stamps_ok by lia.
  split; [reflexivity|]. split; [reflexivity|]. split; auto. apply shows_tm; auto. destruct Hmom as (n & _ & Hv' & _). eapply valid_month; eauto.
Qed.
(** Years that do not fit *)
Lemma far_right t : 2 ^ 56 <= t < 2 ^ 63 -> exists x, DateTime_unix false t = Ok x /\ getUnixTime x = t /\ getYear x = UB /\ getDay x = UB.
Proof.
  intros Ht. unfold DateTime_unix. rewrite y2k_ok by lia. cbn [andb bind]. eexists. split; [reflexivity|]. split; [reflexivity|].
  assert (gmtime t = None) as ->; [|split; reflexivity]. unfold gmtime. destruct (date_of_day (t / 86400)) as [[y m] d] eqn:E.
  pose proof (date_valid _ _ _ _ E) as Hv. pose proof (dayno_at _ _ (date_at (t / 86400))) as En. rewrite E in En. pose proof (in_year _ _ _ Hv) as Hi. rewrite En, year_start in Hi.
  pose proof (Z.div_mod t 86400 ltac:(lia)). pose proof (Z.mod_pos_bound t 86400 ltac:(lia)).
  unfold int_fits. destruct (Z.ltb_spec (y - 1900) (2 ^ 31)) as [Hy|Hy]; [|now rewrite andb_false_r]. exfalso.
  unfold day_number in Hi. change (month_start (lib_leap y) 0) with 0 in Hi. unfold leaps in Hi. change (1969 / 4 - 1969 / 100 + 1969 / 400) with 477 in Hi.
  pose proof (Z.div_mod (y - 1) 4 ltac:(lia)). pose proof (Z.mod_pos_bound (y - 1) 4 ltac:(lia)).
  pose proof (Z.div_mod (y - 1) 100 ltac:(lia)). pose proof (Z.mod_pos_bound (y - 1) 100 ltac:(lia)).
  pose proof (Z.div_mod (y - 1) 400 ltac:(lia)). pose proof (Z.mod_pos_bound (y - 1) 400 ltac:(lia)).
  destruct (isleapYear y); lia.
Qed.

(** From text *)
Lemma from_text shift wday dst buff y m d h mi s :
  0 <= y < 10000 -> valid y m d -> clock h mi s -> ~ eight_or_nine h -> ~ eight_or_nine mi -> ~ eight_or_nine s -> dst <= 0 \/ shift = 0 ->
  exists b x t w k, DateTime_text shift wday dst buff (date_text y m d) (time_text h mi s) = Ok (b, x) /\ moment t y m d h mi s w k /\
    getUnixTime x = t /\ getY2kTime x = t - UNIX_OFFSET /\ shows x y m d h mi s w k.
Proof.
  intros Hy Hv Hc H1 H2 H3 Hs. assert (Hyf : year_fits y) by (unfold year_fits; lia).
  assert (Hc' : time_of_day h mi s) by (unfold clock in Hc; unfold time_of_day; lia).
  destruct (text_right dst buff y m d h mi s Hy Hv Hc' H1 H2 H3) as (yd & Hyd & E).
  destruct (mktime_right shift y m d h mi s wday yd dst Hv Hc Hyf Hs) as (w & k & Hm & Em).
  exists (month_text m). eexists. exists (86400 * dayno (y, m, d) + 3600 * h + 60 * mi + s), w, k. unfold DateTime_text. rewrite E. cbn [bind tm_sec tm_min tm_hour tm_mday tm_mon tm_year tm_yday tm_isdst].
  unfold stamped. rewrite Em. rewrite stamps_ok by (apply time_bound; auto).
  split; [reflexivity|]. split; auto. split; [reflexivity|]. split; [reflexivity|]. apply shows_tm; auto. eapply valid_month; eauto.
Qed.
