(** Lemmas about the model of datetime.cpp. *)
From Coq Require Import ZArith Lia Bool List Znumtheory.
From Verif Require Import Base DateModel DateSpec.
Import ListNotations.
Open Scope Z_scope.

Lemma rem0 a b : b <> 0 -> (Z.rem a b =? 0) = true <-> (b | a).
Proof. intros Hb. rewrite Z.eqb_eq. split; [apply Z.rem_divide; auto|]. intros. apply Z.rem_divide; auto. Qed.
Lemma leap_ok y : isleapYear y = true <-> leap y.
Proof.
  unfold isleapYear, leap. pose proof (rem0 y 4 ltac:(lia)). pose proof (rem0 y 100 ltac:(lia)). pose proof (rem0 y 400 ltac:(lia)).
  destruct (Z.rem y 4 =? 0), (Z.rem y 100 =? 0), (Z.rem y 400 =? 0); simpl; intuition congruence.
Qed.

Definition before (m : Z) : Z :=
  match m with 1 => 0 | 2 => 31 | 3 => 59 | 4 => 90 | 5 => 120 | 6 => 151 | 7 => 181 | 8 => 212 | 9 => 243 | 10 => 273 | 11 => 304 | _ => 334 end.
Lemma year_day_eq y m d : 1 <= m <= 12 -> calcYearDay y m d = Ok (before m + (d - 1) + if (2 <? m) && isleapYear y then 1 else 0).
Proof.
  intros Hm. unfold calcYearDay. generalize (d - 1) as x. intros x.
  assert (Hl : month_loop (Z.to_nat (m - 1)) 1 x = Ok (before m + x)).
  { assert (m = 1 \/ m = 2 \/ m = 3 \/ m = 4 \/ m = 5 \/ m = 6 \/ m = 7 \/ m = 8 \/ m = 9 \/ m = 10 \/ m = 11 \/ m = 12) as Hc by lia.
    repeat (destruct Hc as [->|Hc]); try subst m; match goal with |- context [Z.to_nat ?e] => let v := eval compute in (Z.to_nat e) in change (Z.to_nat e) with v end;
      cbn [month_loop rd daysInMonth nth_error Nat.sub Nat.add bind before]; f_equal; lia. }
  rewrite Hl. cbn [bind]. f_equal. destruct ((2 <? m) && isleapYear y); lia.
Qed.
Lemma md_range y m n : month_days y m n -> 1 <= m <= 12 /\ 28 <= n <= 31.
Proof. destruct 1; lia. Qed.

Lemma step_ok y m d y' m' d' k : next_day (y, m, d) (y', m', d') -> calcYearDay y m d = Ok k -> calcYearDay y' m' d' = Ok (if y' =? y then k + 1 else 0).
Proof.
  intros H Hk. inversion H as [? ? ? n Hm Hd|? ? n Hm Hlt|?]; subst.
  - destruct (md_range _ _ _ Hm) as [Hr _]. rewrite year_day_eq in * by auto. inversion Hk; subst. rewrite Z.eqb_refl. f_equal. lia.
  - destruct (md_range _ _ _ Hm) as [Hr _]. rewrite year_day_eq in * by lia. inversion Hk; subst. rewrite Z.eqb_refl. f_equal.
    assert (Hb : before (m + 1) + (if (2 <? m + 1) && isleapYear y' then 1 else 0) = before m + d + (if (2 <? m) && isleapYear y' then 1 else 0)); [|lia].
    inversion Hm as [? Hc|? Hc|Hl|Hl]; subst.
    + destruct Hc as [->|[->|[->| ->]]]; destruct (isleapYear y'); reflexivity.
    + destruct Hc as [->|[->|[->|[->|[->|[->| ->]]]]]]; try lia; destruct (isleapYear y'); reflexivity.
    + destruct (isleapYear y') eqn:E; [apply leap_ok in E; contradiction|reflexivity].
    + apply leap_ok in Hl. rewrite Hl. reflexivity.
  - destruct (Z.eqb_spec (y + 1) y); [lia|]. reflexivity.
Qed.

Lemma next_year a b : next_day a b -> fst (fst a) <= fst (fst b) <= fst (fst a) + 1.
Proof. destruct 1; simpl; lia. Qed.
Lemma later_year a n b : days_later a n b -> 0 <= n /\ fst (fst a) <= fst (fst b).
Proof. induction 1 as [|a n b c H IH Hn]; [lia|]. apply next_year in Hn. lia. Qed.

Lemma year_day_later y m d n : days_later (y, 1, 1) n (y, m, d) -> calcYearDay y m d = Ok n.
Proof.
  intros H. remember (y, 1, 1) as a. remember (y, m, d) as b. revert m d Heqb. induction H as [a|a n b c H IH Hn]; intros m d E; subst.
  - inversion E; subst. reflexivity.
  - destruct b as [[y1 m1] d1]. assert (y1 = y). { apply next_year in Hn. apply later_year in H as [_ H]. simpl in *. lia. } subst y1.
    rewrite (step_ok _ _ _ _ _ _ n Hn); [now rewrite Z.eqb_refl|]. apply IH; reflexivity.
Qed.

(** Every valid date is reached *)
Lemma days_in a y m k n : month_days y m n -> days_later a k (y, m, 1) -> forall d, 1 <= d <= n -> days_later a (k + (d - 1)) (y, m, d).
Proof.
  intros Hm H. assert (Hnat : forall j : nat, 1 + Z.of_nat j <= n -> days_later a (k + Z.of_nat j) (y, m, 1 + Z.of_nat j)).
  { induction j as [|j IH]; intros Hj; [rewrite Z.add_0_r, Z.add_0_r; exact H|]. replace (k + Z.of_nat (S j)) with (k + Z.of_nat j + 1) by lia.
    apply dl_S with (b := (y, m, 1 + Z.of_nat j)); [apply IH; lia|]. replace (1 + Z.of_nat (S j)) with (1 + Z.of_nat j + 1) by lia. apply nd_day with (n := n); auto. lia. }
  intros d Hd. specialize (Hnat (Z.to_nat (d - 1)) ltac:(lia)). rewrite Z2Nat.id in Hnat by lia. replace (1 + (d - 1)) with d in Hnat by lia. exact Hnat.
Qed.
Lemma md_exists y m : 1 <= m <= 12 -> exists n, month_days y m n.
Proof.
  intros H. assert (m = 2 \/ m = 4 \/ m = 6 \/ m = 9 \/ m = 11 \/ m = 1 \/ m = 3 \/ m = 5 \/ m = 7 \/ m = 8 \/ m = 10 \/ m = 12) as Hc by lia.
  destruct Hc as [->|Hc].
  - destruct (isleapYear y) eqn:E; [exists 29; apply md_feb_leap; now apply leap_ok|exists 28; apply md_feb]. intros Hl. apply leap_ok in Hl. congruence.
  - destruct (Z.eq_dec m 4); [exists 30; constructor; lia|]. destruct (Z.eq_dec m 6); [exists 30; constructor; lia|].
    destruct (Z.eq_dec m 9); [exists 30; constructor; lia|]. destruct (Z.eq_dec m 11); [exists 30; constructor; lia|]. exists 31. apply md_31. lia.
Qed.
Lemma first_of_month y : forall j : nat, (j < 12)%nat -> exists k, days_later (y, 1, 1) k (y, 1 + Z.of_nat j, 1).
Proof.
  induction j as [|j IH]; intros Hj; [exists 0; apply dl_0|]. destruct IH as [k Hk]; [lia|]. destruct (md_exists y (1 + Z.of_nat j) ltac:(lia)) as [n Hn].
  pose proof (md_range _ _ _ Hn) as [_ Hr]. exists (k + (n - 1) + 1). replace (1 + Z.of_nat (S j)) with (1 + Z.of_nat j + 1) by lia.
  apply dl_S with (b := (y, 1 + Z.of_nat j, n)); [|apply nd_month with (n := n); auto; lia]. apply (days_in _ y _ k n Hn Hk). lia.
Qed.
Lemma all_reached y m d : valid y m d -> exists n, days_later (y, 1, 1) n (y, m, d).
Proof.
  intros (n & Hm & Hd). pose proof (md_range _ _ _ Hm) as [Hr _]. destruct (first_of_month y (Z.to_nat (m - 1)) ltac:(lia)) as [k Hk].
  rewrite Z2Nat.id in Hk by lia. replace (1 + (m - 1)) with m in Hk by lia. exists (k + (d - 1)). eapply days_in; eauto.
Qed.
Lemma year_day_spec y m d : valid y m d -> exists n, calcYearDay y m d = Ok n /\ days_later (y, 1, 1) n (y, m, d).
Proof. intros H. destruct (all_reached y m d H) as [n Hn]. exists n. split; auto. now apply year_day_later. Qed.

Lemma bcd_ok a b : 0 <= a <= 9 -> 0 <= b <= 9 -> bcd2bin (16 * a + b) = 10 * a + b.
Proof.
  intros Ha Hb. unfold bcd2bin. rewrite Z.shiftr_div_pow2 by lia. change (2 ^ 4) with 16.
  replace ((16 * a + b) / 16) with a by (apply Z.div_unique with b; lia). rewrite Z.mod_small; lia.
Qed.

Lemma y2k_ok dbg unix : - 2 ^ 63 <= unix < 2 ^ 63 ->
  date_of_unix dbg unix = if dbg && (unix <? UNIX_OFFSET) && (- 2 ^ 63 + UNIX_OFFSET <=? unix) then Halt else
    Ok (unix, if (- 2 ^ 63 + UNIX_OFFSET <=? unix) then unix - UNIX_OFFSET else unix - UNIX_OFFSET + 2 ^ 64).
Proof.
  intros H. unfold date_of_unix, to_time_t, UNIX_OFFSET in *.
  destruct (Z.ltb_spec unix 946684800), (Z.leb_spec (- 2 ^ 63 + 946684800) unix); rewrite ?andb_true_r, ?andb_false_r.
  - replace ((unix - 946684800) mod 2 ^ 64) with (unix - 946684800 + 2 ^ 64) by (apply Z.mod_unique with (-1); lia).
    destruct (Z.leb_spec (unix - 946684800 + 2 ^ 64) (2 ^ 63 - 1)); [lia|]. destruct dbg; cbn [sassert bind]; auto. do 2 f_equal.
    replace ((unix - 946684800 + 2 ^ 64 + 2 ^ 63) mod 2 ^ 64) with (unix - 946684800 + 2 ^ 63) by (apply Z.mod_unique with 1; lia). lia.
  - replace ((unix - 946684800) mod 2 ^ 64) with (unix - 946684800 + 2 ^ 64) by (apply Z.mod_unique with (-1); lia).
    destruct (Z.leb_spec (unix - 946684800 + 2 ^ 64) (2 ^ 63 - 1)); [|lia].
    replace ((unix - 946684800 + 2 ^ 64 + 2 ^ 63) mod 2 ^ 64) with (unix - 946684800 + 2 ^ 64 + 2 ^ 63) by (apply Z.mod_unique with 0; lia).
    destruct dbg; cbn [sassert bind andb]; do 2 f_equal; lia.
  - replace ((unix - 946684800) mod 2 ^ 64) with (unix - 946684800) by (apply Z.mod_unique with 0; lia).
    destruct (Z.leb_spec (unix - 946684800) (2 ^ 63 - 1)); [|lia].
    replace ((unix - 946684800 + 2 ^ 63) mod 2 ^ 64) with (unix - 946684800 + 2 ^ 63) by (apply Z.mod_unique with 0; lia).
    destruct dbg; cbn [sassert bind andb]; do 2 f_equal; lia.
  - lia.
Qed.

Lemma dl_trans a n b m c : days_later a n b -> days_later b m c -> days_later a (n + m) c.
Proof. intros H1 H2. induction H2; [now rewrite Z.add_0_r|]. rewrite Z.add_assoc. eapply dl_S; eauto. Qed.
Lemma year_len y : days_later (y, 1, 1) (if isleapYear y then 366 else 365) (y + 1, 1, 1).
Proof.
  assert (valid y 12 31) as Hv by (exists 31; split; [apply md_31|]; lia). destruct (year_day_spec _ _ _ Hv) as (n & E & H).
  rewrite year_day_eq in E by lia. assert (n + 1 = if isleapYear y then 366 else 365) as <-.
  { change (before 12) with 334 in E. change (2 <? 12) with true in E. cbn [andb] in E. destruct (isleapYear y); inversion E; lia. }
  eapply dl_S; eauto. apply nd_year.
Qed.
Fixpoint year_days (k : nat) (y : Z) : Z := match k with O => 0 | S k' => (if isleapYear y then 366 else 365) + year_days k' (y + 1) end.
Lemma years_len k : forall y, days_later (y, 1, 1) (year_days k y) (y + Z.of_nat k, 1, 1).
Proof.
  induction k as [|k IH]; intros y; cbn [year_days]; [rewrite Z.add_0_r; apply dl_0|]. eapply dl_trans; [apply year_len|].
  replace (y + Z.of_nat (S k)) with (y + 1 + Z.of_nat k) by lia. apply IH.
Qed.
Lemma to_2000 : days_later (1970, 1, 1) (UNIX_OFFSET / 86400) (2000, 1, 1) /\ UNIX_OFFSET mod 86400 = 0.
Proof. split; [|reflexivity]. exact (years_len 30 1970). Qed.
