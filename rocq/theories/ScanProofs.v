(** Proofs for ScanModel. *)
From Coq Require Import List Arith ZArith Bool Lia String.
From Verif Require Import Base DateModel DateSpec DateProofs ScanModel ScanSpec.
Import ListNotations.
Open Scope Z_scope.

Lemma figure_range n : 48 <= figure n <= 57.
Proof. unfold figure. pose proof (Z.mod_pos_bound n 10 ltac:(lia)). lia. Qed.
Lemma digit10 n : digit 10 (figure n) = Some (n mod 10).
Proof.
  unfold digit. pose proof (figure_range n) as R. pose proof (Z.mod_pos_bound n 10 ltac:(lia)) as B.
  replace (48 <=? figure n) with true by (symmetry; apply Z.leb_le; lia).
  replace (figure n <=? 57) with true by (symmetry; apply Z.leb_le; lia). cbn [andb].
  unfold figure in *. replace (48 + n mod 10 - 48) with (n mod 10) by lia.
  replace (n mod 10 <? 10) with true by (symmetry; apply Z.ltb_lt; lia). reflexivity.
Qed.
Lemma figure_space n : isspace (figure n) = false.
Proof. unfold isspace. pose proof (figure_range n). apply orb_false_intro; [apply Z.eqb_neq; lia|]. apply andb_false_intro2. apply Z.leb_gt. lia. Qed.
Lemma sign_figure n w t : sign w (figure n :: t) = (false, w, figure n :: t).
Proof.
  pose proof (figure_range n) as R. unfold sign. remember (figure n) as c.
  assert (H : c = 48 \/ c = 49 \/ c = 50 \/ c = 51 \/ c = 52 \/ c = 53 \/ c = 54 \/ c = 55 \/ c = 56 \/ c = 57) by lia.
  clear -H. repeat (destruct H as [-> | H]; [reflexivity|]). subst. reflexivity.
Qed.

Lemma scan_two n r : 0 <= n < 100 -> scan_d 2 (two n ++ r) = Some (n, r).
Proof.
  intros R. unfold scan_d, two. cbn [app skip_ws]. rewrite figure_space, sign_figure, digit10.
  cbn [digits]. rewrite !digit10. f_equal. f_equal.
  rewrite (Z.mod_small (n / 10)) by (split; [apply Z.div_pos|apply Z.div_lt_upper_bound]; lia).
  pose proof (Z.div_mod n 10). lia.
Qed.
Lemma scan_one n r : 0 <= n < 10 -> scan_d 2 (figure n :: 32 :: r) = Some (n, 32 :: r).
Proof.
  intros R. unfold scan_d. cbn [skip_ws]. rewrite figure_space, sign_figure, digit10. cbn [digits].
  rewrite !digit10. change (digit 10 32) with (@None Z). rewrite Z.mod_small by lia. reflexivity.
Qed.
Lemma scan_four n r : 0 <= n < 10000 -> scan_d 4 (four n ++ r) = Some (n, r).
Proof.
  intros R. unfold scan_d, four, two. cbn [app skip_ws]. rewrite figure_space, sign_figure, digit10.
  cbn [digits]. rewrite !digit10. f_equal. f_equal.
  assert (0 <= n / 100 / 10 < 10) by (split; [apply Z.div_pos; [apply Z.div_pos|]|apply Z.div_lt_upper_bound; [|apply Z.div_lt_upper_bound]]; lia).
  rewrite (Z.mod_small (n / 100 / 10)) by lia.
  pose proof (Z.div_mod (n / 100) 10). pose proof (Z.div_mod n 10). pose proof (Z.div_mod (n / 10) 10).
  assert (n / 100 = n / 10 / 10) by (rewrite Z.div_div by lia; reflexivity). lia.
Qed.

(** %i reads two figures as they stand, except for "08" and "09", of which it reads the "0" *)
Definition octal (n : Z) : Prop := n = 8 \/ n = 9.
Lemma scan_i_two n r :
  0 <= n < 100 -> (match r with c :: _ => digit 10 c = None | [] => True end) ->
  (~ octal n -> scan_i (two n ++ r) = Ok (Some (n, r))) /\
  (octal n -> scan_i (two n ++ r) = Ok (Some (0, figure n :: r))).
Proof.
  intros R E.
  assert (T : digit 8 (hd 0 r) = None \/ r = []).
  { destruct r as [|c r]; [right; reflexivity|left]. cbn [hd]. unfold digit in *.
    match goal with |- (if ?v <? 8 then _ else _) = _ => destruct (v <? 8) eqn:V; [|reflexivity] end.
    exfalso. match type of E with (if ?v <? 10 then _ else _) = _ => replace (v <? 10) with true in E by (symmetry; apply Z.ltb_lt; apply Z.ltb_lt in V; lia) end.
    discriminate. }
  assert (D8 : forall acc w, digits 8 w acc r = (acc, r)).
  { intros acc [|w]; destruct r as [|c r]; try reflexivity. cbn [digits]. destruct T as [T | T]; [|discriminate]. cbn [hd] in T.
    rewrite T. reflexivity. }
  assert (D10 : forall acc w, digits 10 w acc r = (acc, r)).
  { intros acc [|w]; destruct r as [|c r]; try reflexivity. cbn [digits]. rewrite E. reflexivity. }
  assert (IN : In n (map Z.of_nat (seq 0 100))).
  { apply in_map_iff. exists (Z.to_nat n). split; [lia|]. apply in_seq. lia. }
  clear R. cbn [map seq Z.of_nat Pos.of_succ_nat Pos.succ In] in IN.
  unfold octal.
  repeat (destruct IN as [<- | IN]; [split; intros O; try (exfalso; lia);
    unfold two, figure, scan_i;
    repeat match goal with |- context [48 + ?a mod 10] => let v := eval compute in (48 + a mod 10) in change (48 + a mod 10) with v end;
    cbn [app skip_ws]; match goal with |- context [isspace ?c] => change (isspace c) with false end; cbv iota; cbn [sign];
    cbn [List.length digits];
    repeat match goal with |- context [digit ?b (Zpos ?c)] => let v := eval compute in (digit b (Zpos c)) in change (digit b (Zpos c)) with v end;
    cbv iota beta; cbn [digits]; rewrite ?D8, ?D10; reflexivity |]).
  destruct IN.
Qed.

Lemma colon_end r : match 58 :: r with c :: _ => digit 10 c = None | [] => True end.
Proof. reflexivity. Qed.

Lemma sscanf_time_exact h m s :
  0 <= h < 100 -> 0 <= m < 100 -> 0 <= s < 100 ->
  (octal h -> sscanf_time (time_text h m s) = Ok (Some 0, None, None)) /\
  (~ octal h -> octal m -> sscanf_time (time_text h m s) = Ok (Some h, Some 0, None)) /\
  (~ octal h -> ~ octal m -> octal s -> sscanf_time (time_text h m s) = Ok (Some h, Some m, Some 0)) /\
  (~ octal h -> ~ octal m -> ~ octal s -> sscanf_time (time_text h m s) = Ok (Some h, Some m, Some s)).
Proof.
  intros Rh Rm Rs. unfold time_text, sscanf_time.
  destruct (scan_i_two h ([58] ++ two m ++ [58] ++ two s) Rh (colon_end (two m ++ [58] ++ two s))) as [H1 H2].
  destruct (scan_i_two m ([58] ++ two s) Rm (colon_end (two s))) as [M1 M2].
  destruct (scan_i_two s [] Rs I) as [S1 S2]. rewrite app_nil_r in S1, S2.
  assert (F : forall n, octal n -> exists c, figure n = c /\ c <> 58 /\ (c = 56 \/ c = 57)) by (intros n [-> | ->]; eexists; (split; [reflexivity|]); cbv; split; try discriminate; auto).
  cbn [app] in *. repeat split.
  - intros O. rewrite (H2 O). cbn [bind]. destruct (F _ O) as (c & -> & _ & [-> | ->]); reflexivity.
  - intros O O'. rewrite (H1 O). cbn [bind]. rewrite (M2 O'). cbn [bind]. destruct (F _ O') as (c & -> & _ & [-> | ->]); reflexivity.
  - intros O O' O''. rewrite (H1 O). cbn [bind]. rewrite (M1 O'). cbn [bind]. rewrite (S2 O''). reflexivity.
  - intros O O' O''. rewrite (H1 O). cbn [bind]. rewrite (M1 O'). cbn [bind]. rewrite (S1 O''). reflexivity.
Qed.

Lemma month_cases m : 1 <= m <= 12 ->
  m = 1 \/ m = 2 \/ m = 3 \/ m = 4 \/ m = 5 \/ m = 6 \/ m = 7 \/ m = 8 \/ m = 9 \/ m = 10 \/ m = 11 \/ m = 12.
Proof. lia. Qed.
Lemma month_scan m r : 1 <= m <= 12 ->
  word 4 (skip_ws (month_text m ++ 32 :: r)) = (month_text m, 32 :: r) /\
  strstr month_names (month_text m) = Some (3 * (m - 1)) /\ month_text m <> [].
Proof.
  intros H. apply month_cases in H.
  repeat (destruct H as [-> | H]; [split; [reflexivity|split; [reflexivity|discriminate]]|]).
  subst. split; [reflexivity|split; [reflexivity|discriminate]].
Qed.

Lemma sscanf_date_exact buff y m d :
  0 <= y < 10000 -> 1 <= m <= 12 -> 1 <= d <= 31 -> sscanf_date buff (date_text y m d) = (month_text m, Some d, Some y).
Proof.
  intros Ry Rm Rd. unfold sscanf_date, date_text. change (month_text m ++ [32] ++ ?x) with (month_text m ++ 32 :: x).
  destruct (month_scan m ((if d <? 10 then [32; figure d] else two d) ++ [32] ++ four y) Rm) as (W & _ & N).
  change ([32] ++ (if d <? 10 then [32; figure d] else two d) ++ [32] ++ four y)
    with (32 :: ((if d <? 10 then [32; figure d] else two d) ++ [32] ++ four y)).
  rewrite W. destruct (month_text m) as [|c mt] eqn:MT; [congruence|].
  assert (Y : match scan_d 4 (skip_ws ([32] ++ four y)) with Some (y', _) => Some y' | None => None end = Some y).
  { cbn [app]. cbn [skip_ws]. change (isspace 32) with true. cbv iota.
    unfold four at 1, two at 1. cbn [app skip_ws]. rewrite figure_space.
    change (figure (y / 100 / 10) :: figure (y / 100) :: two y) with (four y).
    rewrite <- (app_nil_r (four y)), scan_four by assumption. reflexivity. }
  destruct (d <? 10) eqn:D.
  - apply Z.ltb_lt in D. cbn [app skip_ws]. change (isspace 32) with true. cbv iota. rewrite figure_space.
    rewrite scan_one by lia. cbn [app] in Y. destruct (scan_d 4 (skip_ws (32 :: four y))) as [[y' r']|]; [|discriminate].
    injection Y as ->. reflexivity.
  - apply Z.ltb_ge in D. cbn [skip_ws]. change (isspace 32) with true. cbv iota.
    unfold two at 1. cbn [app skip_ws]. rewrite figure_space.
    change (figure (d / 10) :: figure d :: 32 :: four y) with (two d ++ [32] ++ four y).
    rewrite scan_two by lia. destruct (scan_d 4 (skip_ws ([32] ++ four y))) as [[y' r']|]; [|discriminate].
    injection Y as ->. reflexivity.
Qed.

Lemma valid_ranges y m d : valid y m d -> 1 <= m <= 12 /\ 1 <= d <= 31.
Proof. intros (n & M & D). inversion M; subst; lia. Qed.

Lemma month_of m : 1 <= m <= 12 -> Z.quot (3 * (m - 1)) 3 + 1 = m.
Proof. intros. rewrite Z.mul_comm, Z.quot_mul by lia. lia. Qed.

Lemma date_of_text_step dst buff y m d time :
  0 <= y < 10000 -> valid y m d ->
  date_of_text dst buff (date_text y m d) time =
  ('(hour, min, sec) <- sscanf_time time ;;
   hour <- var hour ;; min <- var min ;; sec <- var sec ;;
   yday <- calcYearDay y m d ;;
   Ok (month_text m, mkTm (y - 1900) (m - 1) d hour min sec yday dst)).
Proof.
  intros Ry V. pose proof (valid_ranges _ _ _ V) as [Rm Rd]. unfold date_of_text.
  rewrite sscanf_date_exact by assumption. destruct (month_scan m [] Rm) as (_ & E & _). rewrite E. cbn [bind var].
  rewrite month_of by assumption. reflexivity.
Qed.

(** A two-figure number below ten that is not an octal figure *)
Definition eight_or_nine (n : Z) : Prop := n = 8 \/ n = 9.
Lemma text_right dst buff y m d h mi s :
  0 <= y < 10000 -> valid y m d -> time_of_day h mi s -> ~ eight_or_nine h -> ~ eight_or_nine mi -> ~ eight_or_nine s ->
  exists yday, days_later (y, 1, 1) yday (y, m, d) /\
    date_of_text dst buff (date_text y m d) (time_text h mi s) = Ok (month_text m, mkTm (y - 1900) (m - 1) d h mi s yday dst).
Proof.
  intros Ry V (Rh & Rm & Rs) Oh Om Os. destruct (year_day_spec _ _ _ V) as (n & E & D). exists n. split; [exact D|].
  rewrite date_of_text_step by assumption.
  destruct (sscanf_time_exact h mi s ltac:(lia) ltac:(lia) ltac:(lia)) as (_ & _ & _ & T). rewrite (T Oh Om Os).
  cbn [bind var]. rewrite E. reflexivity.
Qed.
Lemma text_seconds dst buff y m d h mi s :
  0 <= y < 10000 -> valid y m d -> time_of_day h mi s -> ~ eight_or_nine h -> ~ eight_or_nine mi -> eight_or_nine s ->
  exists yday, days_later (y, 1, 1) yday (y, m, d) /\
    date_of_text dst buff (date_text y m d) (time_text h mi s) = Ok (month_text m, mkTm (y - 1900) (m - 1) d h mi 0 yday dst).
Proof.
  intros Ry V (Rh & Rm & Rs) Oh Om Os. destruct (year_day_spec _ _ _ V) as (n & E & D). exists n. split; [exact D|].
  rewrite date_of_text_step by assumption.
  destruct (sscanf_time_exact h mi s ltac:(lia) ltac:(lia) ltac:(lia)) as (_ & _ & T & _). rewrite (T Oh Om Os).
  cbn [bind var]. rewrite E. reflexivity.
Qed.
Lemma text_lost dst buff y m d h mi s :
  0 <= y < 10000 -> valid y m d -> time_of_day h mi s -> eight_or_nine h \/ eight_or_nine mi ->
  date_of_text dst buff (date_text y m d) (time_text h mi s) = UB.
Proof.
  intros Ry V (Rh & Rm & Rs) O. rewrite date_of_text_step by assumption.
  destruct (sscanf_time_exact h mi s ltac:(lia) ltac:(lia) ltac:(lia)) as (T1 & T2 & _ & _).
  assert (K : eight_or_nine h \/ ~ eight_or_nine h) by (unfold eight_or_nine; lia).
  destruct K as [K | K].
  - rewrite (T1 K). reflexivity.
  - destruct O as [O | O]; [contradiction|]. rewrite (T2 K O). reflexivity.
Qed.

(** Any texts *)
Lemma digit_range b c v : digit b c = Some v -> 0 <= v < b.
Proof.
  unfold digit. set (x := if (48 <=? c) && (c <=? 57) then _ else _). assert (0 <= x).
  { unfold x. destruct (Z.leb_spec 48 c), (Z.leb_spec c 57), (Z.leb_spec 97 c), (Z.leb_spec c 102), (Z.leb_spec 65 c), (Z.leb_spec c 70); cbn [andb]; lia. }
  destruct (Z.ltb_spec x b); [|discriminate]. intros E. injection E as <-. lia.
Qed.
Lemma digits_range b w : 0 < b -> forall acc l v r, 0 <= acc -> digits b w acc l = (v, r) -> 0 <= v < (acc + 1) * b ^ Z.of_nat w.
Proof.
  intros Hb. induction w as [|w IH]; intros acc l v r Ha E.
  - cbn [digits] in E. injection E as <- <-. cbn. lia.
  - assert (1 <= b ^ Z.of_nat (S w)) as B1 by (pose proof (Z.pow_pos_nonneg b (Z.of_nat (S w)) Hb ltac:(lia)); lia).
    cbn [digits] in E. destruct l as [|c t]; [injection E as <- <-; nia|]. destruct (digit b c) as [x|] eqn:D; [|injection E as <- <-; nia].
    apply digit_range in D. apply IH in E; [|nia]. rewrite Nat2Z.inj_succ, Z.pow_succ_r by lia. pose proof (Z.pow_pos_nonneg b (Z.of_nat w) Hb ltac:(lia)) as B. nia.
Qed.
Lemma sign_width w l n w1 l1 : sign w l = (n, w1, l1) -> (w1 <= w)%nat /\ (n = true -> w1 = pred w).
Proof.
  intros E. assert (n = true /\ w1 = pred w \/ n = false /\ (w1 <= w)%nat) as [[-> ->]|[-> H]]; [|split; lia|split; [lia|discriminate]].
  unfold sign in E. destruct l as [|c t]; [injection E as <- <- <-; right; lia|].
  destruct c as [|p|p]; try (injection E as <- <- <-; right; lia). do 6 (destruct p as [p|p|]; try (injection E as <- <- <-; first [left; split; reflexivity|right; split; [reflexivity|lia]])).
Qed.
Lemma scan_d_range w l v r : (1 <= w)%nat -> scan_d w l = Some (v, r) -> - 10 ^ Z.of_nat (pred w) < v < 10 ^ Z.of_nat w.
Proof.
  intros Hw. unfold scan_d. destruct (sign w (skip_ws l)) as [[n w1] l1] eqn:E. destruct (sign_width _ _ _ _ _ E) as [W N].
  destruct w1 as [|w1]; [discriminate|]. destruct l1 as [|c t]; [discriminate|]. destruct (digit 10 c); [|discriminate].
  destruct (digits 10 (S w1) 0 (c :: t)) as [x r'] eqn:D. apply digits_range in D; [|lia|lia]. intros H. injection H as <- <-.
  pose proof (Z.pow_le_mono_r 10 (Z.of_nat (S w1)) (Z.of_nat w) ltac:(lia) ltac:(lia)). pose proof (Z.pow_pos_nonneg 10 (Z.of_nat (pred w)) ltac:(lia) ltac:(lia)).
  destruct n; [rewrite (N eq_refl) in D|]; lia.
Qed.
Lemma word_width w : forall l a r, word w l = (a, r) -> (List.length a <= w)%nat.
Proof.
  induction w as [|w IH]; intros l a r E; cbn [word] in E; [injection E as <- <-; cbn; lia|]. destruct l as [|c t]; [injection E as <- <-; cbn; lia|].
  destruct (isspace c); [injection E as <- <-; cbn; lia|]. destruct (word w t) as [a' r'] eqn:W. injection E as <- <-. apply IH in W. cbn [List.length]. lia.
Qed.
Lemma strstr_range n : forall s i, strstr s n = Some i -> i = 0 \/ 0 <= i < Z.of_nat (List.length s).
Proof.
  induction s as [|c t IH]; intros i; cbn [strstr].
  - destruct (prefix n []); [|discriminate]. intros E. injection E as <-. auto.
  - destruct (prefix n (c :: t)) eqn:P; [intros E; injection E as <-; auto|]. destruct (strstr t n) as [j|] eqn:E; [|discriminate]. intros H. injection H as <-.
    specialize (IH _ eq_refl). cbn [List.length]. rewrite Nat2Z.inj_succ. right. destruct IH as [->|IH]; [|lia]. destruct t; [|cbn [List.length]; lia].
    cbn [strstr] in E. destruct n; [discriminate P|discriminate E].
Qed.
Lemma text_bounds dst buff date time b t : (List.length buff <= 4)%nat -> date_of_text dst buff date time = Ok (b, t) ->
  (List.length b <= 4)%nat /\ 0 <= tm_mon t <= 11 /\ -10 < tm_mday t < 100 /\ -1000 < tm_year t + 1900 < 10000.
Proof.
  intros Hb. unfold date_of_text, sscanf_date. destruct (word 4 (skip_ws date)) as [m r] eqn:W. apply word_width in W.
  assert (forall b day year, (List.length b <= 4)%nat -> (forall d, day = Some d -> -10 < d < 100) -> (forall y, year = Some y -> -1000 < y < 10000) ->
    forall b' t', (month <- (match strstr month_names b with Some i => Ok (Z.quot i 3 + 1) | None => UB end) ;;
      year <- var year ;; day <- var day ;; '(hour, min, sec) <- sscanf_time time ;; hour <- var hour ;; min <- var min ;; sec <- var sec ;;
      yday <- calcYearDay year month day ;; Ok (b, mkTm (year - 1900) (month - 1) day hour min sec yday dst)) = Ok (b', t') ->
    (List.length b' <= 4)%nat /\ 0 <= tm_mon t' <= 11 /\ -10 < tm_mday t' < 100 /\ -1000 < tm_year t' + 1900 < 10000) as K.
  { clear. intros b day year Hb Hd Hy b' t' E. destruct (strstr month_names b) as [i|] eqn:Hs; [|discriminate]. cbn [bind] in E. destruct year as [y|]; [|discriminate]. cbn [var bind] in E.
    destruct day as [d|]; [|discriminate]. cbn [var bind] in E. destruct (sscanf_time time) as [[[h mi] s]| | | |]; try discriminate. cbn [bind] in E.
    destruct h as [h|]; [|discriminate]. destruct mi as [mi|]; [|discriminate]. destruct s as [s|]; [|discriminate]. cbn [var bind] in E.
    destruct (calcYearDay y _ d) as [yd| | | |]; try discriminate. cbn [bind] in E. injection E as <- <-. cbn [tm_mon tm_mday tm_year].
    specialize (Hd _ eq_refl). specialize (Hy _ eq_refl). split; [exact Hb|]. split; [|lia]. apply strstr_range in Hs. change (Z.of_nat (List.length month_names)) with 36 in Hs.
    assert (0 <= i < 36) as Hi by (destruct Hs as [->|Hs]; lia). rewrite Z.quot_div_nonneg by lia. pose proof (Z.div_pos i 3 ltac:(lia) ltac:(lia)). pose proof (Z.div_lt_upper_bound i 3 12 ltac:(lia) ltac:(lia)). lia. }
  destruct m as [|c m]; [apply K; [exact Hb|discriminate|discriminate]|].
  destruct (scan_d 2 (skip_ws r)) as [[d r1]|] eqn:D; [|apply K; [exact W|discriminate|discriminate]]. apply scan_d_range in D; [|lia]. change (10 ^ Z.of_nat (pred 2)) with 10 in D. change (10 ^ Z.of_nat 2) with 100 in D.
  destruct (scan_d 4 (skip_ws r1)) as [[y r2]|] eqn:Y; [apply scan_d_range in Y; [|lia]; change (10 ^ Z.of_nat (pred 4)) with 1000 in Y; change (10 ^ Z.of_nat 4) with 10000 in Y|];
    (apply K; [exact W| |]); intros z E; try discriminate E; injection E as <-; assumption.
Qed.
