(** Lemmas about the text of a DateTime. *)
From Coq Require Import String Ascii List ZArith Bool Lia.
From Verif Require Import Base DateModel DateSpec DateProofs ScanModel ScanSpec ScanProofs CalModel CalSpec CalProofs StampModel StampSpec.
Import ListNotations.
Open Scope Z_scope.

Lemma value_snoc l c : value (l ++ [c]) = 10 * value l + (c - 48).
Proof. unfold value. now rewrite fold_left_app. Qed.
Lemma udec_ok f : forall n, 0 <= n < 10 ^ (Z.of_nat f + 1) ->
  Forall (fun c => 48 <= c <= 57) (udec f n) /\ value (udec f n) = n /\ udec f n <> [] /\ (hd 0 (udec f n) = 48 -> n = 0).
Proof.
  assert (forall n, 0 <= n < 10 -> Forall (fun c => 48 <= c <= 57) [48 + n] /\ value [48 + n] = n /\ [48 + n] <> [] /\ (hd 0 [48 + n] = 48 -> n = 0)) as One.
  { intros n H. splits; [constructor; [lia|constructor]|unfold value; cbn [fold_left]; lia|discriminate|cbn [hd]; lia]. }
  induction f as [|f IH]; intros n H; cbn [udec]; [apply One; exact H|].
  destruct (Z.ltb_spec n 10); [apply One; lia|].
  replace (Z.of_nat (S f) + 1) with (Z.succ (Z.of_nat f + 1)) in H by lia. rewrite Z.pow_succ_r in H by lia.
  pose proof (Z.div_mod n 10 ltac:(lia)) as D. pose proof (Z.mod_pos_bound n 10 ltac:(lia)) as M.
  destruct (IH (n / 10) ltac:(lia)) as (A & B & C & E). splits.
  - apply Forall_app. split; [exact A|]. constructor; [lia|constructor].
  - rewrite value_snoc, B. lia.
  - intros K. apply app_eq_nil in K. destruct K; discriminate.
  - intros K. destruct (udec f (n / 10)) as [|c l]; [congruence|]. cbn [hd app] in K, E. specialize (E K). lia.
Qed.
Lemma udec_zero f : udec f 0 = [48].
Proof. now destruct f. Qed.
Lemma dec_numeral n : Z.abs n < 10 ^ 11 -> numeral (dec n) n.
Proof.
  intros H. exists (udec 10 (Z.abs n)). destruct (udec_ok 10 (Z.abs n)) as (A & B & C & E); [change (Z.of_nat 10 + 1) with 11; lia|].
  splits; try assumption.
  - unfold dec. destruct (Z.ltb_spec n 0); [rewrite Z.abs_neq by lia|rewrite Z.abs_eq by lia]; reflexivity.
  - intros K. rewrite (E K). apply udec_zero.
Qed.
(** A number has one numeral *)
Lemma numeral_eq l n n' : numeral l n -> numeral l n' -> n = n'.
Proof.
  intros (ds & E & F & V & N & _) (ds' & E' & F' & V' & N' & _).
  destruct (Z.ltb_spec n 0), (Z.ltb_spec n' 0); subst l.
  - injection E' as ->. lia.
  - subst ds'. inversion F'; subst. lia.
  - subst ds. inversion F; subst. lia.
  - subst ds'. lia.
Qed.
Lemma udec_four y : 1000 <= y < 10000 -> udec 10 y = four y.
Proof.
  intros H. assert (forall f n, n < 10 -> udec (S f) n = [48 + n]) as U0 by (intros f n L; cbn [udec]; destruct (Z.ltb_spec n 10); [reflexivity|lia]).
  assert (forall f n, 10 <= n -> udec (S f) n = udec f (n / 10) ++ [48 + n mod 10]) as U1 by (intros f n L; cbn [udec]; destruct (Z.ltb_spec n 10); [lia|reflexivity]).
  pose proof (Z.div_mod y 10 ltac:(lia)). pose proof (Z.mod_pos_bound y 10 ltac:(lia)).
  pose proof (Z.div_mod (y / 10) 10 ltac:(lia)). pose proof (Z.mod_pos_bound (y / 10) 10 ltac:(lia)).
  pose proof (Z.div_mod (y / 10 / 10) 10 ltac:(lia)). pose proof (Z.mod_pos_bound (y / 10 / 10) 10 ltac:(lia)).
  rewrite (U1 9%nat), (U1 8%nat), (U1 7%nat), (U0 6%nat) by lia. unfold four, two, figure.
  replace (y / 100) with (y / 10 / 10) by (rewrite Z.div_div by lia; reflexivity). cbn [app]. rewrite (Z.mod_small (y / 10 / 10 / 10) 10) by lia. reflexivity.
Qed.
Lemma dec_four y : 1000 <= y < 10000 -> dec y = four y.
Proof. intros H. unfold dec. destruct (Z.ltb_spec y 0); [lia|]. now apply udec_four. Qed.
Lemma pad2_two n : 0 <= n < 100 -> pad2 n = two n.
Proof. intros H. unfold pad2, two, figure. pose proof (Z.div_mod n 10 ltac:(lia)). pose proof (Z.mod_pos_bound n 10 ltac:(lia)). rewrite (Z.mod_small (n / 10)) by lia. reflexivity. Qed.
Lemma three_month m : 1 <= m <= 12 -> three month_names (m - 1) = month_text m.
Proof.
  intros H. destruct (month_cases m H) as [E|[E|[E|[E|[E|[E|[E|[E|[E|[E|[E|E]]]]]]]]]]]; subst m; reflexivity.
Qed.
Lemma three_day w : 0 <= w < 7 -> three day_names w = weekday_text w.
Proof.
  intros H. assert (w = 0 \/ w = 1 \/ w = 2 \/ w = 3 \/ w = 4 \/ w = 5 \/ w = 6) as [E|[E|[E|[E|[E|[E|E]]]]]] by lia; subst w; reflexivity.
Qed.

(** The fields behind what a DateTime shows *)
Lemma shows_fields x y m d h mi s w k : shows x y m d h mi s w k ->
  exists dst, d_tm x = Some (mkB s mi h d (m - 1) (y - 1900) w k dst) /\ - 2 ^ 31 <= y < 2 ^ 31.
Proof.
  unfold shows, getYear, getMonth, getDay, getHour, getMinute, getSecond, getWeekDay, getYearDay, getDST, field, int32, int_fits.
  intros (A & B & C & D & E & F & G & H & J). destruct (d_tm x) as [[bs bm bh bd bn by_ bw bk bi]|]; [|discriminate].
  cbn [b_sec b_min b_hour b_mday b_mon b_year b_wday b_yday b_isdst] in *.
  destruct (andb _ _) eqn:Ey in A; [|discriminate]. destruct (andb _ _) eqn:Em in B; [|discriminate].
  apply andb_true_iff in Ey. destruct Ey as (Y1 & Y2). apply Z.leb_le in Y1. apply Z.ltb_lt in Y2.
  assert (by_ = y - 1900) by (injection A; lia). assert (bn = m - 1) by (injection B; lia).
  injection C as ->. injection D as ->. injection E as ->. injection F as ->. injection G as ->. injection H as ->. subst.
  exists bi. split; [reflexivity|]. assert (y - 1900 + 1900 = y) as R by lia. rewrite R in Y1, Y2. lia.
Qed.

(** ** The default format *)
Lemma moment_ranges t y m d h mi s w k : moment t y m d h mi s w k -> 1 <= m <= 12 /\ 1 <= d <= 31 /\ clock h mi s /\ 0 <= w < 7 /\ valid y m d.
Proof.
  intros (n & _ & V & C & _ & W & _). destruct (valid_ranges _ _ _ V). pose proof (Z.mod_pos_bound (4 + n) 7 ltac:(lia)). splits; auto; lia.
Qed.
Lemma default_text x y m d h mi s w k dst : 1 <= m <= 12 -> 1 <= d <= 31 -> clock h mi s -> 0 <= w < 7 ->
  x = mkB s mi h d (m - 1) (y - 1900) w k dst -> expand x default_format = Some (stamp w m d h mi s (dec y)).
Proof.
  unfold clock. intros Hm Hd Hc Hw ->. cbn [expand default_format conversion b_sec b_min b_hour b_mday b_mon b_year b_wday].
  rewrite three_month, three_day, !pad2_two by lia. replace (y - 1900 + 1900) with y by lia.
  unfold stamp, time_text. rewrite <- !app_assoc. cbn [app]. rewrite <- !app_assoc, app_nil_r. reflexivity.
Qed.
Lemma month_length m : 1 <= m <= 12 -> length (month_text m) = 3%nat.
Proof. intros H. destruct (month_cases m H) as [E|[E|[E|[E|[E|[E|[E|[E|[E|[E|[E|E]]]]]]]]]]]; subst m; reflexivity. Qed.
Lemma weekday_length w : 0 <= w < 7 -> length (weekday_text w) = 3%nat.
Proof. intros H. rewrite <- three_day by exact H. assert (w = 0 \/ w = 1 \/ w = 2 \/ w = 3 \/ w = 4 \/ w = 5 \/ w = 6) as [E|[E|[E|[E|[E|[E|E]]]]]] by lia; subst w; reflexivity. Qed.
Lemma stamp_length w m d h mi s yr : 1 <= m <= 12 -> 0 <= w < 7 -> length (stamp w m d h mi s yr) = (20 + length yr)%nat.
Proof. intros Hm Hw. unfold stamp, time_text, two. rewrite !app_length, month_length, weekday_length by assumption. cbn [length]. lia. Qed.
Lemma numeral_length yr y : numeral yr y -> (1 <= length yr)%nat.
Proof. intros (ds & -> & _ & _ & N & _). destruct ds; [congruence|]. destruct (y <? 0); cbn [length]; lia. Qed.

(** strftime: all or nothing, within the buffer *)
Lemma strftime_fits junk buffer size fmt x text : expand x fmt = Some text -> (length text < size)%nat -> (length text < length buffer)%nat ->
  strftime junk buffer size fmt x = Ok (length text, text ++ [0] ++ skipn (length text + 1) buffer).
Proof.
  intros E L B. unfold strftime. rewrite E. cbv zeta. rewrite (proj2 (Nat.ltb_lt _ _) L). rewrite app_length. cbn [length].
  destruct (Nat.leb_spec (length text + 1) (length buffer)); [|lia]. rewrite <- app_assoc. reflexivity.
Qed.
Lemma strftime_small junk buffer size fmt x text : expand x fmt = Some text -> (size <= length text)%nat -> (size <= length buffer)%nat ->
  exists buffer', strftime junk buffer size fmt x = Ok (O, buffer') /\ length buffer' = length buffer /\ skipn size buffer' = skipn size buffer.
Proof.
  intros E L B. unfold strftime. rewrite E. cbv zeta. destruct (Nat.ltb_spec (length text) size); [lia|].
  rewrite firstn_length. destruct (Nat.leb_spec (Nat.min size (length junk)) (length buffer)); [|lia]. eexists. split; [reflexivity|]. split.
  - rewrite app_length, firstn_length, skipn_length. lia.
  - rewrite skipn_app, firstn_length. rewrite (skipn_all2 (firstn size junk)) by (rewrite firstn_length; lia). cbn [app].
    set (n := Nat.min size (length junk)). assert (n <= size)%nat by lia. clearbody n.
    replace size with (n + (size - n))%nat at 2 by lia. rewrite <- (firstn_skipn n buffer) at 2.
    rewrite skipn_app, firstn_length. rewrite (skipn_all2 (firstn n buffer)) by (rewrite firstn_length; lia). cbn [app].
    f_equal. lia.
Qed.
Lemma c_string_text l r : ~ In 0 l -> c_string (l ++ 0 :: r) = l.
Proof.
  induction l as [|c l IH]; intros H; [reflexivity|]. cbn [app c_string]. destruct (Z.eqb_spec c 0) as [->|N]; [destruct H; now left|].
  f_equal. apply IH. intros K. apply H. now right.
Qed.
(** The text has no '\0' *)
Lemma two_pos n : Forall (fun c => 0 < c) (two n).
Proof. unfold two. repeat constructor; pose proof (figure_range (n / 10)); pose proof (figure_range n); lia. Qed.
Lemma month_pos m : 1 <= m <= 12 -> Forall (fun c => 0 < c) (month_text m).
Proof.
  intros H. destruct (month_cases m H) as [E|[E|[E|[E|[E|[E|[E|[E|[E|[E|[E|E]]]]]]]]]]]; subst m;
    (match goal with |- Forall _ ?l => let r := eval vm_compute in l in change l with r end); repeat constructor; lia.
Qed.
Lemma weekday_pos w : 0 <= w < 7 -> Forall (fun c => 0 < c) (weekday_text w).
Proof.
  intros H. assert (w = 0 \/ w = 1 \/ w = 2 \/ w = 3 \/ w = 4 \/ w = 5 \/ w = 6) as [E|[E|[E|[E|[E|[E|E]]]]]] by lia; subst w;
    (match goal with |- Forall _ ?l => let r := eval vm_compute in l in change l with r end); repeat constructor; lia.
Qed.
Lemma numeral_pos l n : numeral l n -> Forall (fun c => 0 < c) l.
Proof.
  intros (ds & -> & F & _). assert (Forall (fun c => 0 < c) ds) by (eapply Forall_impl; [|exact F]; cbv beta; lia).
  destruct (n <? 0); [constructor; [lia|]|]; assumption.
Qed.
Lemma stamp_pos w m d h mi s yr y : 1 <= m <= 12 -> 0 <= w < 7 -> numeral yr y -> Forall (fun c => 0 < c) (stamp w m d h mi s yr).
Proof.
  intros Hm Hw Hy. unfold stamp, time_text. repeat (apply Forall_app; split); try (repeat constructor; lia); try apply two_pos.
  - now apply weekday_pos.
  - now apply month_pos.
  - eapply numeral_pos; eauto.
Qed.
Lemma pos_string l r : Forall (fun c => 0 < c) l -> c_string (l ++ [0] ++ r) = l.
Proof. intros F. apply c_string_text. intros K. rewrite Forall_forall in F. specialize (F _ K). cbv beta in F. lia. Qed.
(** A year of an int has at most 11 characters *)
Lemma udec_length f : forall n, (length (udec f n) <= S f)%nat.
Proof. induction f as [|f IH]; intros n; cbn [udec]; [cbn; lia|]. destruct (n <? 10); [cbn; lia|]. rewrite app_length. cbn [length]. specialize (IH (n / 10)). lia. Qed.

Lemma stamp_right x t y m d h mi s w k : shows x y m d h mi s w k -> moment t y m d h mi s w k ->
  exists year, numeral year y /\ (1000 <= y < 10000 -> year = four y) /\
  (forall junk buffer size, (20 + length year < size <= length buffer)%nat ->
    exists buffer', strf_DateTime junk x buffer size default_format = Ok ((20 + length year)%nat, buffer') /\
      c_string buffer' = stamp w m d h mi s year /\ length buffer' = length buffer /\ skipn size buffer' = skipn size buffer) /\
  (forall junk buffer size, (size <= 20 + length year)%nat -> (size <= length buffer)%nat ->
    exists buffer', strf_DateTime junk x buffer size default_format = Ok (O, buffer') /\ length buffer' = length buffer /\ skipn size buffer' = skipn size buffer).
Proof.
  intros Sh Mo. destruct (moment_ranges _ _ _ _ _ _ _ _ _ Mo) as (Hm & Hd & Hc & Hw & _). destruct (shows_fields _ _ _ _ _ _ _ _ _ Sh) as (dst & E & Hy).
  exists (dec y). assert (numeral (dec y) y) as N by (apply dec_numeral; lia). pose proof (stamp_length w m d h mi s (dec y) Hm Hw) as L.
  pose proof (default_text _ y m d h mi s w k dst Hm Hd Hc Hw eq_refl) as T.
  split; [exact N|]. split; [apply dec_four|]. unfold strf_DateTime. rewrite E. split.
  - intros junk buffer size B. rewrite (strftime_fits junk buffer size _ _ _ T) by lia. rewrite L. eexists. split; [reflexivity|]. split; [|split].
    + apply pos_string. eapply stamp_pos; eauto.
    + rewrite !app_length, skipn_length, L. cbn [length]. lia.
    + rewrite app_assoc, skipn_app, app_length, L. cbn [length].
      rewrite (skipn_all2 (stamp _ _ _ _ _ _ _ ++ [0])) by (rewrite app_length, L; cbn [length]; lia). cbn [app].
      set (n := (20 + length (dec y) + 1)%nat). assert (n <= size)%nat by lia. clearbody n. clear - H.
      replace size with (n + (size - n))%nat at 2 by lia. generalize (size - n)%nat as j. clear H. revert buffer.
      induction n as [|n IH]; intros buffer j; [reflexivity|]. destruct buffer; [cbn; now rewrite !skipn_nil|]. apply IH.
  - intros junk buffer size B1 B2. apply (strftime_small _ _ _ _ _ _ T); lia.
Qed.

(** ** Reading it back *)
Lemma sscanf_stamp buff y m d : 0 <= y < 10000 -> 1 <= m <= 12 -> 1 <= d <= 31 ->
  sscanf_date buff (month_text m ++ [32] ++ two d ++ [32] ++ four y) = (month_text m, Some d, Some y).
Proof.
  intros Ry Rm Rd. unfold sscanf_date. destruct (month_scan m (two d ++ [32] ++ four y) Rm) as (W & _ & N).
  change (month_text m ++ [32] ++ two d ++ [32] ++ four y) with (month_text m ++ 32 :: two d ++ [32] ++ four y).
  rewrite W. destruct (month_text m) as [|c mt] eqn:MT; [congruence|].
  cbn [skip_ws]. change (isspace 32) with true. cbv iota. unfold two at 1. cbn [app skip_ws]. rewrite figure_space.
  change (figure (d / 10) :: figure d :: 32 :: four y) with (two d ++ 32 :: four y). rewrite scan_two by lia.
  cbn [skip_ws]. change (isspace 32) with true. cbv iota. unfold four at 1, two at 1. cbn [app skip_ws]. rewrite figure_space.
  change (figure (y / 100 / 10) :: figure (y / 100) :: two y) with (four y). rewrite <- (app_nil_r (four y)), scan_four by assumption. reflexivity.
Qed.
Lemma stamp_parts w m d h mi s yr : 1 <= m <= 12 -> 0 <= w < 7 ->
  date_part (stamp w m d h mi s yr) = month_text m ++ [32] ++ two d ++ [32] ++ yr /\ time_part (stamp w m d h mi s yr) = time_text h mi s.
Proof.
  intros Hm Hw. pose proof (month_length m Hm) as Lm. pose proof (weekday_length w Hw) as Lw.
  destruct (month_text m) as [|a [|b [|c [|]]]] eqn:Em; try discriminate. destruct (weekday_text w) as [|a' [|b' [|c' [|]]]] eqn:Ew; try discriminate.
  unfold stamp, date_part, time_part, time_text, two. rewrite Em, Ew. split; reflexivity.
Qed.
Lemma read_back shift wday dst buff y m d h mi s w : 0 <= y < 10000 -> valid y m d -> 0 <= w < 7 -> 1 <= m <= 12 -> 1 <= d <= 31 ->
  DateTime_text shift wday dst buff (date_part (stamp w m d h mi s (four y))) (time_part (stamp w m d h mi s (four y))) =
  DateTime_text shift wday dst buff (date_text y m d) (time_text h mi s).
Proof.
  intros Hy Hv Hw Hm Hd. destruct (stamp_parts w m d h mi s (four y) Hm Hw) as (-> & ->).
  unfold DateTime_text, date_of_text. rewrite sscanf_stamp, sscanf_date_exact by assumption. reflexivity.
Qed.
Lemma two_inj a b : 0 <= a < 100 -> 0 <= b < 100 -> two a = two b -> a = b.
Proof.
  unfold two, figure. intros Ha Hb E. pose proof (Z.div_mod a 10 ltac:(lia)). pose proof (Z.mod_pos_bound a 10 ltac:(lia)).
  pose proof (Z.div_mod b 10 ltac:(lia)). pose proof (Z.mod_pos_bound b 10 ltac:(lia)).
  rewrite (Z.mod_small (a / 10)), (Z.mod_small (b / 10)) in E by lia.
  pose proof (f_equal (fun l => nth 0 l 0) E) as E1. pose proof (f_equal (fun l => nth 1 l 0) E) as E2. cbn [nth] in E1, E2. lia.
Qed.
Lemma month_inj m m' : 1 <= m <= 12 -> 1 <= m' <= 12 -> month_text m = month_text m' -> m = m'.
Proof.
  intros H H' E. destruct (month_scan m [] H) as (_ & A & _). destruct (month_scan m' [] H') as (_ & B & _). rewrite E, B in A. assert (3 * (m' - 1) = 3 * (m - 1)) by congruence. lia.
Qed.
Lemma stamp_inj t t' y m d h mi s w k yr y' m' d' h' mi' s' w' k' yr' :
  moment t y m d h mi s w k -> moment t' y' m' d' h' mi' s' w' k' -> numeral yr y -> numeral yr' y' ->
  stamp w m d h mi s yr = stamp w' m' d' h' mi' s' yr' -> t = t'.
Proof.
  intros Mo Mo' N N' E. destruct (moment_ranges _ _ _ _ _ _ _ _ _ Mo) as (Hm & Hd & Hc & Hw & _).
  destruct (moment_ranges _ _ _ _ _ _ _ _ _ Mo') as (Hm' & Hd' & Hc' & Hw' & _). unfold clock in *.
  destruct (stamp_parts w m d h mi s yr Hm Hw) as (A & B). destruct (stamp_parts w' m' d' h' mi' s' yr' Hm' Hw') as (A' & B').
  rewrite <- E in A', B'. rewrite A in A'. rewrite B in B'. clear A B E.
  pose proof (month_length m Hm) as L. pose proof (month_length m' Hm') as L'.
  assert (month_text m = month_text m' /\ two d = two d' /\ yr = yr') as (X1 & X2 & X3).
  { destruct (month_text m) as [|? [|? [|? [|]]]]; try discriminate. destruct (month_text m') as [|? [|? [|? [|]]]]; try discriminate.
    unfold two in *. cbn [app] in A'. injection A'. intros. subst. repeat split; congruence. }
  assert (two h = two h' /\ two mi = two mi' /\ two s = two s') as (X4 & X5 & X6).
  { unfold time_text, two in *. cbn [app] in B'. injection B'. intros. repeat split; congruence. }
  apply month_inj in X1; try assumption. apply two_inj in X2, X4, X5, X6; try lia. subst yr'. pose proof (numeral_eq _ _ _ N N'). subst.
  exact (proj1 (moment_time _ _ _ _ _ _ _ _ _ _ _ _ Mo Mo')).
Qed.

(** ** A format that sorts *)
Definition iso_format : list Z := chars "%Y-%m-%d %H:%M:%S".
Lemma iso_text x y m d h mi s w k dst : 1000 <= y < 10000 -> 1 <= m <= 12 -> 1 <= d <= 31 -> clock h mi s ->
  x = mkB s mi h d (m - 1) (y - 1900) w k dst -> expand x iso_format = Some (iso y m d h mi s).
Proof.
  unfold clock. intros Hy Hm Hd Hc ->. let f := eval vm_compute in iso_format in change iso_format with f.
  cbn [expand conversion b_sec b_min b_hour b_mday b_mon b_year b_wday].
  replace (y - 1900 + 1900) with y by lia. replace (m - 1 + 1) with m by lia. rewrite dec_four, !pad2_two by lia.
  unfold iso, time_text. rewrite ?app_nil_r. reflexivity.
Qed.
Lemma before_app u v r r' : length u = length v -> before (u ++ r) (v ++ r') <-> before u v \/ (u = v /\ before r r').
Proof.
  revert v. induction u as [|a u IH]; intros [|b v] E; try discriminate; cbn [app before]; [tauto|].
  injection E as E. rewrite (IH v E). split.
  - intros [?|[-> [?|[-> ?]]]]; auto.
  - intros [[?|[-> ?]]|[X ?]]; auto. injection X as -> ->. auto.
Qed.
Lemma before_two a b : 0 <= a < 100 -> 0 <= b < 100 -> before (two a) (two b) <-> a < b.
Proof.
  unfold two, figure. intros Ha Hb. pose proof (Z.div_mod a 10 ltac:(lia)). pose proof (Z.mod_pos_bound a 10 ltac:(lia)).
  pose proof (Z.div_mod b 10 ltac:(lia)). pose proof (Z.mod_pos_bound b 10 ltac:(lia)).
  rewrite (Z.mod_small (a / 10)), (Z.mod_small (b / 10)) by lia. cbn [before]. lia.
Qed.
Lemma two_eq a b : 0 <= a < 100 -> 0 <= b < 100 -> two a = two b <-> a = b.
Proof. intros Ha Hb. split; [now apply two_inj|now intros ->]. Qed.
Lemma before_four a b : 0 <= a < 10000 -> 0 <= b < 10000 -> before (four a) (four b) <-> a < b.
Proof.
  intros Ha Hb. assert (forall n, two n = two (n mod 100)) as M.
  { intros n. unfold two, figure. pose proof (Z.div_mod n 100 ltac:(lia)) as D. pose proof (Z.mod_pos_bound n 100 ltac:(lia)).
    rewrite D at 1 2. replace (100 * (n / 100) + n mod 100) with (n mod 100 + (10 * (n / 100)) * 10) by lia. rewrite Z.div_add by lia.
    rewrite Z.mod_add by lia. replace (n mod 100 / 10 + 10 * (n / 100)) with (n mod 100 / 10 + (n / 100) * 10) by lia. now rewrite Z.mod_add by lia. }
  unfold four. rewrite before_app by reflexivity. rewrite (M a), (M b).
  pose proof (Z.div_mod a 100 ltac:(lia)). pose proof (Z.mod_pos_bound a 100 ltac:(lia)).
  pose proof (Z.div_mod b 100 ltac:(lia)). pose proof (Z.mod_pos_bound b 100 ltac:(lia)).
  rewrite !before_two, two_eq by lia. lia.
Qed.
Lemma four_inj a b : 0 <= a < 10000 -> 0 <= b < 10000 -> four a = four b <-> a = b.
Proof.
  intros Ha Hb. split; [|now intros ->]. intros E. destruct (Z.lt_trichotomy a b) as [L|[L|L]]; [|exact L|];
    apply before_four in L; try assumption; exfalso; rewrite E in L; clear E; revert L;
    (assert (forall l, ~ before l l) as I0 by (induction l as [|c l IH]; cbn [before]; [tauto|intros [?|[_ ?]]; [lia|tauto]])); apply I0.
Qed.
Lemma before_skip c r r' : before ([c] ++ r) ([c] ++ r') <-> before r r'.
Proof. cbn [app before]. split; [intros [?|[_ ?]]; [lia|assumption]|auto]. Qed.
Lemma iso_order y m d h mi s y' m' d' h' mi' s' : 1000 <= y < 10000 -> 1000 <= y' < 10000 -> 1 <= m <= 12 -> 1 <= m' <= 12 ->
  1 <= d <= 31 -> 1 <= d' <= 31 -> clock h mi s -> clock h' mi' s' ->
  before (iso y m d h mi s) (iso y' m' d' h' mi' s') <-> earlier (y, m, d, h, mi, s) (y', m', d', h', mi', s').
Proof.
  unfold clock. intros. unfold iso, time_text. rewrite before_app by reflexivity. rewrite before_skip, before_app by reflexivity.
  rewrite before_skip, before_app by reflexivity. rewrite before_skip, before_app by reflexivity. rewrite before_skip, before_app by reflexivity.
  rewrite before_skip. rewrite before_four, four_inj, !before_two, !two_eq by lia. unfold earlier. tauto.
Qed.
Lemma iso_right x x' t t' y m d h mi s w k y' m' d' h' mi' s' w' k' :
  shows x y m d h mi s w k -> moment t y m d h mi s w k -> shows x' y' m' d' h' mi' s' w' k' -> moment t' y' m' d' h' mi' s' w' k' ->
  1000 <= y < 10000 -> 1000 <= y' < 10000 -> forall junk buffer size, (20 <= size <= length buffer)%nat ->
  exists b b', strf_DateTime junk x buffer size iso_format = Ok (19%nat, b) /\ strf_DateTime junk x' buffer size iso_format = Ok (19%nat, b') /\
    c_string b = iso y m d h mi s /\ (before (c_string b) (c_string b') <-> t < t').
Proof.
  intros Sh Mo Sh' Mo' Hy Hy' junk buffer size B.
  destruct (moment_ranges _ _ _ _ _ _ _ _ _ Mo) as (Hm & Hd & Hc & Hw & _). destruct (shows_fields _ _ _ _ _ _ _ _ _ Sh) as (dst & E & _).
  destruct (moment_ranges _ _ _ _ _ _ _ _ _ Mo') as (Hm' & Hd' & Hc' & Hw' & _). destruct (shows_fields _ _ _ _ _ _ _ _ _ Sh') as (dst' & E' & _).
  assert (forall y m d h mi s, Forall (fun c => 0 < c) (iso y m d h mi s)) as P.
  { intros. unfold iso, four, time_text. repeat (apply Forall_app; split); try (repeat constructor; lia); apply two_pos. }
  unfold strf_DateTime. rewrite E, E'.
  rewrite (strftime_fits junk buffer size _ _ _ (iso_text _ y m d h mi s w k dst Hy Hm Hd Hc eq_refl)) by (cbn [length iso four two time_text app]; lia).
  rewrite (strftime_fits junk buffer size _ _ _ (iso_text _ y' m' d' h' mi' s' w' k' dst' Hy' Hm' Hd' Hc' eq_refl)) by (cbn [length iso four two time_text app]; lia).
  do 2 eexists. split; [reflexivity|]. split; [reflexivity|]. rewrite !pos_string by apply P. split; [reflexivity|].
  rewrite iso_order by assumption. split; intros H; [eapply moment_order; eauto|].
  destruct (earlier_total y m d h mi s y' m' d' h' mi' s') as [H1|[H1|H1]]; auto.
  - inversion H1; subst. destruct (moment_time _ _ _ _ _ _ _ _ _ _ _ _ Mo Mo'). lia.
  - pose proof (moment_order _ _ _ _ _ _ _ _ _ _ _ _ _ _ _ _ _ _ Mo' Mo H1). lia.
Qed.

(** ** Any format *)
Lemma whole_right junk x buffer size fmt : d_tm x <> None -> (size <= length buffer)%nat ->
  strf_DateTime junk x buffer size fmt = Fuel \/
  exists text, (forall junk buffer size, (length text < size <= length buffer)%nat ->
      strf_DateTime junk x buffer size fmt = Ok (length text, text ++ [0] ++ skipn (length text + 1) buffer)) /\
    exists buffer', strf_DateTime junk x buffer size fmt = Ok (if (length text <? size)%nat then length text else O, buffer') /\
      length buffer' = length buffer /\ skipn size buffer' = skipn size buffer.
Proof.
  intros Hx B. unfold strf_DateTime. destruct (d_tm x) as [f|]; [|congruence]. destruct (expand f fmt) as [text|] eqn:E; [right|left; unfold strftime; now rewrite E].
  exists text. split; [intros j b sz K; apply strftime_fits; lia || assumption|].
  destruct (Nat.ltb_spec (length text) size) as [L|L]; [|apply (strftime_small _ _ _ _ _ _ E); assumption].
  rewrite (strftime_fits junk buffer size fmt f text E) by lia. eexists. split; [reflexivity|]. split.
  - rewrite !app_length, skipn_length. cbn [length]. lia.
  - rewrite app_assoc, skipn_app, app_length. cbn [length]. rewrite (skipn_all2 (text ++ [0])) by (rewrite app_length; cbn [length]; lia). cbn [app].
    set (n := (length text + 1)%nat). assert (n <= size)%nat as H by lia. clearbody n. clear - H.
    replace size with (n + (size - n))%nat at 2 by lia. generalize (size - n)%nat as j. clear H. revert buffer.
    induction n as [|n IH]; intros buffer j; [reflexivity|]. destruct buffer; [cbn; now rewrite !skipn_nil|]. apply IH.
Qed.
Lemma distinct_right x x' t t' y m d h mi s w k y' m' d' h' mi' s' w' k' junk junk' buffer buffer' size size' n n' b b' :
  shows x y m d h mi s w k -> moment t y m d h mi s w k -> shows x' y' m' d' h' mi' s' w' k' -> moment t' y' m' d' h' mi' s' w' k' ->
  (size <= length buffer)%nat -> (size' <= length buffer')%nat ->
  strf_DateTime junk x buffer size default_format = Ok (n, b) -> strf_DateTime junk' x' buffer' size' default_format = Ok (n', b') ->
  (0 < n)%nat -> (0 < n')%nat -> c_string b = c_string b' -> t = t'.
Proof.
  intros Sh Mo Sh' Mo' B B' E E' P P' C.
  destruct (stamp_right _ _ _ _ _ _ _ _ _ _ Sh Mo) as (yr & N & _ & F1 & F2). destruct (stamp_right _ _ _ _ _ _ _ _ _ _ Sh' Mo') as (yr' & N' & _ & F1' & F2').
  destruct (Nat.le_gt_cases size (20 + length yr)) as [L|L].
  { destruct (F2 junk buffer size L B) as (? & K & _). rewrite K in E. injection E. lia. }
  destruct (Nat.le_gt_cases size' (20 + length yr')) as [L'|L'].
  { destruct (F2' junk' buffer' size' L' B') as (? & K & _). rewrite K in E'. injection E'. lia. }
  destruct (F1 junk buffer size ltac:(lia)) as (c & K & S1 & _). rewrite K in E. injection E as _ ->.
  destruct (F1' junk' buffer' size' ltac:(lia)) as (c' & K' & S1' & _). rewrite K' in E'. injection E' as _ ->.
  rewrite S1, S1' in C. exact (stamp_inj _ _ _ _ _ _ _ _ _ _ _ _ _ _ _ _ _ _ _ _ Mo Mo' N N' C).
Qed.
Lemma back_stamp shift wday dst buff t y m d h mi s w k : moment t y m d h mi s w k -> 1000 <= y < 10000 -> dst <= 0 \/ shift = 0 ->
  let text := stamp w m d h mi s (four y) in
  (~ eight_or_nine h -> ~ eight_or_nine mi -> ~ eight_or_nine s ->
    exists b x, DateTime_text shift wday dst buff (date_part text) (time_part text) = Ok (b, x) /\ getUnixTime x = t /\ shows x y m d h mi s w k) /\
  (eight_or_nine h \/ eight_or_nine mi -> DateTime_text shift wday dst buff (date_part text) (time_part text) = UB).
Proof.
  intros Mo Hy Hs. destruct (moment_ranges _ _ _ _ _ _ _ _ _ Mo) as (Hm & Hd & Hc & Hw & Hv). cbv zeta. rewrite read_back by (try assumption; lia). split.
  - intros O1 O2 O3. destruct (from_text shift wday dst buff y m d h mi s ltac:(lia) Hv Hc O1 O2 O3 Hs) as (b & x & t' & w' & k' & E & Mo' & U & _ & Sh').
    destruct (moment_time _ _ _ _ _ _ _ _ _ _ _ _ Mo Mo') as (-> & -> & ->). exists b, x. auto.
  - intros O. unfold DateTime_text. rewrite text_lost; [reflexivity|lia|exact Hv|unfold clock in Hc; unfold time_of_day; lia|exact O].
Qed.
