(** Proofs about the timers. *)
From Coq Require Import ZArith List Bool Lia Sorting.Sorted.
From Verif Require Import Base KTimeModel KTimeSpec KTimeProofs TimersModel TimersSpec.
Import ListNotations.
Open Scope Z_scope.

Lemma sassert_ok dbg c : sassert dbg c = Ok tt \/ (dbg = true /\ c = false).
Proof. destruct dbg, c; simpl; auto. Qed.

Lemma short_near x : short x -> near24 x = x.
Proof. intros H. apply near24_id. unfold short in H. lia. Qed.

Lemma alarm_new_ok dbg now d absolute a : alarm_new dbg now d absolute = Ok a ->
  a = mkAlarm (if absolute then d else now + near24 d) false.
Proof.
  unfold alarm_new, kadd. rewrite from_other_same. intros H.
  destruct (sassert dbg (negb absolute || kgt MS MS d now)); simpl in H; try discriminate. now inversion H.
Qed.

Lemma alarm_polls_latched a ts : aexpired a = true -> alarm_polls a ts = repeat true (length ts).
Proof. intros H. induction ts as [|t ts IH]; simpl; auto. unfold alarm_expired. rewrite H. simpl. now rewrite IH. Qed.

Lemma alarm_polls_cons a t ts : aexpired a = false ->
  alarm_polls a (t :: ts) = if afuture a <=? near24 t then repeat true (length (t :: ts)) else false :: alarm_polls a ts.
Proof.
  intros H. simpl. unfold alarm_expired, kle. rewrite H, from_other_same. destruct (afuture a <=? near24 t); auto.
  rewrite alarm_polls_latched by reflexivity. reflexivity.
Qed.

Lemma alarm_latch a ts i j : (i <= j)%nat -> nth_error (alarm_polls a ts) i = Some true -> (j < length ts)%nat ->
  nth_error (alarm_polls a ts) j = Some true.
Proof.
  revert a i j. induction ts as [|t ts IH]; intros a i j Hij Hi Hj; [simpl in Hj; lia|].
  destruct (aexpired a) eqn:Ea.
  - rewrite alarm_polls_latched by auto. apply nth_error_repeat_lt. auto.
  - rewrite alarm_polls_cons in * by auto. destruct (afuture a <=? near24 t).
    + apply nth_error_repeat_lt. auto.
    + destruct i as [|i]; [discriminate|]. destruct j as [|j]; [lia|]. simpl in *. apply (IH a i j); auto; lia.
Qed.

Lemma alarm_exact a ts : aexpired a = false -> StronglySorted Z.le ts ->
  alarm_polls a ts = map (fun t => afuture a <=? near24 t) ts.
Proof.
  intros Ha. induction 1 as [|t ts Hs IH Hf]; auto. rewrite alarm_polls_cons by auto.
  destruct (Z.leb_spec (afuture a) (near24 t)) as [H|H].
  - simpl. destruct (Z.leb_spec (afuture a) (near24 t)); [|lia]. f_equal.
    clear IH Hs. induction Hf as [|x ts Hx _ IH]; auto. simpl. rewrite <- IH. f_equal.
    pose proof (near24_mono t x Hx). symmetry. apply Z.leb_le. lia.
  - simpl. destruct (Z.leb_spec (afuture a) (near24 t)); [lia|]. f_equal. exact IH.
Qed.

Lemma alarm_due dbg now d absolute a ts : alarm_new dbg now d absolute = Ok a -> short d ->
  StronglySorted Z.le ts -> Forall short ts ->
  afuture a = (if absolute then d else now + d) /\
  alarm_polls a ts = map (fun t => (if absolute then d else now + d) <=? t) ts.
Proof.
  intros Ha Hd Hs Hf. apply alarm_new_ok in Ha. subst. rewrite alarm_exact by auto. cbn [afuture].
  rewrite (short_near d Hd). split; [reflexivity|]. clear Hs. induction Hf as [|t ts Ht _ IH]; auto. simpl. rewrite IH, (short_near t Ht). reflexivity.
Qed.

Lemma alarm_deviation dbg now d absolute a ts i t b : alarm_new dbg now d absolute = Ok a -> StronglySorted Z.le ts ->
  nth_error ts i = Some t -> nth_error (alarm_polls a ts) i = Some b ->
  2 ^ 24 * Z.abs (afuture a - (if absolute then d else now + d)) <= Z.abs d /\
  (b = true -> 2 ^ 24 * (afuture a - t) <= Z.abs t) /\ (b = false -> 2 ^ 24 * (t - afuture a) < Z.abs t).
Proof.
  intros Ha Hs Ht Hb. apply alarm_new_ok in Ha. rewrite alarm_exact in Hb by (subst; auto). subst a. cbn [afuture] in *.
  rewrite nth_error_map, Ht in Hb. inversion Hb; subst; clear Hb. pose proof (near24_error t) as He. pose proof (near24_error d) as Hd.
  splits.
  - destruct absolute; [|lia]. rewrite Z.sub_diag. simpl. lia.
  - intros H. apply Z.leb_le in H. lia.
  - intros H. apply Z.leb_gt in H. lia.
Qed.

Lemma alarm_left dbg now d absolute a t : alarm_new dbg now d absolute = Ok a -> short d -> short t ->
  alarm_time_from_now t a = (if absolute then d else now + d) - t.
Proof.
  intros Ha Hd Ht. apply alarm_new_ok in Ha. subst. unfold alarm_time_from_now, ksub. rewrite from_other_same, !short_near by auto. reflexivity.
Qed.

(** ** Interval timer *)
Lemma itimer_expired_eq t r : itimer_expired t r =
  if near24 (ival r) <? t - near24 (iprev r)
  then (true, mkIT (if icatch r then iprev r + near24 (ival r) else t) (ival r) (icatch r)) else (false, r).
Proof. unfold itimer_expired, kgt, ksub, kadd. rewrite !from_other_same. reflexivity. Qed.

Fixpoint itimer_after (i : itimer) (ts : list Z) : itimer :=
  match ts with [] => i | t :: ts' => itimer_after (snd (itimer_expired t i)) ts' end.

Lemma itimer_polls_app i ts t : itimer_polls i (ts ++ [t]) = itimer_polls i ts ++ [fst (itimer_expired t (itimer_after i ts))].
Proof.
  revert i. induction ts as [|x ts IH]; intros i; cbn [itimer_polls itimer_after app].
  - destruct (itimer_expired t i); reflexivity.
  - destruct (itimer_expired x i) as [b i']. cbn [fst snd app]. rewrite IH. reflexivity.
Qed.

Lemma itimer_polls_length i ts : length (itimer_polls i ts) = length ts.
Proof. revert i. induction ts as [|t ts IH]; intros i; cbn [itimer_polls length]; auto. destruct (itimer_expired t i). cbn [length]. rewrite IH. reflexivity. Qed.

Lemma itimer_after_app i ts t : itimer_after i (ts ++ [t]) = snd (itimer_expired t (itimer_after i ts)).
Proof. revert i. induction ts as [|x ts IH]; intros i; cbn [itimer_after app]; auto. Qed.

Lemma expiries_app a b : expiries (a ++ b) = expiries a + expiries b.
Proof. unfold expiries. rewrite count_occ_app. lia. Qed.

Lemma catch_up_state s i ts : short s -> short i -> Forall short ts ->
  let st := itimer_after (itimer_new s i true) ts in
  st = mkIT (s + expiries (itimer_polls (itimer_new s i true) ts) * i) i true /\ short (iprev st).
Proof.
  intros Hs Hi. induction ts as [|t ts IH] using rev_ind; intros Hf; cbv zeta.
  - simpl. split; auto. unfold itimer_new, expiries. simpl. f_equal. lia.
  - apply Forall_app in Hf as [Hf Ht]. inversion Ht as [|? ? Ht1 _]; subst. destruct (IH Hf) as [E Hp]. cbv zeta in E, Hp.
    rewrite itimer_after_app, itimer_polls_app, expiries_app. rewrite E in *. cbn [iprev] in Hp.
    set (k := expiries (itimer_polls (itimer_new s i true) ts)) in *.
    rewrite itimer_expired_eq. cbn [iprev ival icatch]. rewrite (short_near i Hi), (short_near _ Hp).
    destruct (Z.ltb_spec i (t - (s + k * i))) as [H|H]; cbn [fst snd iprev].
    + change (expiries [true]) with 1. split; [f_equal; lia|]. unfold short in *. lia.
    + change (expiries [false]) with 0. split; [f_equal; lia|]. auto.
Qed.

Lemma catch_up s i ts t : short s -> short i -> Forall short (ts ++ [t]) ->
  exists bs b, itimer_polls (itimer_new s i true) (ts ++ [t]) = bs ++ [b] /\ length bs = length ts /\
    (b = true <-> (expiries bs + 1) * i < t - s).
Proof.
  intros Hs Hi Hf. apply Forall_app in Hf as [Hf Ht]. inversion Ht as [|? ? Ht1 _]; subst.
  destruct (catch_up_state s i ts Hs Hi Hf) as [E Hp]. cbv zeta in E, Hp.
  rewrite itimer_polls_app. do 2 eexists. split; [reflexivity|]. split; [apply itimer_polls_length|].
  rewrite E in *. cbn [iprev] in Hp. rewrite itimer_expired_eq. cbn [iprev ival icatch]. rewrite (short_near i Hi), (short_near _ Hp).
  set (k := expiries (itimer_polls (itimer_new s i true) ts)) in *.
  destruct (Z.ltb_spec i (t - (s + k * i))) as [H|H]; cbn [fst]; split; intros; try discriminate; auto; lia.
Qed.

Lemma catch_up_state_any s i ts :
  itimer_after (itimer_new s i true) ts = mkIT (s + expiries (itimer_polls (itimer_new s i true) ts) * near24 i) i true.
Proof.
  induction ts as [|t ts IH] using rev_ind; [unfold itimer_new, expiries; simpl; f_equal; lia|].
  rewrite itimer_after_app, itimer_polls_app, expiries_app, IH, itimer_expired_eq. cbn [iprev ival icatch].
  destruct (near24 i <? _); cbn [fst snd]; [change (expiries [true]) with 1|change (expiries [false]) with 0]; f_equal; lia.
Qed.
Lemma catch_up_deviation s i : exists i', 2 ^ 24 * Z.abs (i' - i) <= Z.abs i /\ forall ts t,
  exists bs b, itimer_polls (itimer_new s i true) (ts ++ [t]) = bs ++ [b] /\ length bs = length ts /\
    let l := s + expiries bs * i' in
    (b = true -> 2 ^ 24 * (i' - (t - l)) < Z.abs l) /\ (b = false -> 2 ^ 24 * ((t - l) - i') <= Z.abs l).
Proof.
  exists (near24 i). split; [apply near24_error|]. intros ts t.
  rewrite itimer_polls_app. do 2 eexists. split; [reflexivity|]. split; [apply itimer_polls_length|]. cbv zeta.
  rewrite catch_up_state_any, itimer_expired_eq. cbn [iprev ival icatch].
  set (l := s + expiries (itimer_polls (itimer_new s i true) ts) * near24 i). pose proof (near24_error l).
  destruct (Z.ltb_spec (near24 i) (t - near24 l)); cbn [fst]; split; intros; try discriminate; lia.
Qed.

Lemma last_expiry_app s ts t bs b : length bs = length ts -> last_expiry s (ts ++ [t]) (bs ++ [b]) = if b then t else last_expiry s ts bs.
Proof.
  revert s bs. induction ts as [|x ts IH]; intros s [|c bs] H; try discriminate; simpl; auto.
Qed.

Lemma plain_state s i ts :
  itimer_after (itimer_new s i false) ts = mkIT (last_expiry s ts (itimer_polls (itimer_new s i false) ts)) i false.
Proof.
  induction ts as [|t ts IH] using rev_ind; auto. rewrite itimer_after_app, itimer_polls_app, last_expiry_app by apply itimer_polls_length.
  rewrite IH, itimer_expired_eq. cbn [iprev ival icatch]. destruct (near24 i <? _); reflexivity.
Qed.

Lemma last_expiry_short s ts bs : short s -> Forall short ts -> short (last_expiry s ts bs).
Proof.
  revert s bs. induction ts as [|t ts IH]; intros s bs Hs Hf; simpl; auto. destruct bs as [|b bs]; auto. inversion Hf; subst.
  apply IH; auto. now destruct b.
Qed.

Lemma plain s i ts t : short s -> short i -> Forall short (ts ++ [t]) ->
  exists bs b, itimer_polls (itimer_new s i false) (ts ++ [t]) = bs ++ [b] /\ length bs = length ts /\
    (b = true <-> i < t - last_expiry s ts bs).
Proof.
  intros Hs Hi Hf. apply Forall_app in Hf as [Hf Ht]. rewrite itimer_polls_app. do 2 eexists. split; [reflexivity|].
  split; [apply itimer_polls_length|]. rewrite plain_state, itimer_expired_eq. cbn [iprev ival icatch].
  rewrite (short_near i Hi), (short_near _ (last_expiry_short s ts _ Hs Hf)).
  destruct (Z.ltb_spec i (t - last_expiry s ts (itimer_polls (itimer_new s i false) ts))); cbn [fst]; split; intros; try discriminate; auto; lia.
Qed.

Lemma plain_deviation s i ts t :
  exists bs b, itimer_polls (itimer_new s i false) (ts ++ [t]) = bs ++ [b] /\ length bs = length ts /\
    let l := last_expiry s ts bs in
    (b = true -> 2 ^ 24 * (i - (t - l)) < Z.abs i + Z.abs l) /\ (b = false -> 2 ^ 24 * ((t - l) - i) <= Z.abs i + Z.abs l).
Proof.
  rewrite itimer_polls_app. do 2 eexists. split; [reflexivity|]. split; [apply itimer_polls_length|]. cbv zeta.
  rewrite plain_state, itimer_expired_eq. cbn [iprev ival icatch].
  set (l := last_expiry s ts (itimer_polls (itimer_new s i false) ts)). pose proof (near24_error i). pose proof (near24_error l).
  destruct (Z.ltb_spec (near24 i) (t - near24 l)); cbn [fst]; split; intros; try discriminate; lia.
Qed.

Lemma itimer_next i now : short (iprev i) -> short (ival i) -> short now ->
  itimer_future i = iprev i + ival i /\ itimer_until_next now i = iprev i + ival i - now.
Proof.
  intros H1 H2 H3. unfold itimer_until_next, itimer_future, ksub, kadd. rewrite !from_other_same, !short_near by auto. auto.
Qed.

(** ** Timer *)
Lemma tsl_eq t r : time_since_last t true r = (t - near24 (tlast r), mkTimer t).
Proof. unfold time_since_last, ksub. rewrite from_other_same. reflexivity. Qed.

Lemma timer_sum s ts : short s -> Forall short ts ->
  timer_polls (timer_new s) ts = map (fun p => snd p - fst p) (combine (s :: ts) ts) /\
  fold_right Z.add 0 (timer_polls (timer_new s) ts) = last ts s - s.
Proof.
  revert s. induction ts as [|t ts IH]; intros s Hs Hf; [simpl; split; auto; lia|]. inversion Hf; subst.
  cbn [timer_polls]. rewrite tsl_eq. destruct (IH t ltac:(auto) ltac:(auto)) as [E1 E2].
  cbn [timer_new tlast].
  rewrite (short_near s Hs). unfold timer_new in *. rewrite E1. split.
  - reflexivity.
  - cbn [fold_right]. rewrite <- E1, E2. destruct ts as [|x ts]; [simpl; lia|]. change (last (t :: x :: ts) s) with (last (x :: ts) s).
    assert (forall d d', last (x :: ts) d = last (x :: ts) d') as Hl.
    { clear. revert x. induction ts as [|y ts IH]; intros x d d'; auto. change (last (y :: ts) d = last (y :: ts) d'). apply IH. }
    rewrite (Hl s t). lia.
Qed.

Lemma timer_any s ts : Forall2 (fun p x => 2 ^ 24 * Z.abs (x - (snd p - fst p)) <= Z.abs (fst p)) (combine (s :: ts) ts) (timer_polls (timer_new s) ts).
Proof.
  revert s. induction ts as [|t ts IH]; intros s; [constructor|]. cbn [timer_polls combine]. rewrite tsl_eq. cbn [timer_new tlast]. constructor; [|apply IH].
  cbn [fst snd]. pose proof (near24_error s). lia.
Qed.
Lemma left_any dbg now d absolute a t : alarm_new dbg now d absolute = Ok a ->
  2 ^ 24 * Z.abs (alarm_time_from_now t a - ((if absolute then d else now + d) - t)) <= (if absolute then 0 else Z.abs d) + Z.abs t.
Proof.
  unfold alarm_new. intros H. destruct (sassert dbg _); try discriminate. injection H as <-. unfold alarm_time_from_now, ksub, kadd. cbn [afuture].
  rewrite !from_other_same. pose proof (near24_error t). pose proof (near24_error d). destruct absolute; lia.
Qed.
