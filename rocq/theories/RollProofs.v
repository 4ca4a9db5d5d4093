(** Lemmas on timers across a roll of the clock. *)
From Coq Require Import ZArith Lia Bool List.
From Verif Require Import Base KTimeModel KTimeProofs TimersModel TimersSpec RollModel.
Import ListNotations.
Open Scope Z_scope.

Lemma reading_range t : 0 <= arduino_millis t < 2 ^ 32. Proof. apply Z.mod_pos_bound. reflexivity. Qed.
Lemma reading_before t : 0 <= t < 2 ^ 32 -> arduino_millis t = t. Proof. apply Z.mod_small. Qed.
Lemma near_reading t : near24 (arduino_millis t) <= 2 ^ 32.
Proof. replace (2 ^ 32) with (near24 (2 ^ 32)) by reflexivity. apply near24_mono. pose proof (reading_range t). lia. Qed.

Lemma alarm_beyond f ts : 2 ^ 32 < f -> alarm_polls (mkAlarm f false) (map arduino_millis ts) = repeat false (length ts).
Proof.
  intros F. induction ts as [| t ts IH]; [reflexivity |]. cbn [map alarm_polls length repeat]. unfold alarm_expired. cbn [aexpired afuture].
  unfold kle. rewrite from_other_same. replace (f <=? near24 (arduino_millis t)) with false by (symmetry; apply Z.leb_gt; pose proof (near_reading t); lia).
  cbn iota. now rewrite IH.
Qed.
Lemma alarm_across dbg s d ts : 0 <= d <= 2 ^ 24 -> 2 ^ 32 < arduino_millis s + d ->
  exists a, alarm_new dbg (arduino_millis s) d false = Ok a /\ alarm_polls a (map arduino_millis ts) = repeat false (length ts).
Proof.
  intros D H. exists (mkAlarm (arduino_millis s + d) false). split; [| now apply alarm_beyond].
  unfold alarm_new, kadd. rewrite from_other_same, near24_id by lia. unfold sassert. reflexivity.
Qed.
Lemma silent p i catch ts : 0 <= i -> Forall (fun t => arduino_millis t <= near24 p) ts ->
  itimer_polls (mkIT p i catch) (map arduino_millis ts) = repeat false (length ts).
Proof.
  intros I F. induction F as [| t ts T F IH]; [reflexivity |]. cbn [map itimer_polls length repeat]. unfold itimer_expired. cbn [iprev ival].
  unfold kgt, ksub. rewrite !from_other_same. replace (near24 i <? arduino_millis t - near24 p) with false.
  - now rewrite IH.
  - symmetry. pose proof (near24_nonneg i I). apply Z.ltb_ge. lia.
Qed.
Lemma silent_after dbg s i catch ts : 0 <= i -> 0 <= s < 2 ^ 32 -> Forall (fun t => 0 <= t - 2 ^ 32 <= s - 256) ts ->
  itimer_polls (itimer_new (arduino_millis s) i catch) (map arduino_millis ts) = repeat false (length ts) /\
  Forall (fun x => x < 0) (map (fun t => fst (time_since_last (arduino_millis t) dbg (timer_new (arduino_millis s)))) ts).
Proof.
  intros I S F. rewrite (reading_before s S). pose proof (near24_error s) as E.
  assert (G : Forall (fun t => arduino_millis t <= s - 256) ts).
  { eapply Forall_impl; [| exact F]. cbn. intros t T. replace t with (t - 2 ^ 32 + 1 * 2 ^ 32) by lia. unfold arduino_millis. rewrite Z_mod_plus_full, Z.mod_small; lia. }
  split.
  - apply silent; [exact I |]. eapply Forall_impl; [| exact G]. cbn. lia.
  - apply Forall_forall. intros x X. apply in_map_iff in X as (t & <- & T). rewrite Forall_forall in G. specialize (G t T). cbn in G.
    unfold time_since_last. cbn [fst tlast timer_new]. unfold ksub. rewrite from_other_same. lia.
Qed.
