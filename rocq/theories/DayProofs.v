(** Lemmas for property C141. *)
From Coq Require Import ZArith Lia Bool List.
From Verif Require Import Base KTimeModel KTimeSpec KTimeProofs KTimeConv SchedModel SchedSpec SchedProofs DateModel DateSpec CalModel CalSpec CalProofs DaySpec.
Import ListNotations.
Open Scope Z_scope.

Lemma hours h : 0 <= h < 24 -> from_other HOUR SEC h = 3600 * h.
Proof. intros H. pose proof (from_other_nearest HOUR SEC h) as N. cbn [micros_per] in N. specialize (N ltac:(lia)). unfold nearest_count in N. cbn [micros_per] in N. lia. Qed.
Lemma minutes m : 0 <= m < 60 -> from_other MIN SEC m = 60 * m.
Proof. intros H. pose proof (from_other_nearest MIN SEC m) as N. cbn [micros_per] in N. specialize (N ltac:(lia)). unfold nearest_count in N. cbn [micros_per] in N. lia. Qed.
Lemma of_day dbg u : - 2 ^ 55 <= u <= 2 ^ 55 -> dbg = false \/ UNIX_OFFSET <= u -> exists t, DateTime_unix dbg u = Ok t /\ time_of_day t = Ok (u mod day).
Proof.
  intros H Hd. destruct (unix_right dbg u H Hd) as (x & y & m & d & h & mi & s & w & k & E & M & _ & _ & Sh). exists x. split; [exact E|].
  destruct Sh as (_ & _ & _ & Eh & Em & Es & _). destruct M as (n & _ & _ & C & T & _). destruct C as (Ch & Cm & Cs). unfold time_of_day. rewrite Es. cbn [bind]. rewrite Em. cbn [bind]. rewrite Eh. cbn [bind]. unfold kadd. rewrite hours, minutes by assumption.
  f_equal. unfold day. apply (Z.mod_unique_pos _ _ n); lia.
Qed.
Lemma running_covers {V} (b : block V) u : running b u <-> covers b (u mod day).
Proof.
  pose proof (Z.div_mod u day ltac:(unfold day; lia)) as D. unfold day in *. split.
  - intros (u0 & (n & ->) & H). exists (u / 86400 - n). unfold day. lia.
  - intros (n & H). unfold day in H. exists (86400 * (u / 86400 - n) + bstart b). split; [exists (u / 86400 - n); reflexivity|]. lia.
Qed.
Lemma asked_ok {V} (zero : V) dbg s u : - 2 ^ 55 <= u <= 2 ^ 55 -> dbg = false \/ UNIX_OFFSET <= u -> asked zero dbg s u = Ok (value_at V zero s (u mod day)).
Proof. intros H Hd. destruct (of_day dbg u H Hd) as (t & E & T). unfold asked. rewrite E. cbn [bind]. rewrite T. reflexivity. Qed.
Lemma nap_ok {V} dbg (s : list (block V)) u : - 2 ^ 55 <= u <= 2 ^ 55 -> dbg = false \/ UNIX_OFFSET <= u -> nap dbg s u = Ok (start_of_next_block V s (u mod day) - u mod day).
Proof.
  intros H Hd. destruct (of_day dbg u H Hd) as (t & E & T). unfold nap. rewrite E. cbn [bind]. rewrite T. cbn [bind]. unfold ksub. rewrite from_other_same, near24_id; [reflexivity|].
  pose proof (Z.mod_pos_bound u day ltac:(unfold day; lia)). unfold day in *. lia.
Qed.
