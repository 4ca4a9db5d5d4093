(** Lemmas about the model of Schedule. *)
From Coq Require Import ZArith Lia Bool List.
From Verif Require Import Base KTimeModel KTimeProofs SchedModel SchedSpec.
Import ListNotations.
Open Scope Z_scope.

Lemma day_hours : from_other HOUR SEC 24 = day.
Proof. vm_compute. reflexivity. Qed.

Lemma near_le x : Z.abs x <= 2 ^ 24 -> near24 x = x.
Proof. apply near24_id. Qed.

Section Proofs.
Context {V : Type}.
Variable zero : V.
Implicit Types (b : block V) (l : list (block V)).

Lemma today_ok t b : 0 <= t < day -> proper b -> is_today V t b = true <-> bstart b <= t < bstart b + bduration b.
Proof.
  intros Ht [Hs Hd]. unfold is_today, kge, klt, kadd, day in *. rewrite !from_other_same, (near_le (bduration b)), !near_le by lia.
  rewrite andb_true_iff, Z.leb_le, Z.ltb_lt. lia.
Qed.
Lemma midnight_ok t b : 0 <= t < day -> proper b -> is_after_midnight V t b = true <-> t + day < bstart b + bduration b.
Proof.
  intros Ht [Hs Hd]. unfold is_after_midnight, kgt, klt, kadd, ksub. rewrite day_hours. unfold day in *. rewrite !from_other_same, (near_le (bduration b)), !near_le by lia.
  rewrite andb_true_iff, !Z.ltb_lt. lia.
Qed.
Lemma covers_ok t b : 0 <= t < day -> proper b -> is_today V t b || is_after_midnight V t b = true <-> covers b t.
Proof.
  intros Ht Hp. rewrite orb_true_iff, today_ok, midnight_ok by auto. destruct Hp as [Hs Hd]. unfold covers, day in *. split.
  - intros [H|H]; [exists 0|exists 1]; lia.
  - intros [n Hn]. assert (n < 0 \/ n = 0 \/ n = 1 \/ 1 < n) as [?|[->|[->|?]]] by lia; [nia|left; lia|right; lia|nia].
Qed.

Lemma value_at_spec l t : 0 <= t < day -> Forall proper l ->
  (forall l1 b l2, l = l1 ++ b :: l2 -> Forall (fun b' => ~ covers b' t) l1 -> covers b t -> value_at V zero l t = bvalue b) /\
  (Forall (fun b => ~ covers b t) l -> value_at V zero l t = zero).
Proof.
  intros Ht. induction 1 as [|b l Hb Hl [IH1 IH2]].
  - split; auto. intros [|? ?]; discriminate.
  - cbn [value_at]. pose proof (covers_ok t b Ht Hb) as HC. split.
    + intros [|b0 l1] b' l2 E Hno Hc; inversion E; subst.
      * apply HC in Hc. now rewrite Hc.
      * inversion Hno; subst. destruct (is_today V t b0 || is_after_midnight V t b0) eqn:Ec; [exfalso; tauto|]. eapply IH1; eauto.
    + intros Hno. inversion Hno; subst. destruct (is_today V t b || is_after_midnight V t b); [exfalso; tauto|auto].
Qed.

Lemma next_spec l t : Forall (fun b => Z.abs (bstart b) <= 2 ^ 24) l ->
  (forall l1 b l2, l = l1 ++ b :: l2 -> Forall (fun b' => bstart b' <= t) l1 -> t < bstart b -> start_of_next_block V l t = bstart b) /\
  (Forall (fun b => bstart b <= t) l -> start_of_next_block V l t = day).
Proof.
  induction 1 as [|b l Hb Hl [IH1 IH2]].
  - split; [intros [|? ?]; discriminate|]. intros _. exact day_hours.
  - cbn [start_of_next_block]. unfold klt. rewrite from_other_same, near_le by auto. split.
    + intros [|b0 l1] b' l2 E Hno Hc; inversion E; subst.
      * destruct (Z.ltb_spec t (bstart b')); [reflexivity|lia].
      * inversion Hno; subst. destruct (Z.ltb_spec t (bstart b0)); [lia|]. eapply IH1; eauto.
    + intros Hno. inversion Hno; subst. destruct (Z.ltb_spec t (bstart b)); [lia|auto].
Qed.

Lemma next_sorted l t : Forall (fun b => Z.abs (bstart b) <= 2 ^ 24) l ->
  (forall l1 b b' l2, l = l1 ++ b :: b' :: l2 -> bstart b <= bstart b') ->
  (forall b, In b l -> t < bstart b -> start_of_next_block V l t <= bstart b) /\
  ((exists b, In b l /\ t < bstart b) -> exists b, In b l /\ t < bstart b /\ start_of_next_block V l t = bstart b) /\
  ((forall b, In b l -> bstart b <= t) -> start_of_next_block V l t = day).
Proof.
  intros HF Hs. split; [|split].
  - revert Hs HF. induction l as [|b0 l IH]; intros Hs HF b Hb Ht; [contradiction|]. inversion HF as [|? ? H1 H2]; subst.
    assert (Hall : forall b, In b l -> bstart b0 <= bstart b).
    { clear -Hs. revert b0 Hs. induction l as [|c l IH]; intros b0 Hs b Hb; [contradiction|]. assert (bstart b0 <= bstart c) by (apply (Hs [] b0 c l); reflexivity).
      destruct Hb as [<-|Hb]; auto. assert (bstart c <= bstart b); [|lia]. apply IH; auto. intros l1 x y l2 E. apply (Hs (b0 :: l1) x y l2). now rewrite E. }
    cbn [start_of_next_block]. unfold klt. rewrite from_other_same, near_le by auto. destruct (Z.ltb_spec t (bstart b0)).
    + destruct Hb as [<-|Hb]; [lia|auto].
    + destruct Hb as [<-|Hb]; [lia|]. apply IH; auto. intros l1 x y l2 E. apply (Hs (b0 :: l1) x y l2). now rewrite E.
  - clear Hs. induction HF as [|b0 l H1 H2 IH]; intros (b & Hb & Ht); [contradiction|].
    cbn [start_of_next_block]. unfold klt. rewrite from_other_same, near_le by auto. destruct (Z.ltb_spec t (bstart b0)).
    + exists b0. split; [left; auto|auto].
    + destruct Hb as [<-|Hb]; [lia|]. destruct IH as (b' & A & B & C); eauto. exists b'. split; [right; auto|auto].
  - intros H. apply next_spec; auto. apply Forall_forall. auto.
Qed.

(** ** Construction *)
Lemma near_big x : 2 ^ 24 <= x -> 2 ^ 24 <= near24 x.
Proof. intros H. rewrite <- (near24_id (2 ^ 24)) by lia. apply near24_mono. exact H. Qed.
Lemma near_pos x : 0 < x -> 0 < near24 x.
Proof. intros H. destruct (Z.le_gt_cases x (2 ^ 24)); [rewrite near_le; lia|]. pose proof (near_big x). lia. Qed.

Lemma total_nonneg l : Forall (fun b => 0 < bduration b) l -> 0 <= total l.
Proof. induction 1; simpl; lia. Qed.
Lemma total_debug l : forall s, 0 <= s -> Forall (fun b => 0 < bduration b) l ->
  exists s', sched_total V true s l = Ok s' /\ (s + total l <= day -> s' = s + total l) /\ (day < s + total l -> day < s').
Proof.
  induction l as [|b l IH]; intros s Hs HF; cbn [sched_total total fold_right].
  - exists s. split; auto. split; lia.
  - inversion HF; subst. unfold kgt. change (from_other SEC SEC 0) with 0. destruct (Z.ltb_spec 0 (bduration b)); [|lia]. cbn [sassert bind].
    fold (total l). unfold kadd. rewrite from_other_same. pose proof (near_pos (bduration b)). pose proof (total_nonneg l).
    destruct (IH (s + near24 (bduration b))) as (s' & E & A & B); auto; [lia|]. exists s'. split; auto. unfold day in *.
    destruct (Z.le_gt_cases (bduration b) (2 ^ 24)).
    + rewrite near_le in * by lia. split; intros; [rewrite A|apply B]; lia.
    + pose proof (near_big (bduration b)). split; intros; [|apply B]; intuition lia.
Qed.

Lemma new_debug l : (Forall (fun b => 0 < bduration b) l /\ total l <= day -> sched_new V true l = Ok l) /\
  (~ (Forall (fun b => 0 < bduration b) l /\ total l <= day) -> sched_new V true l = Halt).
Proof.
  assert (Hbad : ~ Forall (fun b => 0 < bduration b) l -> forall s, sched_total V true s l = Halt).
  { induction l as [|b l IH]; intros H s; [exfalso; apply H; constructor|]. cbn [sched_total]. unfold kgt. change (from_other SEC SEC 0) with 0.
    destruct (Z.ltb_spec 0 (bduration b)); cbn [sassert bind]; [|reflexivity]. apply IH. intros HF. apply H. constructor; auto. }
  unfold sched_new. split.
  - intros [HF Ht]. destruct (total_debug l 0 ltac:(lia) HF) as (s' & E & A & _). rewrite E. cbn [bind]. unfold kle. rewrite day_hours, A by lia.
    destruct (Z.leb_spec (0 + total l) day); [reflexivity|lia].
  - intros H. destruct (Forall_dec (fun b => 0 < bduration b) (fun b => Z_lt_dec 0 (bduration b)) l) as [HF|HF].
    + destruct (total_debug l 0 ltac:(lia) HF) as (s' & E & _ & B). rewrite E. cbn [bind]. unfold kle. rewrite day_hours.
      assert (~ total l <= day) by tauto. destruct (Z.leb_spec s' day); [lia|reflexivity].
    + rewrite Hbad by auto. reflexivity.
Qed.
Lemma total_release l : forall s, exists s', sched_total V false s l = Ok s'.
Proof. induction l as [|b l IH]; intros s; cbn [sched_total]; [eauto|]. destruct (kgt SEC SEC (bduration b) 0); cbn [sassert bind]; apply IH. Qed.
Lemma new_release l : sched_new V false l = Ok l.
Proof. unfold sched_new. destruct (total_release l 0) as [s' ->]. cbn [bind]. destruct (kle SEC HOUR s' 24); reflexivity. Qed.

Lemma new_proper l : sched_new V true l = Ok l -> Forall (fun b => 0 <= bstart b < day) l -> Forall proper l.
Proof.
  intros H Hs. destruct (new_debug l) as [_ HB].
  assert (Forall (fun b => 0 < bduration b) l /\ total l <= day) as [HF Ht].
  { destruct (Forall_dec (fun b => 0 < bduration b) (fun b => Z_lt_dec 0 (bduration b)) l) as [HF|HF]; [destruct (Z_le_gt_dec (total l) day)|]; auto;
    rewrite HB in H; try discriminate; intros [? ?]; try contradiction; lia. }
  clear H HB. assert (forall b, In b l -> bduration b <= total l).
  { clear -HF. induction HF as [|b l Hb HF IH]; intros b' Hb'; [contradiction|]. simpl. fold (total l). pose proof (total_nonneg l HF).
    destruct Hb' as [<-|Hb']; [lia|]. specialize (IH _ Hb'). lia. }
  rewrite Forall_forall in *. intros b Hb. specialize (HF b Hb). specialize (H b Hb). specialize (Hs b Hb). split; lia.
Qed.
End Proofs.
