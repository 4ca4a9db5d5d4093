(** Properties C34, C35, C61: structure/time/schedule.hpp. *)
From Coq Require Import ZArith Lia Bool List.
From Verif Require Import Base KTimeModel SchedModel SchedSpec SchedProofs.
Import ListNotations.
Open Scope Z_scope.

(** C34. A schedule of blocks starting within the day (in a release build: also lasting more than 0 and at most 24 hours, which a
    debug build checks itself) has at each second of the day the value of the first block covering it, and 0 without one. *)
Theorem C34_value_at :
  forall V (zero : V) dbg blocks s t, sched_new V dbg blocks = Ok s -> Forall (fun b => 0 <= bstart b < day) blocks ->
  (dbg = true \/ Forall (fun b => 0 < bduration b <= day) blocks) -> 0 <= t < day ->
  (forall l1 b l2, blocks = l1 ++ b :: l2 -> Forall (fun b' => ~ covers b' t) l1 -> covers b t -> value_at V zero s t = bvalue b) /\
  (Forall (fun b => ~ covers b t) blocks -> value_at V zero s t = zero).
Proof.
  intros V zero dbg blocks s t H Hs Hd Ht. destruct dbg.
  - destruct (new_debug blocks) as [A B].
    assert (s = blocks) as ->. { unfold sched_new in H. destruct (sched_total V true 0 blocks); cbn [bind] in H; try discriminate.
      destruct (sassert true (kle SEC HOUR a 24)); cbn [bind] in H; try discriminate. congruence. }
    apply value_at_spec; auto. apply new_proper; auto.
  - rewrite new_release in H. inversion H; subst. apply value_at_spec; auto. destruct Hd as [Hd|Hd]; [discriminate|].
    rewrite Forall_forall in *. intros b Hb. split; auto.
Qed.
Print Assumptions C34_value_at.

(** Lights from 6:00 to 22:00 at 1, from 22:00 to 2:00 at 7 *)
Definition lights : list (block nat) := [mkBlock (6 * 3600) (16 * 3600) 1%nat; mkBlock (22 * 3600) (4 * 3600) 7%nat].
Example C34_case : sched_new nat true lights = Ok lights /\ Forall (fun b => 0 <= bstart b < day) lights /\
  value_at nat 0%nat lights (2 * 3600 - 1) = 7%nat /\ covers (mkBlock (22 * 3600) (4 * 3600) 7%nat) (2 * 3600 - 1) /\
  value_at nat 0%nat lights (2 * 3600) = 0%nat /\ Forall (fun b => ~ covers b (2 * 3600)) lights /\
  value_at nat 0%nat lights (22 * 3600 - 1) = 1%nat.
Proof.
  split; [reflexivity|]. split; [repeat constructor; simpl; lia|]. split; [reflexivity|]. split; [exists 1; unfold day; simpl; lia|]. split; [reflexivity|].
  split; [|reflexivity]. apply Forall_cons; [|apply Forall_cons; [|apply Forall_nil]]; intros [n Hn]; unfold day in Hn; cbn [bstart bduration] in Hn; lia.
Qed.

(** C35, blocks in the order of their starts: the nearest later start, or 24 hours. Missing: other orders, see
    C35_order_refuted. *)
Theorem C35_next_start_partial :
  forall V dbg (blocks : list (block V)) s t, sched_new V dbg blocks = Ok s -> Forall (fun b => 0 <= bstart b < day) blocks ->
  (forall l1 b b' l2, blocks = l1 ++ b :: b' :: l2 -> bstart b <= bstart b') ->
  (forall b, In b blocks -> t < bstart b -> start_of_next_block V s t <= bstart b) /\
  ((exists b, In b blocks /\ t < bstart b) -> exists b, In b blocks /\ t < bstart b /\ start_of_next_block V s t = bstart b) /\
  ((forall b, In b blocks -> bstart b <= t) -> start_of_next_block V s t = day).
Proof.
  intros V dbg blocks s t H Hs Ho.
  assert (s = blocks) as ->. { unfold sched_new in H. destruct (sched_total V dbg 0 blocks); cbn [bind] in H; try discriminate.
      destruct (sassert dbg (kle SEC HOUR a 24)); cbn [bind] in H; try discriminate. congruence. }
  apply next_sorted; auto. eapply Forall_impl; [|exact Hs]. unfold day. simpl. intros; lia.
Qed.
Print Assumptions C35_next_start_partial.
Example C35_case : sched_new nat true lights = Ok lights /\ start_of_next_block nat lights 0 = 6 * 3600 /\
  start_of_next_block nat lights (6 * 3600) = 22 * 3600 /\ start_of_next_block nat lights (22 * 3600) = 24 * 3600.
Proof. vm_compute. auto. Qed.

(** C35, any order: the first in the list that starts later. *)
Theorem C35_first_in_list :
  forall V dbg (blocks : list (block V)) s t, sched_new V dbg blocks = Ok s -> Forall (fun b => 0 <= bstart b < day) blocks ->
  (forall l1 b l2, blocks = l1 ++ b :: l2 -> Forall (fun b' => bstart b' <= t) l1 -> t < bstart b -> start_of_next_block V s t = bstart b) /\
  (Forall (fun b => bstart b <= t) blocks -> start_of_next_block V s t = day).
Proof.
  intros V dbg blocks s t H Hs.
  assert (s = blocks) as ->. { unfold sched_new in H. destruct (sched_total V dbg 0 blocks); cbn [bind] in H; try discriminate.
      destruct (sassert dbg (kle SEC HOUR a 24)); cbn [bind] in H; try discriminate. congruence. }
  apply next_spec; auto. eapply Forall_impl; [|exact Hs]. unfold day. simpl. intros; lia.
Qed.
Print Assumptions C35_first_in_list.
Example C35_first_in_list_case : let blocks := [mkBlock (22 * 3600) 3600 7%nat; mkBlock (6 * 3600) 3600 1%nat; mkBlock (23 * 3600) 60 2%nat] in
  sched_new nat true blocks = Ok blocks /\ start_of_next_block nat blocks (5 * 3600) = 22 * 3600 /\ start_of_next_block nat blocks (22 * 3600) = 23 * 3600.
Proof. repeat split. Qed.

(** The same two blocks listed the other way round: at midnight the next block is said to start at 22:00. *)
Theorem C35_order_refuted : exists blocks s b, sched_new nat true blocks = Ok s /\ In b blocks /\ 0 < bstart b < start_of_next_block nat s 0.
Proof. exists (rev lights), (rev lights), (mkBlock (6 * 3600) (16 * 3600) 1%nat). split; [reflexivity|]. split; [right; left; reflexivity|]. vm_compute. auto. Qed.
Print Assumptions C35_order_refuted.

(** C61. A debug build accepts exactly those schedules whose blocks all last longer than nothing and together at most 24 hours;
    a release build accepts everything. *)
Theorem C61_construction :
  forall V (blocks : list (block V)),
  (Forall (fun b => 0 < bduration b) blocks /\ total blocks <= day -> sched_new V true blocks = Ok blocks) /\
  (~ (Forall (fun b => 0 < bduration b) blocks /\ total blocks <= day) -> sched_new V true blocks = Halt) /\
  sched_new V false blocks = Ok blocks.
Proof. intros V blocks. destruct (new_debug blocks). split; [|split]; auto using new_release. Qed.
Print Assumptions C61_construction.
Example C61_case : total lights = 20 * 3600 /\ sched_new nat true (mkBlock 0 (4 * 3600) 2%nat :: lights) = Ok (mkBlock 0 (4 * 3600) 2%nat :: lights) /\
  sched_new nat true (mkBlock 0 (4 * 3600 + 1) 2%nat :: lights) = Halt /\ sched_new nat true [mkBlock 5 0 1%nat] = Halt.
Proof. vm_compute. auto. Qed.
