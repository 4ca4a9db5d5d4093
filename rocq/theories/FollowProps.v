(** Property C138: a client that follows a schedule from one block to the next, day after day. *)
From Coq Require Import ZArith Lia Bool List.
From Verif Require Import Base KTimeModel SchedModel SchedSpec SchedProofs FollowSpec FollowProofs.
Import ListNotations.
Open Scope Z_scope.

(** Blocks listed in the order of their starts, no two at once and one at any time: what the client saw when it woke is due until it
    wakes again. Missing: blocks in another order and times without a block, see C138_order_refuted and C138_gap_refuted. *)
Theorem C138_follow_partial :
  forall V (zero : V) dbg blocks s now n T, accepted dbg blocks s -> in_order blocks -> disjoint blocks -> all_day blocks ->
  wake s now n <= T < wake s now (S n) -> due zero s T = due zero s (wake s now n).
Proof. intros V zero dbg blocks s now n T Ha Ho Hj Hw HT. exact (due_all_day zero dbg blocks s (wake s now n) Ha Ho Hj Hw T HT). Qed.
Print Assumptions C138_follow_partial.
Definition evening : block nat := mkBlock (22 * 3600) (8 * 3600) 7%nat.
Definition daytime : block nat := mkBlock (6 * 3600) (16 * 3600) 1%nat.
Lemma evening_covers t : covers evening t -> covers daytime t -> False.
Proof.
  intros [n Hn] [m Hm]. unfold day, evening, daytime in *. cbn [bstart bduration] in *. assert (n < m \/ n = m \/ n = m + 1 \/ m + 1 < n) as [?|[->|[->|?]]] by lia; lia.
Qed.
Lemma two_blocks (a b : block nat) : (forall t, covers a t -> covers b t -> False) -> disjoint [a; b].
Proof.
  intros H l1 x l2 y l3 t E Hx Hy. destruct l1 as [|c1 l1]; [|destruct l1 as [|c2 [|c3 l1]]; [destruct l2|destruct l2|]; cbn in E; discriminate].
  destruct l2 as [|c2 [|c3 l2]]; cbn in E; [|discriminate|discriminate]. injection E as -> -> _. exact (H t Hx Hy).
Qed.
Lemma both_all_day : all_day [daytime; evening].
Proof.
  intros t Ht. unfold day in Ht. destruct (Z_lt_le_dec t (6 * 3600)); [exists evening; split; [right; left; reflexivity|exists 1; unfold day; cbn [evening bstart bduration]; lia]|].
  destruct (Z_lt_le_dec t (22 * 3600)); [exists daytime; split; [left; reflexivity|exists 0; cbn [daytime bstart bduration]; lia]|].
  exists evening. split; [right; left; reflexivity|exists 0; cbn [evening bstart bduration]; lia].
Qed.
Example C138_case : accepted true [daytime; evening] [daytime; evening] /\ in_order [daytime; evening] /\ disjoint [daytime; evening] /\ all_day [daytime; evening] /\
  map (fun n => (wake [daytime; evening] 7200 n, due 0%nat [daytime; evening] (wake [daytime; evening] 7200 n))) [0; 1; 2; 3; 4]%nat =
  [(7200, 7%nat); (21600, 1%nat); (79200, 7%nat); (86400, 7%nat); (86400 + 21600, 1%nat)].
Proof.
  split. { split; [reflexivity|]. split; [repeat constructor; cbn; lia|left; reflexivity]. }
  split. { intros [|c1 [|c2 l1]] x y l2 E; cbn in E; [injection E as <- <- _; cbn; lia|destruct l2; discriminate|destruct l1; discriminate]. }
  split; [apply two_blocks; intros t A B; exact (evening_covers t B A)|]. split; [exact both_all_day|vm_compute; reflexivity].
Qed.

(** With times without a block: what the client saw is due until the block ends, and from then on nothing. *)
Theorem C138_ends :
  forall V (zero : V) dbg blocks s now n, accepted dbg blocks s -> in_order blocks -> disjoint blocks ->
  exists e, wake s now n <= e <= wake s now (S n) /\ (forall T, wake s now n <= T < e -> due zero s T = due zero s (wake s now n)) /\
    (forall T, e <= T < wake s now (S n) -> Forall (fun b => ~ covers b (clock T)) blocks /\ due zero s T = zero).
Proof. intros V zero dbg blocks s now n Ha Ho Hj. exact (due_between zero dbg blocks s (wake s now n) Ha Ho Hj). Qed.
Print Assumptions C138_ends.
Definition till_two : block nat := mkBlock (22 * 3600) (4 * 3600) 7%nat.
Lemma till_two_covers t : covers daytime t -> covers till_two t -> False.
Proof.
  intros [n Hn] [m Hm]. unfold day, till_two, daytime in *. cbn [bstart bduration] in *. assert (m < n \/ n = m \/ m = n + 1 \/ n + 1 < m) as [?|[->|[->|?]]] by lia; lia.
Qed.
Lemma till_two_accepted : accepted true [daytime; till_two] [daytime; till_two] /\ in_order [daytime; till_two] /\ disjoint [daytime; till_two].
Proof.
  split. { split; [reflexivity|]. split; [repeat constructor; cbn; lia|left; reflexivity]. }
  split; [|exact (two_blocks _ _ till_two_covers)]. intros [|c1 [|c2 l1]] x y l2 E; cbn in E; [injection E as <- <- _; cbn; lia|destruct l2; discriminate|destruct l1; discriminate].
Qed.
Example C138_ends_case : accepted true [daytime; till_two] [daytime; till_two] /\ in_order [daytime; till_two] /\ disjoint [daytime; till_two] /\
  map (wake [daytime; till_two] 0) [0; 1; 2; 3]%nat = [0; 21600; 79200; 86400] /\ map (due 0%nat [daytime; till_two]) [0; 7199; 7200; 21599; 21600] = [7; 7; 0; 0; 1]%nat.
Proof. destruct till_two_accepted as (A & B & C). split; [exact A|]. split; [exact B|]. split; [exact C|]. split; vm_compute; reflexivity. Qed.

(** Whatever the order: the client wakes again and again, always later, and at most once a day for each block besides midnight. *)
Theorem C138_wakes :
  forall V dbg (blocks : list (block V)) s now, accepted dbg blocks s ->
  (forall n, wake s now n < wake s now (S n)) /\ (forall T, now <= T -> exists n, wake s now n <= T < wake s now (S n)) /\
  (forall n k, wake s now n / day = wake s now (n + k)%nat / day -> (k <= length blocks)%nat).
Proof.
  intros V dbg blocks s now Ha. destruct (accepted_proper _ _ _ Ha) as [-> _]. destruct Ha as (_ & HF & _). split; [|split].
  - intros n. apply wake_later. exact HF.
  - intros T. apply wake_reach. exact HF.
  - intros n k. apply wake_count. exact HF.
Qed.
Print Assumptions C138_wakes.
Example C138_wakes_case : accepted true [daytime; evening] [daytime; evening] /\ wake [daytime; evening] 0 0 / day = wake [daytime; evening] 0 2 / day /\ wake [daytime; evening] 0 3 = day.
Proof. split; [exact (proj1 C138_case)|]. vm_compute. auto. Qed.

(** The client does not see that a block ends: at 2:00 nothing is due, but it goes on until 6:00. *)
Theorem C138_gap_refuted : exists blocks s n T, accepted true blocks s /\ in_order blocks /\ disjoint blocks /\ wake s 0 n <= T < wake s 0 (S n) /\ due 0%nat s T <> due 0%nat s (wake s 0 n).
Proof.
  exists [daytime; till_two], [daytime; till_two], 0%nat, 7200. destruct till_two_accepted as (A & B & C). split; [exact A|]. split; [exact B|]. split; [exact C|].
  split; [vm_compute; split; [discriminate|reflexivity]|vm_compute; discriminate].
Qed.
Print Assumptions C138_gap_refuted.
(** Blocks listed in another order: asked at midnight, the schedule says that the next block starts at 22:00. *)
Theorem C138_order_refuted : exists blocks s n T, accepted true blocks s /\ all_day blocks /\ disjoint blocks /\ wake s 0 n <= T < wake s 0 (S n) /\ due 0%nat s T <> due 0%nat s (wake s 0 n).
Proof.
  exists [evening; daytime], [evening; daytime], 0%nat, 21600.
  split. { split; [reflexivity|]. split; [repeat constructor; cbn; lia|left; reflexivity]. }
  split. { intros t Ht. destruct (both_all_day t Ht) as (b & Hb & C). exists b. split; [|exact C]. destruct Hb as [<-|[<-|[]]]; [right; left|left]; reflexivity. }
  split; [exact (two_blocks _ _ evening_covers)|]. split; [vm_compute; split; [discriminate|reflexivity]|vm_compute; discriminate].
Qed.
Print Assumptions C138_order_refuted.
