(** Property C113: a clock that advances while a call reads it. *)
From Coq Require Import ZArith Lia Bool List Permutation.
From Verif Require Import Base KTimeModel TimersModel TimersSpec LatchModel LatchSpec TickModel TickSpec TickProofs.
Import ListNotations.
Open Scope Z_scope.

(** On a clock that stands still during a call, these calls are those of C60 and C37 *)
Theorem C113_still : (forall r t, since_last_at r r t = time_since_last r true t) /\
  (forall F ltb cfg clk n t v l, (forall k, clk (n + k)%nat = t) -> fst (new_reading_at F ltb cfg clk n v l) = new_reading F ltb cfg t v l).
Proof. exact (conj timer_still latch_still). Qed.
Print Assumptions C113_still.
Example C113_still_case : fst (new_reading_at Z Z.ltb (mkConfig Z 30 20 0 0 0 0) (fun _ => 1000) 1 35 (latch_new Z (mkConfig Z 30 20 0 0 0 0) 1000)) = mkLatch true (mkTimer 1000).
Proof. vm_compute. reflexivity. Qed.

(** The times a timer reports add up to the time until the last call, but for what passed within the calls before. Uptimes up to 2^24
    ms. *)
Theorem C113_timer : forall rs s a b, short s -> in_turn s (rs ++ [(a, b)]) -> Forall (fun r => short (fst r) /\ short (snd r)) rs ->
  total (polls_at (timer_new s) (rs ++ [(a, b)])) = a - s - within rs /\ 0 <= within rs.
Proof. exact polls_at_thm. Qed.
Print Assumptions C113_timer.
Example C113_timer_case : in_turn 100 ([(110, 110); (120, 121)] ++ [(130, 130)]) /\ polls_at (timer_new 100) ([(110, 110); (120, 121)] ++ [(130, 130)]) = [10; 10; 9].
Proof. split; [cbn; lia|vm_compute; reflexivity]. Qed.
(** C113 is false of timers: a tick between the difference and the reset is lost, each time. After 1000 calls of 10 ms each a second is
    missing. *)
Theorem C113_timer_refuted : exists rs s a b, short s /\ in_turn s (rs ++ [(a, b)]) /\ total (polls_at (timer_new s) (rs ++ [(a, b)])) < a - s.
Proof. exists [(10, 11); (20, 21)], 0, 30, 30. split; [unfold short; lia|]. split; [cbn; lia|]. vm_compute. reflexivity. Qed.
Theorem C113_timer_lost_refuted : exists rs s a b, in_turn s (rs ++ [(a, b)]) /\ Z.of_nat (length rs) = 1000 /\
  total (polls_at (timer_new s) (rs ++ [(a, b)])) = a - s - 1000.
Proof.
  exists (map (fun n => (10 * Z.of_nat n + 10, 10 * Z.of_nat n + 11)) (seq 0 1000)), 0, 10010, 10010.
  assert (T : forall k n t, t <= 10 * Z.of_nat n + 10 -> in_turn t (map (fun n => (10 * Z.of_nat n + 10, 10 * Z.of_nat n + 11)) (seq n k) ++ [(10 * Z.of_nat (n + k) + 10, 10 * Z.of_nat (n + k) + 10)])).
  { induction k as [|k IH]; intros n t Ht; cbn [seq map app in_turn].
    - rewrite Nat.add_0_r. split; [exact Ht|]. split; [lia|exact I].
    - split; [exact Ht|]. split; [lia|]. replace (n + S k)%nat with (S n + k)%nat by lia. apply IH. lia. }
  split; [apply (T 1000%nat 0%nat); lia|]. split; [rewrite map_length, seq_length; reflexivity|]. vm_compute. reflexivity.
Qed.

(** A latch keeps its minimal times from the end of the call that switched it to the start of the call that switches it back *)
Theorem C113_latch_partial : forall F ltb cfg clk, steady clk -> sane F cfg -> 0 <= clk 0%nat -> forall pre v1 mid v2,
  let out vs := response (fst (latch_at F ltb cfg clk vs)) in
  let reads vs := snd (latch_at F ltb cfg clk vs) in
  clk (reads (pre ++ [v1]) - 1)%nat <= 2 ^ 24 ->
  out (pre ++ [v1]) <> out pre -> out (pre ++ v1 :: mid ++ [v2]) <> out (pre ++ v1 :: mid) ->
  (if out (pre ++ v1 :: mid) then min_on F cfg else min_off F cfg) <= clk (reads (pre ++ v1 :: mid)) - clk (reads (pre ++ [v1]) - 1)%nat.
Proof. exact latch_gap_exact. Qed.
Print Assumptions C113_latch_partial.
(** At any uptime, up to the 2^24th part of that time and of the clock *)
Theorem C113_latch_any_partial : forall F ltb cfg clk, steady clk -> nonneg F cfg -> 0 <= clk 0%nat -> forall pre v1 mid v2,
  let out vs := response (fst (latch_at F ltb cfg clk vs)) in
  let reads vs := snd (latch_at F ltb cfg clk vs) in
  let least := if out (pre ++ v1 :: mid) then min_on F cfg else min_off F cfg in
  out (pre ++ [v1]) <> out pre -> out (pre ++ v1 :: mid ++ [v2]) <> out (pre ++ v1 :: mid) ->
  2 ^ 24 * (least - (clk (reads (pre ++ v1 :: mid)) - clk (reads (pre ++ [v1]) - 1)%nat)) <= least + clk (reads (pre ++ [v1]) - 1)%nat.
Proof. exact latch_gap_any. Qed.
Print Assumptions C113_latch_any_partial.
(** Switched on during a call that lasts from 1000 to 1003, it does not go off at 1102 but at 1103 *)
Definition heater : config Z := mkConfig Z 30 20 100 500 0 0.
Definition reads_of (l : list Z) (k : nat) : Z := nth k l (last l 0).
Example C113_latch_case : sane Z heater /\ let clk := reads_of [1000; 1000; 1003; 1102; 1103; 1104; 1105] in
  let out vs := response (fst (latch_at Z Z.ltb heater clk vs)) in
  out [] = false /\ out [35] = true /\ out [35; 10] = true /\ out [35; 10; 10] = false /\ snd (latch_at Z Z.ltb heater clk [35]) = 3%nat /\
  snd (latch_at Z Z.ltb heater clk [35; 10]) = 4%nat.
Proof. split; [unfold sane, heater; cbn; lia|]. vm_compute. repeat split. Qed.

(** Pending events are out of order by at most [d], the longest a push() takes, when a comparison reads the clock for the new event
    first; when it reads it for the other event first, by at most [d] more for every push. Up to 4.6 hours of uptime. *)
Theorem C113_order_partial : forall A (own_first : bool) d os, 0 <= d -> Forall (brief d) os ->
  ordered_within (if own_first then d else d + pushes os * d) (pipe_run A own_first os) /\ Forall (fun o => 0 <= fst o <= 2 ^ 24) (pipe_run A own_first os).
Proof. exact pipe_order. Qed.
Print Assumptions C113_order_partial.
(** So no event is kept back by more than that by one which is not due yet *)
Theorem C113_first_partial : forall A (own_first : bool) d os x l, 0 <= d -> Forall (brief d) os -> pipe_run A own_first os = x :: l ->
  forall t y, In y l -> t < fst x -> t - (if own_first then d else d + pushes os * d) < fst y.
Proof. exact pipe_first. Qed.
Print Assumptions C113_first_partial.
(** and none is lost, whatever the clock does *)
Theorem C113_kept : forall A own_first clk d a (p : list (Z * A)), Permutation (push_at A own_first clk d a p) ((kadd MS MS (clk 0%nat) d, a) :: p).
Proof. exact push_perm. Qed.
Print Assumptions C113_kept.

Definition still : nat -> Z := fun _ => 0.
Definition late : nat -> Z := reads_of [0; 0; 1].
Lemma brief_still n d (H : 0 <= n <= 1000) (Hd : 0 <= d) : brief d (PPush nat still n 0%nat).
Proof. unfold brief, steady, still. repeat split; lia. Qed.
Lemma late_bounds k : late k = (if (k <=? 1)%nat then 0 else 1).
Proof. destruct k as [|[|[|k]]]; try reflexivity. unfold late, reads_of. destruct k; reflexivity. Qed.
Lemma brief_late n d (H : 0 <= n <= 1000) (Hd : 1 <= d) : brief d (PPush nat late n 0%nat).
Proof.
  unfold brief, steady. setoid_rewrite late_bounds. split; [|split; [|split; [|split]]]; try (cbn; lia).
  - intros i j Hij. destruct (Nat.leb_spec i 1), (Nat.leb_spec j 1); lia.
  - intros k. destruct (Nat.leb_spec k 1); cbn; lia.
Qed.
Example C113_order_case : Forall (brief 1) [PPush nat still 100 0%nat; PPush nat late 98 0%nat; PPush nat late 200 0%nat] /\
  map fst (pipe_run nat true [PPush nat still 100 0%nat; PPush nat late 98 0%nat; PPush nat late 200 0%nat]) = [98; 100; 200].
Proof. split; [constructor; [apply brief_still; lia|]; repeat (constructor; [apply brief_late; lia|]); constructor|]. vm_compute. reflexivity. Qed.
(** C113 is false of events: a tick within push() puts an event behind one that is due later *)
Theorem C113_order_refuted : exists d os, d = 1 /\ Forall (brief d) os /\ map fst (pipe_run nat true os) = [100; 99].
Proof.
  exists 1, [PPush nat still 100 0%nat; PPush nat late 99 0%nat]. split; [reflexivity|].
  split; [constructor; [apply brief_still; lia|]; constructor; [apply brief_late; lia|]; constructor|]. vm_compute. reflexivity.
Qed.
(** and with the other order of evaluation such errors add up: each of these pushes takes 2 ms, and the first event in the pipeline is
    due 4 ms after the last *)
Definition hop : nat -> Z := reads_of [0; 0; 2].
Lemma hop_bounds k : hop k = (if (k <=? 1)%nat then 0 else 2).
Proof. destruct k as [|[|[|k]]]; try reflexivity. unfold hop, reads_of. destruct k; reflexivity. Qed.
Lemma brief_hop n d (H : 0 <= n <= 1000) (Hd : 2 <= d) : brief d (PPush nat hop n 0%nat).
Proof.
  unfold brief, steady. setoid_rewrite hop_bounds. split; [|split; [|split; [|split]]]; try (cbn; lia).
  - intros i j Hij. destruct (Nat.leb_spec i 1), (Nat.leb_spec j 1); lia.
  - intros k. destruct (Nat.leb_spec k 1); cbn; lia.
Qed.
Theorem C113_drift_refuted : exists d os, d = 2 /\ Forall (brief d) os /\ map fst (pipe_run nat false os) = [104; 103; 102; 101; 100].
Proof.
  exists 2, [PPush nat still 100 0%nat; PPush nat hop 101 0%nat; PPush nat hop 102 0%nat; PPush nat hop 103 0%nat; PPush nat hop 104 0%nat].
  split; [reflexivity|]. split; [constructor; [apply brief_still; lia|]; repeat (constructor; [apply brief_hop; lia|]); constructor|]. vm_compute. reflexivity.
Qed.
