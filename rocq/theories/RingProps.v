(** Properties C01-C05: structure/ringbuffer.hpp. *)
From Coq Require Import List Arith ZArith Bool.
From Verif Require Import Base RingOps RingModel RingSpec RingProofs.
Import ListNotations.

(** C01. Any history of calls (drops ask for at least one element) gives the results of a bounded FIFO queue. *)
Theorem C01_ring_is_bounded_fifo :
  forall (A : Type) (W : Z) (dbg : bool) (cap : nat) (init : A) (ops : list (rop A)) (r0 : ring A),
  1 <= cap -> ring_new dbg cap init = Ok r0 -> Forall no_zero_drop ops ->
  exists r, ring_run W r0 ops = Ok (fst (fifo_run cap [] ops), r) /\
            holds r (snd (fifo_run cap [] ops)).
Proof. exact @fifo_history. Qed.
Print Assumptions C01_ring_is_bounded_fifo.

Definition demo_ops : list (rop nat) :=
  [OpPushN [1;2;3] false; OpPop; OpPush 4 false; OpPush 5 false; OpPush 6 true; OpPeek 1; OpPeekPtr 2; OpDropLast 1;
   OpDropFirst 1; OpUsed; OpFree; OpPopN 2; OpPopN 1; OpPop; OpEmpty; OpPushN [7;8;9;10] true; OpFull; OpClear; OpCapacity].

Example C01_case : Forall no_zero_drop demo_ops /\
  exists r0 r, ring_new true 3 0 = Ok r0 /\ ring_run 64 r0 demo_ops = Ok (
   [RNat 3; RVal (Some 1); RBool true; RBool false; RBool true; RVal (Some 4); RVal (Some 6); RNat 1;
    RNat 1; RNat 1; RNat 2; RVals []; RVals [Some 4]; RVal None; RBool true; RNat 4; RBool true; RUnit; RNat 3], r).
Proof.
  split; [repeat constructor|]. demo.
Qed.

(** C02. Rolling over keeps the newest [cap] elements, from any reachable state (zero drops included in the history). *)
Theorem C02_rollover_keeps_newest :
  forall (A : Type) (W : Z) (dbg : bool) (cap : nat) (init : A) (ops : list (rop A)) r0 xs r (l : list A),
  1 <= cap -> ring_new dbg cap init = Ok r0 -> ring_run W r0 ops = Ok (xs, r) ->
  exists q r', holds r q /\ push_n W r l true = Ok (length l, r') /\ holds r' (lastn cap (q ++ l)).
Proof. exact @rollover_history. Qed.
Print Assumptions C02_rollover_keeps_newest.

Example C02_case : exists r0 xs r r', ring_new true 3 0 = Ok r0 /\
  ring_run 64 r0 [OpPushN [1;2;3] false; OpPop; OpPush 4 false] = Ok (xs, r) /\
  push_n 64 r [5;6;7;8;9;10;11] true = Ok (7, r') /\ holds r' [9;10;11].
Proof. demo. Qed.

(** C03. Every history of calls succeeds (no access outside the storage) and leaves consistent accounting. *)
Theorem C03_ring_accounting :
  forall (A : Type) (W : Z) (dbg : bool) (cap : nat) (init : A) (ops : list (rop A)) r0,
  1 <= cap -> ring_new dbg cap init = Ok r0 ->
  exists xs r q, ring_run W r0 ops = Ok (xs, r) /\ holds r q /\
    capacity r = cap /\ used_space r = length q /\ used_space r + free_space r = cap /\
    (empty r = true <-> q = []) /\ (full r = true <-> length q = cap).
Proof. exact @accounting_history. Qed.
Print Assumptions C03_ring_accounting.

Example C03_case : exists r0 xs r, ring_new false 2 0 = Ok r0 /\
  ring_run 64 r0 [OpPushN [1;2;3] true; OpDropLast 0; OpPush 4 false; OpDropFirst 0; OpPush 5 true] = Ok (xs, r) /\
  holds r [4;5] /\ full r = true.
Proof. demo. Qed.

(** C04, the part that holds: without drops and with room for two elements the counter counts the overwritten elements.
    Missing: capacity 1 and histories with drop_last / drop_first, see the refutations. *)
Theorem C04_overrun_counts_partial :
  forall (A : Type) (W : Z) (dbg : bool) (cap : nat) (init : A) (ops : list (rop A)) r0,
  2 <= cap -> ring_new dbg cap init = Ok r0 -> Forall push_or_pop ops ->
  (Z.of_nat (total_offered ops) < 2 ^ W)%Z ->
  exists xs r, ring_run W r0 ops = Ok (xs, r) /\
               overrun_space r = Z.of_nat (overrun_run cap [] 0 ops).
Proof. exact @overrun_history. Qed.
Print Assumptions C04_overrun_counts_partial.

Example C04_case : exists r0 xs r, ring_new false 2 0 = Ok r0 /\
  ring_run 64 r0 [OpPushN [1;2;3] true; OpPop; OpPush 4 true; OpPushN [5;6] true] = Ok (xs, r) /\
  overrun_space r = 2%Z /\
  overrun_run 2 [] 0 [OpPushN [1;2;3] true; OpPop; OpPush 4 true; OpPushN [5;6] true] = 2.
Proof. demo. Qed.

(** C04 is false for capacity 1: two elements are overwritten, none is counted. *)
Theorem C04_overrun_capacity1_refuted :
  exists r0 xs r, ring_new true 1 0 = Ok r0 /\
    ring_run 64 r0 [OpPush 1 true; OpPush 2 true; OpPush 3 true] = Ok (xs, r) /\
    holds r [3] /\
    overrun_run 1 [] 0 [OpPush 1 true; OpPush 2 true; OpPush 3 true] = 2 /\ overrun_space r = 0%Z.
Proof. demo. Qed.
Print Assumptions C04_overrun_capacity1_refuted.

(** C04 is false with drop_last: nothing was ever overwritten, yet the counter reads 2^64 - 1. *)
Theorem C04_overrun_drop_last_refuted :
  exists r0 xs r, ring_new true 4 0 = Ok r0 /\
    ring_run 64 r0 [OpPush 1 false; OpPush 2 false; OpDropLast 1] = Ok (xs, r) /\
    holds r [1] /\ overrun_space r = (2 ^ 64 - 1)%Z.
Proof. demo. Qed.
Print Assumptions C04_overrun_drop_last_refuted.

(** C05. What the calls really do when the count is left at 0: they always report 0; a buffer that is not full is left
    alone, a full buffer loses everything. *)
Theorem C05_zero_drop_exact :
  forall (A : Type) (W : Z) (dbg : bool) (cap : nat) (init : A) (ops : list (rop A)) r0 xs r,
  1 <= cap -> ring_new dbg cap init = Ok r0 -> ring_run W r0 ops = Ok (xs, r) ->
  exists q r1 r2, holds r q /\ drop_last W r 0 = Ok (0, r1) /\ drop_first W r 0 = Ok (0, r2) /\
    holds r1 (if length q =? cap then [] else q) /\ holds r2 (if length q =? cap then [] else q).
Proof. exact @zero_drop_history. Qed.
Print Assumptions C05_zero_drop_exact.
Example C05_exact_case : exists r0 xs r r1, ring_new true 2 0 = Ok r0 /\ ring_run 64 r0 [OpPush 1 false; OpPush 2 false; OpPop; OpPush 3 false] = Ok (xs, r) /\
  holds r [2; 3] /\ drop_last 64 r 0 = Ok (0, r1) /\ holds r1 [].
Proof. demo. Qed.

(** C05 as documented ("or all if left at 0. Returns amount of dropped elements") is false: on a buffer with one of two
    cells used nothing is dropped; on a full buffer everything is dropped but 0 is reported. *)
Theorem C05_drop_all_default_refuted :
  exists r0 xs r r1 xs' r' r1',
    ring_new true 2 0 = Ok r0 /\
    ring_run 64 r0 [OpPush 1 false] = Ok (xs, r) /\ drop_last 64 r 0 = Ok (0, r1) /\ holds r1 [1] /\
    ring_run 64 r0 [OpPush 1 false; OpPush 2 false] = Ok (xs', r') /\ drop_first 64 r' 0 = Ok (0, r1') /\ holds r1' [].
Proof. demo. Qed.
Print Assumptions C05_drop_all_default_refuted.
