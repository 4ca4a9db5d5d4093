(** Lemmas for property C138. *)
From Coq Require Import ZArith Lia Bool List.
From Verif Require Import Base KTimeModel KTimeProofs SchedModel SchedSpec SchedProofs FollowSpec.
Import ListNotations.
Open Scope Z_scope.

Section Proofs.
Context {V : Type}.
Variable zero : V.
Implicit Types (b : block V) (l blocks s : list (block V)).

Lemma new_same dbg blocks s : sched_new V dbg blocks = Ok s -> s = blocks.
Proof.
  intros H. unfold sched_new in H. destruct (sched_total V dbg 0 blocks); cbn [bind] in H; try discriminate.
  destruct (sassert dbg (kle SEC HOUR a 24)); cbn [bind] in H; try discriminate. congruence.
Qed.
Lemma accepted_proper dbg blocks s : accepted dbg blocks s -> s = blocks /\ Forall proper blocks.
Proof.
  intros (H & Hs & Hd). pose proof (new_same _ _ _ H) as ->. split; [reflexivity|]. destruct Hd as [->|Hd]; [apply new_proper; assumption|].
  rewrite Forall_forall in *. intros b Hb. split; auto.
Qed.
Lemma proper_small l : Forall proper l -> Forall (fun b => Z.abs (bstart b) <= 2 ^ 24) l.
Proof. apply Forall_impl. intros b [H _]. unfold day in H. lia. Qed.
Lemma starts_small l : Forall (fun b => 0 <= bstart b < day) l -> Forall (fun b => Z.abs (bstart b) <= 2 ^ 24) l.
Proof. apply Forall_impl. intros b H. unfold day in H. lia. Qed.

(** The next start is a start, or midnight, and later. *)
Lemma next_in l t : Forall (fun b => 0 <= bstart b < day) l -> 0 <= t < day ->
  t < start_of_next_block V l t <= day /\ (start_of_next_block V l t = day \/ In (start_of_next_block V l t) (map bstart l)).
Proof.
  intros HF Ht. induction HF as [|b l Hb HF IH]; cbn [start_of_next_block].
  - change (kconv SEC HOUR 24) with (from_other HOUR SEC 24). rewrite day_hours. split; [lia|left; reflexivity].
  - unfold klt. rewrite from_other_same, near_le by (unfold day in *; lia). destruct (Z.ltb_spec t (bstart b)).
    + split; [lia|right; left; reflexivity].
    + destruct IH as [A [B|B]]; (split; [exact A|]); [left; exact B|right; right; exact B].
Qed.
Lemma clock_range now : 0 <= clock now < day.
Proof. unfold clock. apply Z.mod_pos_bound. unfold day. lia. Qed.
Lemma clock_eq now : now = day * (now / day) + clock now.
Proof. unfold clock. apply Z.div_mod. unfold day. lia. Qed.
Lemma clock_day d t : 0 <= t < day -> clock (day * d + t) = t.
Proof. intros H. unfold clock. rewrite Z.add_comm, Z.mul_comm, Z.mod_add by (unfold day; lia). apply Z.mod_small. exact H. Qed.

Section Starts.
Variable l : list (block V).
Hypothesis HF : Forall (fun b => 0 <= bstart b < day) l.
Lemma sleep_later now : now < sleep l now <= now - clock now + day.
Proof. destruct (next_in l (clock now) HF (clock_range now)) as [A _]. unfold sleep. lia. Qed.
Lemma wake_later now n : wake l now n < wake l now (S n).
Proof. cbn [wake]. apply sleep_later. Qed.
Lemma wake_ge now n : now + Z.of_nat n <= wake l now n.
Proof. induction n as [|n IH]; [cbn [wake]; lia|]. pose proof (wake_later now n). lia. Qed.
Lemma wake_mono now n m : (n <= m)%nat -> wake l now n <= wake l now m.
Proof. induction 1 as [|m _ IH]; [lia|]. pose proof (wake_later now m). lia. Qed.
Lemma wake_reach now T : now <= T -> exists n, wake l now n <= T < wake l now (S n).
Proof.
  intros H. assert (A : forall k, T < wake l now k -> exists n, wake l now n <= T < wake l now (S n)).
  { induction k as [|k IH]; intros Hk; [cbn [wake] in Hk; lia|]. destruct (Z_lt_le_dec T (wake l now k)); [auto|exists k; lia]. }
  apply (A (Z.to_nat (T - now + 1))). pose proof (wake_ge now (Z.to_nat (T - now + 1))). lia.
Qed.
(** Within one day every waking but the first is at the start of a block. *)
Lemma sleep_same now d : now / day = d -> sleep l now / day = d -> In (sleep l now - day * d) (map bstart l).
Proof.
  intros E1 E2. destruct (next_in l (clock now) HF (clock_range now)) as [A [B|B]]; pose proof (clock_eq now) as C; rewrite E1 in C.
  - unfold sleep in E2. rewrite B in E2. replace (now - clock now + day) with ((d + 1) * day) in E2 by lia. rewrite Z.div_mul in E2 by (unfold day; lia). lia.
  - unfold sleep. replace (now - clock now + start_of_next_block V l (clock now) - day * d) with (start_of_next_block V l (clock now)) by lia. exact B.
Qed.
Lemma day_between x y z : x <= y <= z -> x / day = z / day -> y / day = x / day.
Proof. intros H E. assert (x / day <= y / day <= z / day) by (split; apply Z.div_le_mono; unfold day; lia). lia. Qed.
Lemma wake_count now n k : wake l now n / day = wake l now (n + k)%nat / day -> (k <= length l)%nat.
Proof.
  intros E. set (d := wake l now n / day) in *.
  assert (Hin : forall j, (j <= k)%nat -> wake l now (n + j)%nat / day = d). { intros j Hj. apply (day_between (wake l now n) _ (wake l now (n + k)%nat)); [split; apply wake_mono; lia|exact E]. }
  set (ws := map (fun j => wake l now (n + S j)%nat - day * d) (seq 0 k)).
  assert (I : incl ws (map bstart l)).
  { intros w Hw. apply in_map_iff in Hw. destruct Hw as (j & <- & Hj). apply in_seq in Hj. rewrite Nat.add_succ_r. cbn [wake]. apply sleep_same; [apply Hin; lia|].
    change (sleep l (wake l now (n + j)%nat)) with (wake l now (S (n + j))). rewrite <- Nat.add_succ_r. apply Hin. lia. }
  assert (N : NoDup ws).
  { unfold ws. clear -HF. generalize 0%nat. induction k as [|k IH]; intros i; cbn [seq map]; constructor; [|apply IH].
    intros Hin. apply in_map_iff in Hin. destruct Hin as (j & Ej & Hj). apply in_seq in Hj. pose proof (wake_later now (n + S i)) as L. pose proof (wake_mono now (S (n + S i)) (n + S j)). lia. }
  pose proof (NoDup_incl_length N I) as L. unfold ws in L. rewrite !map_length, seq_length in L. exact L.
Qed.
End Starts.

(** Until the next start no block begins to cover the time. *)
Section Between.
Variable l : list (block V).
Hypothesis HP : Forall proper l.
Hypothesis Ho : in_order l.
Lemma shrink t t' b : 0 <= t -> t <= t' -> t' < start_of_next_block V l t -> t' < day -> In b l -> covers b t' -> covers b t.
Proof.
  intros H0 Ht Hn Hd Hb [n Hc]. pose proof (proj1 (Forall_forall _ _) HP b Hb) as [Hs Hl].
  destruct (next_sorted l t (proper_small l HP) Ho) as (A & _ & _). unfold day in *.
  assert (n < 0 \/ n = 0 \/ n = 1 \/ 1 < n) as [?|[->|[->|?]]] by lia; [nia| |exists 1; unfold day; lia|nia].
  exists 0. unfold day. destruct (Z_lt_le_dec t (bstart b)) as [L|L]; [specialize (A b Hb L); lia|lia].
Qed.
Lemma next_day t : 0 <= t < day -> start_of_next_block V l t <= day.
Proof. intros H. apply next_in; [|exact H]. eapply Forall_impl; [|exact HP]. intros b [A _]. exact A. Qed.
Lemma first_or_none t : (exists l1 b l2, l = l1 ++ b :: l2 /\ Forall (fun b' => ~ covers b' t) l1 /\ covers b t) \/ Forall (fun b => ~ covers b t) l.
Proof.
  clear Ho HP. induction l as [|b l' IH]; [right; constructor|].
  assert (D : covers b t \/ ~ covers b t). { destruct (Z.le_gt_cases (bduration b) 0) as [H|H]; [right; intros [n Hn]; lia|].
    (* the least n with bstart b <= t + n * day *)
    set (n := - ((t - bstart b) / day)). assert (E : (t - bstart b) mod day = t + n * day - bstart b) by (unfold n; rewrite Z.mod_eq by (unfold day; lia); lia).
    pose proof (Z.mod_pos_bound (t - bstart b) day ltac:(unfold day; lia)) as B.
    destruct (Z_lt_le_dec (t + n * day) (bstart b + bduration b)); [left; exists n; lia|right; intros [m Hm]]. unfold day in *. assert (m < n \/ n <= m) as [?|?] by lia; nia. }
  destruct D as [D|D]; [left; exists [], b, l'; auto|]. destruct IH as [(l1 & b' & l2 & -> & A & B)|A]; [left; exists (b :: l1), b', l2; auto|right; constructor; assumption].
Qed.
Lemma between t : disjoint l -> 0 <= t < day -> exists e, t <= e <= start_of_next_block V l t /\
  (forall t', t <= t' < e -> value_at V zero l t' = value_at V zero l t) /\
  (forall t', e <= t' < start_of_next_block V l t -> Forall (fun b => ~ covers b t') l /\ value_at V zero l t' = zero).
Proof.
  intros Hj Ht. pose proof (next_day t Ht) as Hn. assert (Hf : Forall (fun b => 0 <= bstart b < day) l) by (eapply Forall_impl; [|exact HP]; intros b [A _]; exact A).
  destruct (next_in l t Hf Ht) as [Hl _]. set (N := start_of_next_block V l t) in *.
  destruct (first_or_none t) as [(l1 & b & l2 & E & A & B)|A].
  - assert (Hb : In b l) by (rewrite E; apply in_elt). pose proof (proj1 (Forall_forall _ _) HP b Hb) as [Hs Hd].
    set (f := if Z_lt_le_dec t (bstart b) then bstart b + bduration b - day else bstart b + bduration b).
    assert (Hf1 : forall t', t <= t' < N -> covers b t' <-> t' < f).
    { intros t' H'. destruct B as [m Hm]. unfold f, covers, day in *. destruct (Z_lt_le_dec t (bstart b)) as [L|L].
      - destruct (next_sorted l t (proper_small l HP) Ho) as (S1 & _ & _). specialize (S1 b Hb L). fold N in S1. split; [intros [k Hk]|intros H; exists 1; lia].
        assert (k <= 0 \/ k = 1 \/ 1 < k) as [?|[->|?]] by lia; [nia|lia|nia].
      - split; [intros [k Hk]|intros H; exists 0; lia]. assert (k < 0 \/ k = 0 \/ k = 1 \/ 1 < k) as [?|[->|[->|?]]] by lia; [nia|lia|nia|nia]. }
    assert (Hf2 : t < f) by (apply (Hf1 t); [lia|exact B]).
    exists (Z.min f N). split; [lia|]. split.
    + intros t' H'. destruct (value_at_spec zero l t Ht HP) as [V1 _]. rewrite (V1 l1 b l2 E A B).
      destruct (value_at_spec zero l t' ltac:(lia) HP) as [V2 _]. apply (V2 l1 b l2 E); [|apply Hf1; lia].
      apply Forall_forall. intros b' Hb' C. apply (proj1 (Forall_forall _ _) A b' Hb'). apply (shrink t t'); try lia; [rewrite E; apply in_or_app; left; exact Hb'|exact C].
    + intros t' H'. assert (Hno : Forall (fun b0 => ~ covers b0 t') l).
      { apply Forall_forall. intros b' Hb' C. assert (Cb : ~ covers b t') by (rewrite Hf1 by lia; lia).
        assert (Ct : covers b' t) by (apply (shrink t t'); try lia; assumption).
        rewrite E in Hb'. apply in_app_or in Hb'. destruct Hb' as [Hb'|[->|Hb']].
        - apply (proj1 (Forall_forall _ _) A b' Hb'). exact Ct.
        - exact (Cb C).
        - apply in_split in Hb'. destruct Hb' as (m1 & m2 & ->). exact (Hj l1 b m1 b' m2 t E B Ct). }
      split; [exact Hno|]. destruct (value_at_spec zero l t' ltac:(lia) HP) as [_ V2]. apply V2. exact Hno.
  - exists t. split; [lia|]. split; [intros; lia|]. intros t' H'. assert (Hno : Forall (fun b0 => ~ covers b0 t') l).
    { apply Forall_forall. intros b' Hb' C. apply (proj1 (Forall_forall _ _) A b' Hb'). apply (shrink t t'); try lia; assumption. }
    split; [exact Hno|]. destruct (value_at_spec zero l t' ltac:(lia) HP) as [_ V2]. apply V2. exact Hno.
Qed.
End Between.

Lemma due_between dbg blocks s now : accepted dbg blocks s -> in_order blocks -> disjoint blocks ->
  exists e, now <= e <= sleep s now /\
  (forall T, now <= T < e -> due zero s T = due zero s now) /\ (forall T, e <= T < sleep s now -> Forall (fun b => ~ covers b (clock T)) blocks /\ due zero s T = zero).
Proof.
  intros Ha Ho Hj. destruct (accepted_proper _ _ _ Ha) as [-> HP]. pose proof (clock_range now) as Hc.
  destruct (between blocks HP Ho (clock now) Hj Hc) as (e & He & A & B). pose proof (next_day blocks HP (clock now) Hc) as Hn. pose proof (clock_eq now) as E.
  assert (C : forall T, now <= T < sleep blocks now -> clock T = T - now + clock now).
  { intros T HT. unfold sleep in HT. replace T with (day * (now / day) + (T - now + clock now)) at 1 by lia. apply clock_day. lia. }
  exists (now - clock now + e). unfold sleep in *. split; [lia|]. split.
  - intros T HT. unfold due. rewrite (C T) by lia. apply A. lia.
  - intros T HT. unfold due. rewrite (C T) by lia. apply B. lia.
Qed.
Lemma due_all_day dbg blocks s now : accepted dbg blocks s -> in_order blocks -> disjoint blocks -> all_day blocks ->
  forall T, now <= T < sleep s now -> due zero s T = due zero s now.
Proof.
  intros Ha Ho Hj Hw T HT. destruct (due_between _ _ _ now Ha Ho Hj) as (e & He & A & B). destruct (Z_lt_le_dec T e); [apply A; lia|].
  destruct (B T ltac:(lia)) as [N _]. destruct (Hw (clock T) (clock_range T)) as (b & Hb & C). exfalso. exact (proj1 (Forall_forall _ _) N b Hb C).
Qed.
End Proofs.
