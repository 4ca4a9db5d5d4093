(** Property C141: a schedule asked with the time of day of a DateTime. *)
From Coq Require Import ZArith Lia Bool List.
From Verif Require Import Base KTimeModel SchedModel SchedSpec SchedProps FollowSpec DateModel CalModel DaySpec DayProofs.
Import ListNotations.
Open Scope Z_scope.

(** The value is that of the first block in the list that is running at that moment, 0 if there is none. *)
Theorem C141_value : forall V (zero : V) dbg blocks s u, accepted dbg blocks s -> - 2 ^ 55 <= u <= 2 ^ 55 -> dbg = false \/ UNIX_OFFSET <= u ->
  exists v, asked zero dbg s u = Ok v /\
    (forall l1 b l2, blocks = l1 ++ b :: l2 -> Forall (fun b' => ~ running b' u) l1 -> running b u -> v = bvalue b) /\
    (Forall (fun b => ~ running b u) blocks -> v = zero).
Proof.
  intros V zero dbg blocks s u (A & B & D) H Hd. exists (value_at V zero s (u mod day)). split; [apply asked_ok; assumption|].
  destruct (C34_value_at V zero dbg blocks s (u mod day) A B D (Z.mod_pos_bound u day ltac:(unfold day; lia))) as [E1 E2].
  assert (N : forall l, Forall (fun b => ~ running b u) l -> Forall (fun b : block V => ~ covers b (u mod day)) l).
  { intros l. apply Forall_impl. intros b Hb C. apply Hb. apply running_covers. exact C. }
  split.
  - intros l1 b l2 -> N1 R. apply (E1 l1 b l2 eq_refl (N l1 N1)). apply running_covers. exact R.
  - intros N1. apply E2, N, N1.
Qed.
Print Assumptions C141_value.
(** A light from 22:00 to 06:00 of the next day: at 05:59:59 and 06:00:00 on 1 March 2024 *)
Definition night : list (block nat) := [mkBlock (22 * 3600) (8 * 3600) 7%nat; mkBlock (6 * 3600) (16 * 3600) 1%nat].
Lemma night_accepted : accepted true night night.
Proof. split; [reflexivity|]. split; [repeat constructor; cbn; lia|left; reflexivity]. Qed.
Example C141_value_case : accepted true night night /\ UNIX_OFFSET <= 1709272799 /\ running (nth 0 night (mkBlock 0 0 0%nat)) 1709272799 /\
  asked 0%nat true night 1709272799 = Ok 7%nat /\ asked 0%nat true night 1709272800 = Ok 1%nat.
Proof.
  split; [exact night_accepted|]. split; [unfold UNIX_OFFSET; lia|]. split; [exists 1709244000; split; [exists 19782; reflexivity|cbn; lia]|]. split; vm_compute; reflexivity.
Qed.
(** Every day the same *)
Theorem C141_daily : forall V (zero : V) dbg s u k, - 2 ^ 55 <= u <= 2 ^ 55 -> - 2 ^ 55 <= u + 86400 * k <= 2 ^ 55 ->
  dbg = false \/ (UNIX_OFFSET <= u /\ UNIX_OFFSET <= u + 86400 * k) -> asked zero dbg s (u + 86400 * k) = asked zero dbg s u.
Proof.
  intros V zero dbg s u k H1 H2 Hd. rewrite !asked_ok by (auto; destruct Hd as [->|[? ?]]; auto).
  unfold day. rewrite Z.mul_comm, Z.mod_add by lia. reflexivity.
Qed.
Print Assumptions C141_daily.
Example C141_daily_case : asked 0%nat true night (1709272799 + 86400 * 365) = Ok 7%nat. Proof. vm_compute. reflexivity. Qed.
(** Blocks in order: sleeping for the nap leads to the first start of a block after that moment, or to the midnight before it. *)
Theorem C141_nap : forall V dbg (blocks : list (block V)) s u, accepted dbg blocks s -> in_order blocks -> - 2 ^ 55 <= u <= 2 ^ 55 -> dbg = false \/ UNIX_OFFSET <= u ->
  exists w, nap dbg s u = Ok w /\ 0 < w <= 86400 /\ (forall b u', In b blocks -> begins b u' -> u < u' -> u + w <= u') /\
    ((exists b, In b blocks /\ begins b (u + w)) \/ midnight (u + w)).
Proof.
  intros V dbg blocks s u (A & B & D) Ho H Hd. exists (start_of_next_block V s (u mod day) - u mod day). split; [apply nap_ok; assumption|].
  destruct (C35_next_start_partial V dbg blocks s (u mod day) A B Ho) as (N1 & N2 & N3).
  pose proof (Z.mod_pos_bound u day ltac:(unfold day; lia)) as Hm. pose proof (Z.div_mod u day ltac:(unfold day; lia)) as Dm. unfold day in *.
  set (t := u mod 86400) in *. set (q := u / 86400) in *. set (x := start_of_next_block V s t) in *.
  assert (Bx : forall b, In b blocks -> 0 <= bstart b < 86400) by (apply (proj1 (Forall_forall _ _) B)).
  assert (C : (exists b, In b blocks /\ t < bstart b /\ x = bstart b) \/ (forall b, In b blocks -> bstart b <= t) /\ x = 86400).
  { assert (Dec : (exists b, In b blocks /\ t < bstart b) \/ (forall b, In b blocks -> bstart b <= t)).
    { clear. induction blocks as [|b l IH]; [right; intros b []|]. destruct (Z_lt_le_dec t (bstart b)) as [L|L]; [left; exists b; split; [left; reflexivity|exact L]|].
      destruct IH as [(b' & I & L')|IH]; [left; exists b'; split; [right; exact I|exact L']|]. right. intros b' [<-|I]; [exact L|apply IH; exact I]. }
    destruct Dec as [Dec|Dec]; [left; apply N2; exact Dec|right; split; [exact Dec|apply N3; exact Dec]]. }
  split; [|split].
  - destruct C as [(b & I & L & E)|(_ & E)]; [pose proof (Bx b I)|]; lia.
  - intros b u' I (n & ->) L. pose proof (Bx b I) as Hb. destruct (Z_lt_le_dec q n) as [Q|Q].
    + destruct C as [(b' & I' & L' & E)|(_ & E)]; [pose proof (Bx b' I')|]; lia.
    + assert (n = q) as -> by lia. pose proof (N1 b I ltac:(lia)). lia.
  - destruct C as [(b & I & L & E)|(_ & E)].
    + left. exists b. split; [exact I|]. exists q. lia.
    + right. exists (q + 1). lia.
Qed.
Print Assumptions C141_nap.
Example C141_nap_case : accepted true (rev night) (rev night) /\ in_order (rev night) /\ nap true (rev night) 1709272799 = Ok 1 /\ nap true (rev night) 1709272800 = Ok (16 * 3600) /\ nap true (rev night) (1709272800 + 17 * 3600) = Ok 3600.
Proof.
  split. { split; [reflexivity|]. split; [repeat constructor; cbn; lia|left; reflexivity]. }
  split. { intros l1 b b' l2 E. destruct l1 as [|? [|? [|? ?]]]; cbn in E; inversion E; subst; cbn; lia. }
  split; [|split]; vm_compute; reflexivity.
Qed.
