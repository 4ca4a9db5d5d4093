(** Properties C56, C88 to C91. *)
From Coq Require Import ZArith Bool List Lia.
From Verif Require Import Base KTimeModel PlatModel PlatSpec PlatProofs.
Import ListNotations.
Open Scope Z_scope.

(** C56: neither clock of the mock platform ever goes back, whatever is waited. *)
Theorem C56_monotone : forall ds es, Forall (fun d => 0 <= amount d) es ->
  mock_millis (mock_run ds) <= mock_millis (mock_run (ds ++ es)) /\ mock_micros (mock_run ds) <= mock_micros (mock_run (ds ++ es)).
Proof. exact mock_monotone_run. Qed.
Print Assumptions C56_monotone.
Example C56_monotone_case : mock_millis (mock_run [DelayMs 40000000; DelayUs 1600000]) = 40000002 /\ mock_millis (mock_run ([DelayMs 40000000; DelayUs 1600000] ++ [DelayUs 900000; DelayMs 3])) = 40000005.
Proof. vm_compute. split; reflexivity. Qed.
(** After waits in milliseconds only millis() shows the time waited, after waits in microseconds only micros() does. Missing: the other
    clock, and mixed waits, see below. *)
Lemma c56_own : forall ds, Forall plain_delay ds ->
  (Forall in_ms ds -> mock_millis (mock_run ds) = waited_ms ds) /\ (Forall in_us ds -> mock_micros (mock_run ds) = waited_us ds).
Proof. intros ds P. split; intros M; [now apply mock_ms_only | now apply mock_us_only]. Qed.
Theorem C56_own_clock_partial : forall ds, Forall plain_delay ds ->
  (Forall in_ms ds -> mock_millis (mock_run ds) = waited_ms ds) /\ (Forall in_us ds -> mock_micros (mock_run ds) = waited_us ds).
Proof. exact c56_own. Qed.
Print Assumptions C56_own_clock_partial.
Example C56_own_clock_case : mock_millis (mock_run [DelayMs 16777215; DelayMs 16777215; DelayMs 7]) = 33554437 /\ mock_micros (mock_run [DelayUs 3; DelayUs 16777215]) = 16777218.
Proof. vm_compute. split; reflexivity. Qed.
(** With mixed waits millis() shows only a thousandth of what was waited in microseconds. *)
Theorem C56_mixed : forall ds, Forall plain_delay ds -> waited_us ds < 1677721000 ->
  exists k, mock_millis (mock_run ds) = waited_ms ds + k /\ 2 * Z.abs (1000 * k - Z.quot (waited_us ds) 1000) <= 1000.
Proof. exact mock_millis_exact. Qed.
Print Assumptions C56_mixed.
Example C56_mixed_case : mock_millis (mock_run [DelayMs 5; DelayUs 2000000; DelayUs 1700000]) = 9 /\ waited_us [DelayMs 5; DelayUs 2000000; DelayUs 1700000] = 3700000.
Proof. vm_compute. split; reflexivity. Qed.
(** The clocks do not agree: 1 ms waited is shown as a second by micros(), and 2 s waited in microseconds as 2 ms by millis(). *)
Theorem C56_agree_refuted : exists ds, Forall plain_delay ds /\ mock_millis (mock_run ds) = 1 /\ mock_micros (mock_run ds) = 1000000 /\
  ~ agree (mock_millis (mock_run ds)) (mock_micros (mock_run ds)).
Proof.
  exists [DelayMs 1]. split; [repeat constructor; unfold plain_delay; cbn [amount]; lia |]. repeat split. intros H. vm_compute in H. discriminate H.
Qed.
Print Assumptions C56_agree_refuted.
Theorem C56_micros_lost_refuted : exists ds, Forall plain_delay ds /\ mock_micros (mock_run ds) = 2000000 /\ mock_millis (mock_run ds) = 2.
Proof. exists [DelayUs 2000000]. split; [repeat constructor; unfold plain_delay; cbn [amount]; lia |]. split; reflexivity. Qed.
Print Assumptions C56_micros_lost_refuted.

(** C88: on Zephyr a wait in microseconds falls short of the time asked by less than a millisecond and is exact below a millisecond and
    for whole milliseconds. *)
Theorem C88_delay_partial : forall us, 0 <= us ->
  us - 1000 < zephyr_delay_us us <= us /\ (us < 1000 \/ us mod 1000 = 0 -> zephyr_delay_us us = us).
Proof. exact zephyr_error. Qed.
Print Assumptions C88_delay_partial.
Example C88_delay_case : zephyr_delay_us 999 = 999 /\ zephyr_delay_us 250000 = 250000.
Proof. split; reflexivity. Qed.
Theorem C88_delay_refuted : exists us, us = 1999 /\ zephyr_delay_us us = 1000.
Proof. exists 1999. split; reflexivity. Qed.
Print Assumptions C88_delay_refuted.

(** C89: after any history of calls the pin of a digital output has the level that was asked for, inverted for outputs that are active
    on low, and state() tells it. Missing: the state UNDEFINED, see below. *)
Theorem C89_level_partial : forall low os, Forall defined os ->
  active (drun (new_dout low) os) = of_bool (wanted false os) /\
  (os <> [] -> level (drun (new_dout low) os) = Some (xorb low (wanted false os))).
Proof. exact drun_state. Qed.
Print Assumptions C89_level_partial.
Example C89_level_case : level (drun (new_dout true) [DInit false; DFlip; DFlip; DSet L_ON]) = Some false /\ level (drun (new_dout false) [DBool true; DFlip]) = Some false.
Proof. split; reflexivity. Qed.
(** An output in the state UNDEFINED is driven as off, and flipping it leaves it off. *)
Theorem C89_undefined_refuted : exists os, level (drun (new_dout false) os) = Some false /\ level (drun (new_dout false) (os ++ [DFlip])) = Some false.
Proof. exists [DSet L_UNDEFINED]. split; reflexivity. Qed.
Print Assumptions C89_undefined_refuted.

(** C90: after any sequence of attachments the callback and trigger attached are the ones given last, those of the configuration if
    none were given, and no other interrupt is touched. *)
Theorem C90_attach : forall dbg raw map n gs i t, (raw = true /\ n = ipin i \/ raw = false /\ map (ipin i) = Some n) ->
  exists t', attach_all dbg raw map i t gs = Ok (mkIrq (ipin i) (given (imode i) (List.map tr_of gs)) (given (icallback i) (List.map cb_of gs)), t') /\
    (gs <> [] -> t' n = Some (given (icallback i) (List.map cb_of gs), mode_bits (given (imode i) (List.map tr_of gs)))) /\
    (forall k, k <> n -> t' k = t k).
Proof. exact attach_all_spec. Qed.
Print Assumptions C90_attach.
Example C90_case : exists i t, attach_all true false (fun p => Some (p - 3)%nat) (mkIrq 7 Rising (Some 1%nat)) (fun _ => None) [(Some 5%nat, Undefined); (None, Both)] = Ok (i, t) /\ t 4%nat = Some (Some 5%nat, 1).
Proof. eexists _, _. split; reflexivity. Qed.
(** A pin without interrupt is reported in debug builds. *)
Theorem C90_no_interrupt : forall map i t c m, map (ipin i) = None -> attach true false map i t c m = Halt.
Proof. intros map i t c m H. unfold attach. now rewrite H. Qed.
Print Assumptions C90_no_interrupt.
Example C90_no_interrupt_case : attach true false (fun p => if Nat.eqb p 2 then Some 0%nat else None) (mkIrq 7 Rising (Some 1%nat)) (fun _ => None) None Undefined = Halt.
Proof. reflexivity. Qed.

(** C91: detaching undoes attaching where pins are their own interrupt numbers. Missing: all other boards. *)
Lemma c91 : forall dbg raw map i t gs i' t', raw = true \/ map (ipin i) = Some (ipin i) -> attach_all dbg raw map i t gs = Ok (i', t') ->
  forall k, detach i' t' k = if Nat.eqb k (ipin i) then None else t k.
Proof.
  intros dbg raw map i t gs i' t' H E k. destruct (attach_all_spec dbg raw map (ipin i) gs i t) as (t2 & E2 & _ & B).
  { destruct raw; [now left | right]. destruct H as [H | H]; [discriminate | now split]. }
  rewrite E in E2. injection E2 as -> ->. unfold detach, iset. cbn [ipin]. destruct (Nat.eqb_spec k (ipin i)); [reflexivity | now apply B].
Qed.
Theorem C91_detach_partial : forall dbg raw map i t gs i' t', raw = true \/ map (ipin i) = Some (ipin i) -> attach_all dbg raw map i t gs = Ok (i', t') ->
  forall k, detach i' t' k = if Nat.eqb k (ipin i) then None else t k.
Proof. exact c91. Qed.
Print Assumptions C91_detach_partial.
Example C91_detach_case : exists i t, attach_all true true (fun _ => None) (mkIrq 2 Rising (Some 1%nat)) (fun _ => None) [(None, Undefined)] = Ok (i, t) /\ t 2%nat = Some (Some 1%nat, 3) /\ detach i t 2%nat = None.
Proof. eexists _, _. repeat split. Qed.
(** Elsewhere the callback stays attached, and another pin's interrupt is detached: pin 7 has interrupt 4, pin 12 interrupt 7. *)
Theorem C91_detach_refuted : exists map i t i' t', attach true false map i t None Undefined = Ok (i', t') /\ map (ipin i) = Some 4%nat /\
  detach i' t' 4%nat = Some (Some 1%nat, 3) /\ map 12%nat = Some 7%nat /\ t 7%nat = Some (Some 9%nat, 1) /\ detach i' t' 7%nat = None.
Proof.
  exists (fun p => if Nat.eqb p 7 then Some 4%nat else if Nat.eqb p 12 then Some 7%nat else None), (mkIrq 7 Rising (Some 1%nat)), (fun k => if Nat.eqb k 7 then Some (Some 9%nat, 1) else None).
  eexists _, _. repeat split.
Qed.
Print Assumptions C91_detach_refuted.
