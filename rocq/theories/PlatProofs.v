(** Lemmas on the platforms. *)
From Coq Require Import ZArith Bool List Lia.
From Verif Require Import Base KTimeModel KTimeSpec KTimeProofs KTimeConv KTimeFlocq PlatModel PlatSpec.
Import ListNotations.
Open Scope Z_scope.

Lemma mock_run_snoc ds d : mock_run (ds ++ [d]) = mock_delay (mock_run ds) d.
Proof. unfold mock_run. now rewrite fold_left_app. Qed.
Lemma waited_ms_snoc ds d : waited_ms (ds ++ [d]) = waited_ms ds + match d with DelayMs n => n | _ => 0 end.
Proof. induction ds as [| [n | n] ds IH]; cbn [app waited_ms]; [destruct d; cbn [waited_ms]; lia | lia | lia]. Qed.
Lemma waited_us_snoc ds d : waited_us (ds ++ [d]) = waited_us ds + match d with DelayUs n => n | _ => 0 end.
Proof. induction ds as [| [n | n] ds IH]; cbn [app waited_us]; [destruct d; cbn [waited_us]; lia | lia | lia]. Qed.

Lemma mock_counts ds : Forall plain_delay ds -> m_ms (mock_run ds) = waited_ms ds /\ m_us (mock_run ds) = waited_us ds.
Proof.
  induction ds as [| d ds IH] using rev_ind; intros F; [split; reflexivity |].
  apply Forall_app in F as [F D]. inversion D as [| ? ? P _]; subst. destruct (IH F) as [A B]. rewrite mock_run_snoc, waited_ms_snoc, waited_us_snoc.
  unfold plain_delay in P. destruct d as [n | n]; cbn [mock_delay m_ms m_us amount] in *; unfold kadd; rewrite from_other_same, near24_id by lia; lia.
Qed.
Lemma from_other_0 o t : from_other o t 0 = 0.
Proof. destruct o, t; reflexivity. Qed.
Lemma only_ms ds : Forall in_ms ds -> waited_us ds = 0.
Proof. induction ds as [| [n | n] ds IH]; intros F; inversion F; subst; cbn [waited_us]; auto; contradiction. Qed.
Lemma only_us ds : Forall in_us ds -> waited_ms ds = 0.
Proof. induction ds as [| [n | n] ds IH]; intros F; inversion F; subst; cbn [waited_ms]; auto; contradiction. Qed.
Lemma mock_ms_only ds : Forall plain_delay ds -> Forall in_ms ds -> mock_millis (mock_run ds) = waited_ms ds.
Proof.
  intros P M. destruct (mock_counts ds P) as [A B]. unfold mock_millis, kadd. rewrite A, B, (only_ms ds M). change (Z.quot 0 1000) with 0. rewrite from_other_0. lia.
Qed.
Lemma mock_us_only ds : Forall plain_delay ds -> Forall in_us ds -> mock_micros (mock_run ds) = waited_us ds.
Proof.
  intros P M. destruct (mock_counts ds P) as [A B]. unfold mock_micros, kadd, kscale. rewrite A, B, (only_us ds M). rewrite from_other_0. lia.
Qed.
Lemma mock_monotone m d : 0 <= amount d -> mock_millis m <= mock_millis (mock_delay m d) /\ mock_micros m <= mock_micros (mock_delay m d).
Proof.
  intros D. unfold mock_millis, mock_micros, kadd, kscale. destruct d as [n | n]; cbn [mock_delay m_ms m_us amount] in *; unfold kadd; rewrite from_other_same;
    pose proof (near24_nonneg n D).
  - split; [| lia]. assert (Q : Z.quot (m_us m) 1000 <= Z.quot (m_us m + near24 n) 1000) by (apply Z.quot_le_mono; lia).
    pose proof (from_other_mono US MS _ _ Q). lia.
  - split; [lia |]. assert (Q : m_ms m * 1000 <= (m_ms m + near24 n) * 1000) by lia. pose proof (from_other_mono MS US _ _ Q). lia.
Qed.
Lemma mock_monotone_run ds es : Forall (fun d => 0 <= amount d) es ->
  mock_millis (mock_run ds) <= mock_millis (mock_run (ds ++ es)) /\ mock_micros (mock_run ds) <= mock_micros (mock_run (ds ++ es)).
Proof.
  induction es as [| e es IH] using rev_ind; intros F; [rewrite app_nil_r; lia |]. apply Forall_app in F as [F E]. inversion E; subst.
  rewrite app_assoc, mock_run_snoc. destruct (IH F). destruct (mock_monotone (mock_run (ds ++ es)) e); auto. lia.
Qed.
(** What millis() shows: the milliseconds waited and a thousandth of the milliseconds waited in microseconds *)
Lemma mock_millis_exact ds : Forall plain_delay ds -> waited_us ds < 1677721000 ->
  exists k, mock_millis (mock_run ds) = waited_ms ds + k /\ 2 * Z.abs (1000 * k - Z.quot (waited_us ds) 1000) <= 1000.
Proof.
  intros P B. destruct (mock_counts ds P) as [A C]. unfold mock_millis, kadd. rewrite A, C.
  assert (U : 0 <= waited_us ds) by (clear - P; induction ds as [| [n | n] ds IH]; inversion P; subst; unfold plain_delay in *; cbn [waited_us amount] in *; try lia; specialize (IH ltac:(assumption)); lia).
  eexists. split; [reflexivity |].
  assert (Q : 0 <= Z.quot (waited_us ds) 1000 < 1677721) by (split; [apply Z.quot_pos; lia | apply Z.quot_lt_upper_bound; lia]).
  pose proof (from_other_nearest US MS (Z.quot (waited_us ds) 1000)) as N. cbn [micros_per] in N. specialize (N ltac:(lia)). unfold nearest_count in N. cbn [micros_per] in N. lia.
Qed.

(** ** Zephyr *)
Lemma zephyr_error us : 0 <= us -> us - 1000 < zephyr_delay_us us <= us /\ (us < 1000 \/ us mod 1000 = 0 -> zephyr_delay_us us = us).
Proof.
  intros H. unfold zephyr_delay_us. destruct (Z.leb_spec 1000 us); [| split; lia]. rewrite Z.quot_div_nonneg by lia.
  pose proof (Z.div_mod us 1000 ltac:(lia)). pose proof (Z.mod_pos_bound us 1000 ltac:(lia)). split; lia.
Qed.

(** ** Digital output *)
Lemma drun_low d os : active_low (drun d os) = active_low d.
Proof. revert d. induction os as [| o os IH]; intros d; [reflexivity |]. unfold drun in *. cbn [fold_left]. rewrite IH. destruct o; reflexivity. Qed.
Lemma wanted_snoc on os o : wanted on (os ++ [o]) = wanted (wanted on os) [o].
Proof. revert on. induction os as [| p os IH]; intros on; [reflexivity |]. destruct p; cbn [app wanted]; apply IH. Qed.
Lemma drun_snoc d os o : drun d (os ++ [o]) = dstep (drun d os) o.
Proof. unfold drun. now rewrite fold_left_app. Qed.
Lemma drun_state low os : Forall defined os ->
  active (drun (new_dout low) os) = of_bool (wanted false os) /\
  (os <> [] -> level (drun (new_dout low) os) = Some (xorb low (wanted false os))).
Proof.
  induction os as [| o os IH] using rev_ind; intros F; [split; [reflexivity | intros H; now elim H] |].
  apply Forall_app in F as [F D]. inversion D as [| ? ? P _]; subst. destruct (IH F) as [A _]. rewrite drun_snoc, wanted_snoc.
  pose proof (drun_low (new_dout low) os) as L. cbn [new_dout active_low] in L.
  assert (X : forall b, match of_bool b with L_ON => negb low | _ => low end = xorb low b) by (intros []; destruct low; reflexivity).
  destruct o as [b | s | b |]; cbn [dstep wanted init_out set_bool set_state flip].
  - unfold init_out, set_bool, set_state. cbn [active level]. rewrite L, X. auto.
  - unfold set_state. cbn [active level]. rewrite L. destruct s; [split; [reflexivity |]; intros _; destruct low; reflexivity .. | now elim P].
  - unfold set_bool, set_state. cbn [active level]. rewrite L, X. auto.
  - unfold flip, set_bool, set_state. cbn [active level]. rewrite L, X, A. destruct (wanted false os); auto.
Qed.

(** ** Interrupts *)
Lemma attach_all_spec dbg raw map n gs : forall i t, (raw = true /\ n = ipin i \/ raw = false /\ map (ipin i) = Some n) ->
  exists t', attach_all dbg raw map i t gs = Ok (mkIrq (ipin i) (given (imode i) (List.map tr_of gs)) (given (icallback i) (List.map cb_of gs)), t') /\
    (gs <> [] -> t' n = Some (given (icallback i) (List.map cb_of gs), mode_bits (given (imode i) (List.map tr_of gs)))) /\
    (forall k, k <> n -> t' k = t k).
Proof.
  assert (S : forall i t c m, (raw = true /\ n = ipin i \/ raw = false /\ map (ipin i) = Some n) ->
    attach dbg raw map i t c m = Ok (mkIrq (ipin i) (given (imode i) [tr_of (c, m)]) (given (icallback i) [cb_of (c, m)]),
      iset t n (Some (given (icallback i) [cb_of (c, m)], mode_bits (given (imode i) [tr_of (c, m)]))))).
  { intros i t c m [[-> ->] | [-> H]]; unfold attach; [| rewrite H]; destruct c, m; reflexivity. }
  intros i t H. revert i t H. induction gs as [| [c m] gs IH]; intros i t H.
  - exists t. destruct i. repeat split; auto. intros K. now elim K.
  - cbn [attach_all]. rewrite (S i t c m H). cbn [bind]. set (i' := mkIrq _ _ _). destruct (IH i' (iset t n (Some (given (icallback i) [cb_of (c, m)], mode_bits (given (imode i) [tr_of (c, m)])))) H) as (t' & E & A & B).
    exists t'. rewrite E. unfold i'. cbn [ipin imode icallback]. split; [reflexivity |]. split.
    + intros _. destruct gs as [| g gs]; [| apply A; discriminate]. cbn [attach_all] in E. injection E as <-. cbn [List.map]. unfold iset. now rewrite Nat.eqb_refl.
    + intros k K. rewrite B by exact K. unfold iset. destruct (Nat.eqb_spec k n); [contradiction | reflexivity].
Qed.
