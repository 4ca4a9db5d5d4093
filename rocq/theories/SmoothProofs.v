(** A latch behind a moving average *)
From Coq Require Import ZArith Lia Reals Lra Bool List.
From Flocq Require Import Core IEEE754.BinarySingleNaN.
From Verif Require Import Base FloatModel FloatFacts PidProofs FilterModel FilterSpec FilterProofs EaseSpec EaseProofs AvgProofs KTimeModel TimersModel LatchModel LatchSpec LatchProofs SmoothSpec.
Import ListNotations.
Open Scope R_scope.

Notation out cfg t0 rs := (response (readings float f_lt cfg (latch_new float cfg t0) rs)).
Definition untimed (cfg : config float) : Prop := max_on _ cfg = 0%Z /\ max_off _ cfg = 0%Z /\ min_on _ cfg = 0%Z /\ min_off _ cfg = 0%Z.

Lemma combine_nth_some {A B} : forall (l : list A) (m : list B) i a b, nth_error (combine l m) i = Some (a, b) -> nth_error l i = Some a /\ nth_error m i = Some b.
Proof.
  induction l as [|x l IH]; intros [|y m] [|i] a b H; try discriminate H; cbn [combine nth_error] in *; [|now apply IH].
  split; congruence.
Qed.
Lemma firstn_snoc {A} : forall (l : list A) i a, nth_error l i = Some a -> firstn (S i) l = firstn i l ++ [a].
Proof. induction l as [|x l IH]; intros [|i] a H; try discriminate H; [cbn in *; congruence|]. cbn [nth_error] in H. change (x :: firstn (S i) l = x :: (firstn i l ++ [a])). f_equal. now apply IH. Qed.
Lemma nth_firstn_split {A} (l : list A) i a : nth_error l i = Some a -> exists q, l = firstn i l ++ a :: q.
Proof. intros H. exists (skipn (S i) l). rewrite <- (firstn_skipn (S i) l) at 1. rewrite (firstn_snoc _ _ _ H), <- app_assoc. reflexivity. Qed.

Lemma plain_at cfg t0 ts ys i t y : untimed cfg -> spaced t0 ts -> nth_error (combine ts ys) i = Some (t, y) ->
  out cfg t0 (firstn (S i) (combine ts ys)) = if f_lt (high _ cfg) y then true else if f_lt y (low _ cfg) then false else out cfg t0 (firstn i (combine ts ys)).
Proof.
  intros (M1 & M2 & M3 & M4) Sp H. rewrite (firstn_snoc _ _ _ H). destruct (combine_nth_some _ _ _ _ _ H) as [T _].
  destruct (nth_firstn_split _ _ _ T) as [q Q]. pose proof (Sp _ _ _ Q) as F.
  apply plain_any; auto; [|exact (Forall_inv F)]. intros t' v' p q' E. apply Forall_inv_tail in F.
  apply (proj1 (Forall_forall _ _) F). rewrite combine_firstn in E. apply (in_combine_l _ (firstn i ys) _ v'). rewrite E. apply in_or_app. right. left. reflexivity.
Qed.

Lemma lt_R (a b : float) : finite a = true -> finite b = true -> (f_lt a b = true <-> val a < val b).
Proof. intros A B. rewrite lt_val by assumption. case Rlt_bool_spec; intros H; split; intros G; auto; try discriminate; lra. Qed.
Lemma lt_R_false (a b : float) : finite a = true -> finite b = true -> (f_lt a b = false <-> val b <= val a).
Proof. intros A B. rewrite lt_val by assumption. case Rlt_bool_spec; intros H; split; intros G; auto; try discriminate; lra. Qed.

Lemma first_out k x xs : nth_error (ewma_run (x :: xs) (ewma_new k)) 0 = Some x.
Proof. cbn [ewma_run]. unfold ewma_value. cbn [ewma_new ew_n]. change (f_eq f_zero (f_ofZ 0)) with true. reflexivity. Qed.
Lemma sample_at : forall xs f i y, nth_error (ewma_run xs f) i = Some y -> exists x, nth_error xs i = Some x.
Proof. induction xs as [|x xs IH]; intros f [|i] y H; cbn [ewma_run] in H; try discriminate H; destruct (ewma_value x f) as [y1 f1]; [exists x; reflexivity|]. cbn [nth_error] in *. eauto. Qed.
Lemma nth_pred {A} (l : list A) i a : nth_error l (S i) = Some a -> exists b, nth_error l i = Some b.
Proof. intros H. destruct (nth_error l i) eqn:E; [eauto|]. apply nth_error_None in E. assert (nth_error l (S i) <> None) as N by congruence. apply nth_error_Some in N. lia. Qed.

Section Cause.
Variables (k : float) (cfg : config float) (t0 : Z) (ts : list Z) (xs : list float).
Hypothesis K : f_le (f_ofZ 2) k = true.
Hypothesis B : Forall small xs.
Hypothesis U : untimed cfg.
Hypothesis Sp : spaced t0 ts.
Hypothesis Fh : finite (high _ cfg) = true.
Hypothesis Fl : finite (low _ cfg) = true.
Let rs := combine ts (ewma_run xs (ewma_new k)).

Lemma at_index i t y : nth_error rs i = Some (t, y) -> exists x, nth_error xs i = Some x /\ finite x = true /\ finite y = true /\ nth_error (ewma_run xs (ewma_new k)) i = Some y.
Proof.
  intros H. destruct (combine_nth_some _ _ _ _ _ H) as [_ Y]. destruct (sample_at _ _ _ _ Y) as [x X]. exists x. split; [exact X|].
  split; [exact (nth_small _ _ _ B X)|]. split; [|exact Y]. exact (nth_small _ _ _ (run_all_small _ _ K B) Y).
Qed.
Lemma on_cause i x : out cfg t0 (firstn i rs) = false -> out cfg t0 (firstn (S i) rs) = true -> nth_error xs i = Some x -> f_lt (high _ cfg) x = true.
Proof.
  intros H1 H2 X. destruct (nth_error rs i) as [[t y]|] eqn:R.
  2:{ apply nth_error_None in R. rewrite firstn_all2 in H1 by lia. rewrite firstn_all2 in H2 by lia. rewrite H1 in H2. discriminate H2. }
  destruct (at_index _ _ _ R) as (x' & X' & Fx & Fy & Y). assert (x' = x) by congruence. subst x'.
  unfold rs in H2. rewrite (plain_at _ _ _ _ _ _ _ U Sp R) in H2. fold rs in H2. rewrite H1 in H2.
  destruct (f_lt (high _ cfg) y) eqn:Ha; [|destruct (f_lt y (low _ cfg)); discriminate H2].
  destruct i as [|i].
  - destruct xs as [|x0 xs']; [discriminate X|]. rewrite first_out in Y. cbn in X. congruence.
  - destruct (nth_pred _ _ _ R) as [[t' y'] R']. destruct (at_index _ _ _ R') as (x' & X2 & Fx2 & Fy2 & Y2).
    unfold rs in H1. rewrite (plain_at _ _ _ _ _ _ _ U Sp R') in H1.
    destruct (f_lt (high _ cfg) y') eqn:Hb; [discriminate H1|].
    apply lt_R in Ha; auto. apply lt_R_false in Hb; auto. apply lt_R; auto.
    destruct (steps_real _ _ _ _ _ _ K B X Y2 Y) as [[T1 T2]|[T1 T2]]; lra.
Qed.
Hypothesis Hl : f_le (low _ cfg) (high _ cfg) = true.
Lemma off_cause i x : out cfg t0 (firstn i rs) = true -> out cfg t0 (firstn (S i) rs) = false -> nth_error xs i = Some x -> f_lt x (low _ cfg) = true.
Proof.
  intros H1 H2 X. destruct (nth_error rs i) as [[t y]|] eqn:R.
  2:{ apply nth_error_None in R. rewrite firstn_all2 in H1 by lia. rewrite firstn_all2 in H2 by lia. rewrite H1 in H2. discriminate H2. }
  destruct (at_index _ _ _ R) as (x' & X' & Fx & Fy & Y). assert (x' = x) by congruence. subst x'.
  unfold rs in H2. rewrite (plain_at _ _ _ _ _ _ _ U Sp R) in H2. fold rs in H2. rewrite H1 in H2.
  destruct (f_lt (high _ cfg) y) eqn:Ha; [discriminate H2|]. destruct (f_lt y (low _ cfg)) eqn:Hb; [|discriminate H2].
  assert (L : val (low _ cfg) <= val (high _ cfg)) by (rewrite le_val in Hl by assumption; revert Hl; case Rle_bool_spec; auto; discriminate).
  destruct i as [|i].
  - discriminate H1.
  - destruct (nth_pred _ _ _ R) as [[t' y'] R']. destruct (at_index _ _ _ R') as (x' & X2 & Fx2 & Fy2 & Y2).
    unfold rs in H1. rewrite (plain_at _ _ _ _ _ _ _ U Sp R') in H1.
    apply lt_R in Hb; auto. apply lt_R; auto.
    destruct (steps_real _ _ _ _ _ _ K B X Y2 Y) as [[T1 T2]|[T1 T2]]; [|lra].
    destruct (f_lt (high _ cfg) y') eqn:Hc; [apply lt_R in Hc; auto; lra|].
    destruct (f_lt y' (low _ cfg)) eqn:Hd; [discriminate H1|]. apply lt_R_false in Hd; auto. lra.
Qed.
End Cause.

(** No reading above the upper level: it stays off, whatever its times *)
Lemma stays_off cfg : max_off _ cfg = 0%Z -> forall rs l, lvalue l = false -> Forall (fun r => f_lt (high _ cfg) (snd r) = false) rs -> response (readings float f_lt cfg l rs) = false.
Proof.
  intros M. induction rs as [|[t v] rs IH]; intros l L F; cbn [readings]; [exact L|]. pose proof (Forall_inv F) as F1. apply Forall_inv_tail in F. cbn [snd] in F1.
  apply IH; [|exact F]. unfold new_reading. rewrite L, M, F1. change (kne MS MS 0 0) with false. cbn [andb negb]. rewrite !andb_false_r. cbn [andb].
  destruct (klt MS MS _ _); [exact L|]. destruct (f_lt v _); [reflexivity|exact L].
Qed.
Lemma le_trans_not (a b h : float) : finite a = true -> finite b = true -> f_le a b = true -> f_le b h = true -> f_lt h a = false.
Proof.
  intros A B L H. destruct (is_finite h) eqn:Fh.
  - apply lt_R_false; auto. rewrite le_val in L by assumption. rewrite le_val in H by assumption. revert L H. case Rle_bool_spec; [|discriminate]. intros L _. case Rle_bool_spec; [|discriminate]. intros H _. lra.
  - destruct h as [s|[|]| |s m e p]; try discriminate Fh; destruct a as [?|?| |[|] ? ? ?]; try discriminate A; destruct b as [?|?| |[|] ? ? ?]; try discriminate B; try discriminate H; reflexivity.
Qed.
Theorem quiet_thm k cfg t0 ts xs : f_le (f_ofZ 2) k = true -> Forall small xs -> max_off _ cfg = 0%Z -> Forall (fun x => f_le x (high _ cfg) = true) xs ->
  out cfg t0 (combine ts (ewma_run xs (ewma_new k))) = false.
Proof.
  intros K B M H. apply stays_off; auto. apply Forall_forall. intros [t y] I. cbn [snd]. apply in_combine_r in I. apply In_nth_error in I as [i Y].
  destruct (ewma_thm _ _ K B _ _ Y) as (a & b & Ia & Ib & La & Lb).
  assert (Ib' : In b xs) by (rewrite <- (firstn_skipn (S i) xs); apply in_or_app; left; exact Ib).
  pose proof (proj1 (Forall_forall _ _) H b Ib') as Hb. pose proof (proj1 (proj1 (Forall_forall _ _) B b Ib')) as Fb.
  assert (Fy : finite y = true) by exact (nth_small _ _ _ (run_all_small _ _ K B) Y).
  apply (le_trans_not y b); auto.
Qed.

(** It reacts to a lasting value *)
Theorem reacts_thm Bd k cfg t0 ts xs c m : bpow radix2 (-100) <= Bd <= bpow radix2 126 -> f_le (f_ofZ 2) k = true -> f_le k (f_ofZ (2 ^ 24)) = true ->
  xs <> [] -> Forall (fun x => finite x = true /\ Rabs (val x) <= Bd) (c :: xs) -> untimed cfg -> spaced t0 ts -> finite (high _ cfg) = true ->
  length ts = (length xs + m)%nat ->
  val (high _ cfg) + ((1 - / val k) ^ m * (2 * Bd) + bpow radix2 (-22) * Bd * val k) < val c ->
  out cfg t0 (combine ts (ewma_run (xs ++ repeat c m) (ewma_new k))) = true.
Proof.
  intros HB K1 K2 Hx F U Sp Fh L G. set (ys := ewma_run (xs ++ repeat c m) (ewma_new k)).
  assert (Q : forall xs f, length (ewma_run xs f) = length xs).
  { induction xs0 as [|x0 xs0 IH]; intros f; [reflexivity|]. cbn [ewma_run]. destruct (ewma_value x0 f) as [y f']. cbn. f_equal. apply IH. }
  assert (Ly : length ys = (length xs + m)%nat) by (unfold ys; rewrite Q, app_length, repeat_length; reflexivity).
  assert (Lr : length (combine ts ys) = (length xs + m)%nat) by (rewrite combine_length; lia).
  assert (1 <= length xs)%nat as L1 by (destruct xs; [contradiction|cbn; lia]). set (n := (length xs + m - 1)%nat).
  destruct (nth_error (combine ts ys) n) as [[t y]|] eqn:R; [|apply nth_error_None in R; lia].
  destruct (combine_nth_some _ _ _ _ _ R) as [_ Y]. pose proof (settles_right _ _ _ _ _ _ HB K1 K2 Hx F Y) as S1.
  rewrite <- (firstn_all2 (n := S n) (combine ts ys)) by lia. rewrite (plain_at _ _ _ _ _ _ _ U Sp R).
  assert (Sm : Forall small (xs ++ repeat c m)).
  { assert (W : forall z, finite z = true /\ Rabs (val z) <= Bd -> small z) by (intros z [Z1 Z2]; split; [exact Z1|lra]).
    apply Forall_app. split; [eapply Forall_impl; [exact W|]; exact (Forall_inv_tail F)|]. apply Forall_forall. intros z Hz. apply repeat_spec in Hz. subst. exact (W _ (Forall_inv F)). }
  assert (Fy : finite y = true) by exact (nth_small _ _ _ (run_all_small _ _ K1 Sm) Y).
  replace (f_lt (high _ cfg) y) with true; [reflexivity|]. symmetry. apply lt_R; auto. revert S1. unfold Rabs. destruct Rcase_abs; lra.
Qed.
Theorem reacts_low_thm Bd k cfg t0 ts xs c m : bpow radix2 (-100) <= Bd <= bpow radix2 126 -> f_le (f_ofZ 2) k = true -> f_le k (f_ofZ (2 ^ 24)) = true ->
  xs <> [] -> Forall (fun x => finite x = true /\ Rabs (val x) <= Bd) (c :: xs) -> untimed cfg -> spaced t0 ts -> finite (high _ cfg) = true -> finite (low _ cfg) = true -> f_le (low _ cfg) (high _ cfg) = true ->
  length ts = (length xs + m)%nat ->
  val c + ((1 - / val k) ^ m * (2 * Bd) + bpow radix2 (-22) * Bd * val k) < val (low _ cfg) ->
  out cfg t0 (combine ts (ewma_run (xs ++ repeat c m) (ewma_new k))) = false.
Proof.
  intros HB K1 K2 Hx F U Sp Fh Fl Hl L G. set (ys := ewma_run (xs ++ repeat c m) (ewma_new k)).
  assert (Q : forall xs f, length (ewma_run xs f) = length xs).
  { induction xs0 as [|x0 xs0 IH]; intros f; [reflexivity|]. cbn [ewma_run]. destruct (ewma_value x0 f) as [y f']. cbn. f_equal. apply IH. }
  assert (Ly : length ys = (length xs + m)%nat) by (unfold ys; rewrite Q, app_length, repeat_length; reflexivity).
  assert (Lr : length (combine ts ys) = (length xs + m)%nat) by (rewrite combine_length; lia).
  assert (1 <= length xs)%nat as L1 by (destruct xs; [contradiction|cbn; lia]). set (n := (length xs + m - 1)%nat).
  destruct (nth_error (combine ts ys) n) as [[t y]|] eqn:R; [|apply nth_error_None in R; lia].
  destruct (combine_nth_some _ _ _ _ _ R) as [_ Y]. pose proof (settles_right _ _ _ _ _ _ HB K1 K2 Hx F Y) as S1.
  rewrite <- (firstn_all2 (n := S n) (combine ts ys)) by lia. rewrite (plain_at _ _ _ _ _ _ _ U Sp R).
  assert (Sm : Forall small (xs ++ repeat c m)).
  { assert (W : forall z, finite z = true /\ Rabs (val z) <= Bd -> small z) by (intros z [Z1 Z2]; split; [exact Z1|lra]).
    apply Forall_app. split; [eapply Forall_impl; [exact W|]; exact (Forall_inv_tail F)|]. apply Forall_forall. intros z Hz. apply repeat_spec in Hz. subst. exact (W _ (Forall_inv F)). }
  assert (Fy : finite y = true) by exact (nth_small _ _ _ (run_all_small _ _ K1 Sm) Y).
  assert (Lw : val (low _ cfg) <= val (high _ cfg)) by (rewrite le_val in Hl by assumption; revert Hl; case Rle_bool_spec; auto; discriminate).
  assert (G2 : val y < val (low _ cfg)) by (revert S1; unfold Rabs; destruct Rcase_abs; lra).
  replace (f_lt (high _ cfg) y) with false by (symmetry; apply lt_R_false; auto; lra).
  replace (f_lt y (low _ cfg)) with true; [reflexivity|]. symmetry. apply lt_R; auto.
Qed.
