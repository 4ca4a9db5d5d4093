(** Lemmas for property C139. *)
From Coq Require Import ZArith Lia Reals Lra Bool List.
From Flocq Require Import Core IEEE754.BinarySingleNaN.
From Verif Require Import Base FloatModel FloatFacts PidProofs TunerProofs FilterModel FilterSpec FilterProofs EaseSpec.
Import ListNotations.
Open Scope R_scope.

Definition towardR (a x y : R) : Prop := (a <= y <= x) \/ (x <= y <= a).
Lemma toward_real a x y : finite a = true -> finite x = true -> finite y = true -> towardR (val a) (val x) (val y) -> toward a x y.
Proof.
  intros Fa Fx Fy [[H1 H2]|[H1 H2]]; unfold toward; [rewrite (small_le a y), (small_le y x) by assumption; reflexivity|].
  rewrite (small_le x y), (small_le y a) by assumption. apply orb_true_r.
Qed.
(** A filter that has seen a sample *)
Definition ready (f : ewma) : Prop := f_le (f_ofZ 2) (ew_k f) = true /\ count (ew_n f) /\ small (ew_value f).
Lemma step_toward f x : ready f -> small x -> let r := ewma_value x f in ready (snd r) /\ fst r = ew_value (snd r) /\ towardR (val (ew_value f)) (val x) (val (fst r)).
Proof.
  intros (K & N & V) X. unfold ewma_value. rewrite (count_nonzero _ N). cbn zeta. cbn [fst snd ew_value].
  destruct (count_next _ N) as [N' N2]. destruct (min_ok _ (ew_k f) (proj1 N') N2 K) as [M1 M2].
  destruct (ewma_step_real (ew_value f) x _ V X M1 M2) as [F B]. split; [|split; [reflexivity|exact B]].
  unfold ready. cbn [ew_k ew_n ew_value]. split; [exact K|]. split; [exact N'|].
  split; [exact F|]. destruct V as [_ V], X as [_ X]. apply Rabs_le_inv in V, X. apply Rabs_le. lra.
Qed.
Lemma start_ready k x : f_le (f_ofZ 2) k = true -> small x -> ewma_value x (ewma_new k) = (x, mkEw k (f_add f_zero (f_ofZ 1)) x) /\ ready (mkEw k (f_add f_zero (f_ofZ 1)) x).
Proof.
  intros K X. split; [unfold ewma_value; cbn [ewma_new ew_n ew_k]; change (f_eq f_zero (f_ofZ 0)) with true; reflexivity|].
  unfold ready. cbn [ew_k ew_n ew_value]. split; [exact K|]. split; [apply count_1|exact X].
Qed.
Lemma run_small : forall xs f, ready f -> Forall small xs -> Forall small (ewma_run xs f).
Proof.
  induction xs as [|x xs IH]; intros f R1 X; cbn [ewma_run]; [constructor|]. inversion X as [|? ? X1 X2]; subst. destruct (step_toward f x R1 X1) as (R2 & E & _).
  destruct (ewma_value x f) as [y f']. cbn [fst snd] in *. constructor; [rewrite E; apply R2|apply IH; assumption].
Qed.
Lemma run_toward : forall xs f, ready f -> Forall small xs -> forall i x y y', nth_error xs i = Some x -> nth_error (ew_value f :: ewma_run xs f) i = Some y -> nth_error (ewma_run xs f) i = Some y' ->
  towardR (val y) (val x) (val y').
Proof.
  induction xs as [|x0 xs IH]; intros f R1 X i x y y' H1 H2 H3; [destruct i; discriminate|]. inversion X as [|? ? X1 X2]; subst. cbn [ewma_run] in *. destruct (step_toward f x0 R1 X1) as (R2 & E & B).
  destruct (ewma_value x0 f) as [z f']. cbn [fst snd] in *. destruct i as [|i]; cbn [nth_error] in *.
  - assert (x = x0) as -> by congruence. assert (y = ew_value f) as -> by congruence. assert (y' = z) as -> by congruence. exact B.
  - subst z. apply (IH f' R2 X2 i x y y' H1 H2 H3).
Qed.
Lemma run_all_small k xs : f_le (f_ofZ 2) k = true -> Forall small xs -> Forall small (ewma_run xs (ewma_new k)).
Proof.
  intros K X. destruct xs as [|x xs]; [constructor|]. inversion X as [|? ? X1 X2]; subst. destruct (start_ready k x K X1) as [E R1]. cbn [ewma_run]. rewrite E.
  constructor; [exact X1|apply run_small; assumption].
Qed.
Lemma steps_real k xs i x y y' : f_le (f_ofZ 2) k = true -> Forall small xs -> nth_error xs (S i) = Some x ->
  nth_error (ewma_run xs (ewma_new k)) i = Some y -> nth_error (ewma_run xs (ewma_new k)) (S i) = Some y' -> towardR (val y) (val x) (val y').
Proof.
  intros K X H1 H2 H3. destruct xs as [|x0 xs]; [discriminate|]. inversion X as [|? ? X1 X2]; subst. destruct (start_ready k x0 K X1) as [E R1]. cbn [ewma_run] in *. rewrite E in *.
  cbn [nth_error] in H1, H3. apply (run_toward xs _ R1 X2 i x y y' H1 H2 H3).
Qed.
Lemma nth_small l i (y : float) : Forall small l -> nth_error l i = Some y -> finite y = true.
Proof. intros H E. apply nth_error_In in E. rewrite Forall_forall in H. apply (H y E). Qed.
Lemma steps_right k xs i x y y' : f_le (f_ofZ 2) k = true -> Forall small xs -> nth_error xs (S i) = Some x ->
  nth_error (ewma_run xs (ewma_new k)) i = Some y -> nth_error (ewma_run xs (ewma_new k)) (S i) = Some y' -> toward y x y'.
Proof.
  intros K X H1 H2 H3. pose proof (run_all_small k xs K X) as A. apply toward_real; [apply (nth_small _ _ _ A H2)|apply (nth_small _ _ _ X H1)|apply (nth_small _ _ _ A H3)|].
  apply (steps_real k xs i x y y' K X H1 H2 H3).
Qed.
Lemma approach_right k xs c m i j y y' : f_le (f_ofZ 2) k = true -> Forall small (c :: xs) -> (length xs <= S i)%nat -> (i <= j)%nat ->
  nth_error (ewma_run (xs ++ repeat c m) (ewma_new k)) i = Some y -> nth_error (ewma_run (xs ++ repeat c m) (ewma_new k)) j = Some y' -> i = j \/ toward y c y'.
Proof.
  intros K X Hi Hij H1 H2. inversion X as [|? ? Xc Xs]; subst. assert (X' : Forall small (xs ++ repeat c m)) by (apply Forall_app; split; [exact Xs|apply Forall_forall; intros z Hz; apply repeat_spec in Hz; subst; exact Xc]).
  pose proof (run_all_small k _ K X') as A.
  assert (B : forall d j y', j = (i + S d)%nat -> nth_error (ewma_run (xs ++ repeat c m) (ewma_new k)) j = Some y' -> towardR (val y) (val c) (val y')).
  { intros d. induction d as [|d IH]; intros j0 z -> Hz.
    - assert (L : (i + 1 < length (xs ++ repeat c m))%nat) by (rewrite <- (ewma_run_length _ (ewma_new k)); apply nth_error_Some; congruence).
      apply (steps_real k (xs ++ repeat c m) i c y z K X'); [|exact H1|replace (S i) with (i + 1)%nat by lia; exact Hz].
      rewrite nth_error_app2 by lia. rewrite app_length, repeat_length in L. apply nth_error_repeat. lia.
    - assert (L : (i + S (S d) < length (xs ++ repeat c m))%nat) by (rewrite <- (ewma_run_length _ (ewma_new k)); apply nth_error_Some; congruence).
      destruct (nth_error (ewma_run (xs ++ repeat c m) (ewma_new k)) (i + S d)) as [w|] eqn:Ew; [|apply nth_error_None in Ew; rewrite ewma_run_length in Ew; lia].
      pose proof (IH _ w eq_refl Ew) as T1.
      assert (T2 : towardR (val w) (val c) (val z)).
      { apply (steps_real k (xs ++ repeat c m) (i + S d) c w z K X'); [|exact Ew|replace (S (i + S d)) with (i + S (S d))%nat by lia; exact Hz].
        rewrite nth_error_app2 by lia. rewrite app_length, repeat_length in L. apply nth_error_repeat. lia. }
      unfold towardR in *. lra. }
  destruct (Nat.eq_dec i j) as [E|E]; [left; exact E|right]. apply toward_real; [apply (nth_small _ _ _ A H1)|apply Xc|apply (nth_small _ _ _ A H2)|].
  apply (B (j - i - 1)%nat j y'); [lia|exact H2].
Qed.

(** 1 and the next float: half of the difference is lost in the sum. *)
Definition next_one : float := f_lit (2 ^ 23 + 1) (2 ^ 23).
Lemma two_min n : count n -> f_min (f_add n (f_ofZ 1)) (f_ofZ 2) = f_ofZ 2.
Proof.
  intros N. destruct (count_next n N) as [[F _] N2]. destruct (ofZ_exact 2) as [E2 F2]; [now vm_compute|]. unfold f_min. destruct (f_lt (f_ofZ 2) (f_add n (f_ofZ 1))) eqn:L; [reflexivity|].
  rewrite lt_val in L by assumption. assert (E : val (f_add n (f_ofZ 1)) = 2). { revert L. case Rlt_bool_spec; [discriminate|]. rewrite E2. intros; lra. }
  apply B2R_inj.
  - destruct (f_add n (f_ofZ 1)); try discriminate F; [|reflexivity]. exfalso. revert E. cbn. lra.
  - vm_compute. reflexivity.
  - change (val (f_add n (f_ofZ 1)) = val (f_ofZ 2)). rewrite E, E2. reflexivity.
Qed.
Lemma stuck : forall m n, count n -> Forall (fun y => y = f_ofZ 1) (ewma_run (repeat next_one m) (mkEw (f_ofZ 2) n (f_ofZ 1))).
Proof.
  induction m as [|m IH]; intros n N; [constructor|]. cbn [repeat ewma_run]. unfold ewma_value. cbn [ew_n ew_k ew_value]. rewrite (count_nonzero n N). rewrite (two_min n N).
  assert (f_add (f_ofZ 1) (f_div (f_sub next_one (f_ofZ 1)) (f_ofZ 2)) = f_ofZ 1) as -> by (apply B2SF_inj; vm_compute; reflexivity).
  constructor; [reflexivity|]. apply IH. apply count_next. exact N.
Qed.
