(** The band-pass in front of other filters: samples that are not numbers *)
From Coq Require Import ZArith Lia Reals Lra Bool List.
From Flocq Require Import Core IEEE754.BinarySingleNaN.
From Verif Require Import Base FloatModel FloatFacts PidProofs FilterModel FilterSpec FilterProofs SteadyProofs.
Import ListNotations.

Lemma le_num (x y : float) : f_le x y = true -> is_nan x = false /\ is_nan y = false.
Proof. destruct x, y; intros H; split; (reflexivity || discriminate H). Qed.
Lemma ge_num (x y : float) : f_ge x y = true -> is_nan x = false.
Proof. destruct x, y; intros H; (reflexivity || discriminate H). Qed.

(** The value held: one of the samples seen, a number, not the default *)
Definition held (seen : list float) (f : bandpass) : Prop :=
  bc_throw (bp_cfg f) = true /\ In (bp_value f) seen /\ is_nan (bp_value f) = false /\ f_eq (bp_value f) bp_default = false.
Lemma tail_held seen s f f' : held (s :: seen) f -> f_eq s bp_default = false ->
  (let g := match bc_mode (bp_cfg f) with RELATIVE => bp_limits f | ABSOLUTE => f end in
  if f_ge s (bp_lower g) && f_le s (bp_upper g) then Ok (mkBP (bp_cfg g) s (bp_lower g) (bp_upper g) 0)
  else
    let r := (bp_rejections g + 1)%Z in
    if (bc_limit (bp_cfg g) <? r)%Z then
      if bc_throw (bp_cfg g) then Halt else Ok (mkBP (bp_cfg g) s (bp_lower g) (bp_upper g) r)
    else Ok (mkBP (bp_cfg g) (bp_value g) (bp_lower g) (bp_upper g) r)) = Ok f' -> held (s :: seen) f'.
Proof.
  intros (T & I & N & D) Ds. set (g := match bc_mode (bp_cfg f) with RELATIVE => _ | ABSOLUTE => f end).
  assert (G : bp_cfg g = bp_cfg f /\ bp_value g = bp_value f) by (unfold g; destruct (bc_mode (bp_cfg f)); split; reflexivity).
  clearbody g. destruct G as [G1 G2]. rewrite <- G1 in T. rewrite <- G2 in I, N, D. cbn zeta.
  destruct (f_ge s (bp_lower g) && f_le s (bp_upper g)) eqn:E.
  - intros H. apply ok_inj in H as <-. apply andb_prop in E as [E _]. unfold held. cbn [bp_cfg bp_value].
    split; [exact T|]. split; [left; reflexivity|]. split; [exact (ge_num _ _ E)|exact Ds].
  - destruct (_ <? _)%Z; [rewrite T; intros H; discriminate H|]. intros H. apply ok_inj in H as <-. unfold held. cbn [bp_cfg bp_value]. auto.
Qed.
Lemma held_more seen s f : held seen f -> held (s :: seen) f.
Proof. intros (T & I & N & D). unfold held. split; [exact T|]. split; [right; exact I|]. auto. Qed.
Lemma held_step seen s f f' : held seen f -> f_eq s bp_default = false -> bp_sample s f = Ok f' -> held (s :: seen) f'.
Proof.
  intros H Ds E. unfold bp_sample in E. assert (D := proj2 (proj2 (proj2 H))). rewrite D in E. refine (tail_held _ _ _ _ (held_more _ _ _ H) Ds E).
Qed.
Lemma default_self : f_eq bp_default bp_default = true. Proof. vm_compute. reflexivity. Qed.
Lemma held_first c s f' : bc_throw c = true -> is_nan s = false -> f_eq s bp_default = false -> bp_sample s (bp_new c) = Ok f' -> held [s] f'.
Proof.
  intros T N Ds E. unfold bp_sample in E. change (bp_value (bp_new c)) with bp_default in E. rewrite default_self in E.
  refine (tail_held [] s _ _ _ Ds E). unfold held. cbn [bp_cfg bp_reset bp_value bp_new bp_limits]. split; [exact T|]. split; [left; reflexivity|]. auto.
Qed.
Lemma held_run : forall xs seen f ys, held seen f -> Forall (fun x => f_eq x bp_default = false) xs -> bp_run xs f = Ok ys ->
  forall i y, nth_error ys i = Some y -> is_nan y = false /\ (In y seen \/ In y (firstn (S i) xs)).
Proof.
  induction xs as [|x xs IH]; intros seen f ys H D R i y Y; cbn [bp_run] in R.
  - apply ok_inj in R as <-. destruct i; discriminate Y.
  - pose proof (Forall_inv D) as D1. apply Forall_inv_tail in D.
    apply bind_ok in R as ([y1 f1] & R1 & R2). apply bind_ok in R2 as (ys1 & R3 & R4). apply ok_inj in R4 as <-.
    unfold bp_step in R1. apply bind_ok in R1 as (g & R5 & R6). apply ok_pair in R6 as [<- <-].
    pose proof (held_step _ _ _ _ H D1 R5) as Hg. destruct i as [|i]; cbn [nth_error] in Y.
    + assert (y = bp_value g) by congruence. subst y. destruct Hg as (_ & I & N & _). split; [exact N|]. cbn [firstn]. destruct I as [->|I]; [right; left; reflexivity|left; exact I].
    + destruct (IH _ _ _ Hg D R3 i y Y) as [N [[<-|I]|I]]; (split; [exact N|]).
      * right. left. reflexivity.
      * left. exact I.
      * right. right. exact I.
Qed.
Theorem guard_thm c x xs ys : bc_throw c = true -> is_nan x = false -> Forall (fun x => f_eq x bp_default = false) (x :: xs) ->
  bp_run (x :: xs) (bp_new c) = Ok ys -> forall i y, nth_error ys i = Some y -> is_nan y = false /\ In y (firstn (S i) (x :: xs)).
Proof.
  intros T N D R i y Y. cbn [bp_run] in R. pose proof (Forall_inv D) as D1. apply Forall_inv_tail in D.
  apply bind_ok in R as ([y1 f1] & R1 & R2). apply bind_ok in R2 as (ys1 & R3 & R4). apply ok_inj in R4 as <-.
  unfold bp_step in R1. apply bind_ok in R1 as (g & R5 & R6). apply ok_pair in R6 as [<- <-].
  pose proof (held_first _ _ _ T N D1 R5) as Hg. destruct i as [|i]; cbn [nth_error] in Y.
  - assert (y = bp_value g) by congruence. subst y. destruct Hg as (_ & I & N' & _). split; [exact N'|exact I].
  - destruct (held_run _ _ _ _ Hg D R3 i y Y) as [N' [[<-|[]]|I]]; (split; [exact N'|]); [left; reflexivity|right; exact I].
Qed.

Lemma run_bandpass : forall xs f, filter_run (of_bandpass f) xs = bp_run xs f.
Proof.
  induction xs as [|x xs IH]; intros f; [reflexivity|]. cbn [filter_run bp_run run_filter of_bandpass step st].
  unfold run_filter. cbn [of_bandpass step st]. destruct (bp_step x f) as [[y f']| | | |]; try reflexivity. cbn [bind].
  change (mkFilter bandpass f' bp_step bp_value bp_reset) with (of_bandpass f'). cbn [St cur rst of_bandpass].
  change (mkFilter bandpass f' bp_step bp_value bp_reset) with (of_bandpass f'). rewrite IH. reflexivity.
Qed.
Lemma run_ewma : forall xs f, filter_run (of_ewma f) xs = Ok (ewma_run xs f).
Proof.
  induction xs as [|x xs IH]; intros f; [reflexivity|]. cbn [filter_run ewma_run]. unfold run_filter. cbn [of_ewma step st].
  destruct (ewma_value x f) as [y f']. cbn [bind St cur rst of_ewma].
  change (mkFilter ewma f' (fun x s => Ok (ewma_value x s)) ew_value ewma_reset) with (of_ewma f'). rewrite IH. reflexivity.
Qed.
Lemma bp_run_length : forall xs f ys, bp_run xs f = Ok ys -> length ys = length xs.
Proof.
  induction xs as [|x xs IH]; intros f ys R; cbn [bp_run] in R.
  - now apply ok_inj in R as <-.
  - apply bind_ok in R as ([y1 f1] & _ & R2). apply bind_ok in R2 as (ys1 & R3 & R4). apply ok_inj in R4 as <-. cbn. f_equal. eauto.
Qed.
Lemma in_firstn_nth {A} (a : A) : forall n l, In a (firstn n l) -> exists j, (j < n)%nat /\ nth_error l j = Some a.
Proof.
  induction n as [|n IH]; intros [|b l] H; try (destruct H). { exists 0%nat. cbn. subst. split; [lia|reflexivity]. }
  destruct (IH l H) as (j & J1 & J2). exists (S j). split; [lia|exact J2].
Qed.
Lemma firstn_more {A} (a : A) l n m : (n <= m)%nat -> In a (firstn n l) -> In a (firstn m l).
Proof. intros H I. replace n with (Nat.min n m) in I by lia. rewrite <- firstn_firstn in I. rewrite <- (firstn_skipn n (firstn m l)). apply in_or_app. left. exact I. Qed.
Theorem guarded_thm dbg c k x xs zs : bc_throw c = true -> f_le (f_ofZ 2) k = true ->
  is_nan x = false -> Forall (fun x => f_eq x bp_default = false) (x :: xs) ->
  Forall (fun x : float => is_nan x = true \/ small x) (x :: xs) ->
  stack_run dbg (build [of_bandpass (bp_new c); of_ewma (ewma_new k)]) (x :: xs) = Ok zs ->
  length zs = S (length xs) /\ forall i z, nth_error zs i = Some z -> between (firstn (S i) (x :: xs)) z.
Proof.
  intros T K N D B R. apply attached_thm in R. cbn [through] in R. rewrite run_bandpass in R.
  apply bind_ok in R as (ys & R1 & R2). rewrite run_ewma in R2. cbn [bind] in R2. apply ok_inj in R2 as <-.
  pose proof (guard_thm _ _ _ _ T N D R1) as G. pose proof (bp_run_length _ _ _ R1) as L.
  assert (S1 : Forall small ys).
  { apply Forall_forall. intros y Iy. apply In_nth_error in Iy as [i Y]. destruct (G i y Y) as [Ny Iy].
    assert (I : In y (x :: xs)). { rewrite <- (firstn_skipn (S i) (x :: xs)). apply in_or_app. left. exact Iy. }
    destruct (proj1 (Forall_forall _ _) B y I) as [E|E]; [rewrite Ny in E; discriminate E|exact E]. }
  split.
  - assert (Q : forall xs f, length (ewma_run xs f) = length xs).
    { induction xs0 as [|x0 xs0 IH]; intros f; [reflexivity|]. cbn [ewma_run]. destruct (ewma_value x0 f) as [y f']. cbn. f_equal. apply IH. }
    rewrite Q, L. reflexivity.
  - intros i z Z. destruct (ewma_thm k ys K S1 i z Z) as (a & b & Ia & Ib & La & Lb). exists a, b.
    assert (W : forall w, In w (firstn (S i) ys) -> In w (firstn (S i) (x :: xs))).
    { intros w Iw. apply in_firstn_nth in Iw as (j & J & E). apply (firstn_more _ _ (S j)); [lia|]. apply (G j w E). }
    auto.
Qed.

(** Without the guard *)
Lemma nan_div (x y : float) : is_nan x = true -> is_nan (f_div x y) = true.
Proof. intros H. destruct x; try discriminate H. destruct y; reflexivity. Qed.
Definition started (f : ewma) : Prop := count (ew_n f).
Lemma ewma_counts x f : ew_n f = f_zero \/ started f -> started (snd (ewma_value x f)).
Proof.
  intros [E|E]; unfold ewma_value, started in *.
  - rewrite E. change (f_eq f_zero (f_ofZ 0)) with true. cbv iota. cbn [snd ew_n]. apply count_1.
  - rewrite (count_nonzero _ E). cbv iota zeta. cbn [snd ew_n]. apply count_next, E.
Qed.
Lemma ewma_lost x f : is_nan x = true \/ (started f /\ is_nan (ew_value f) = true) ->
  is_nan (fst (ewma_value x f)) = true /\ is_nan (ew_value (snd (ewma_value x f))) = true.
Proof.
  intros H. unfold ewma_value. destruct (f_eq (ew_n f) (f_ofZ 0)) eqn:E.
  - cbn [fst snd ew_value]. destruct H as [H|[H _]]; [auto|]. unfold started in H. rewrite (count_nonzero _ H) in E. discriminate E.
  - cbv zeta. cbn [fst snd ew_value].
    match goal with |- is_nan ?v = true /\ _ => assert (V : is_nan v = true); [|split; exact V] end.
    apply nan_add. destruct H as [H|[_ H]]; [right|left; exact H]. apply nan_div, nan_sub. left. exact H.
Qed.
Lemma lost_for_ever : forall xs f, started f -> is_nan (ew_value f) = true -> Forall (fun y : float => is_nan y = true) (ewma_run xs f).
Proof.
  induction xs as [|x xs IH]; intros f Sf N; cbn [ewma_run]; [constructor|].
  pose proof (ewma_counts x f (or_intror Sf)) as C. pose proof (ewma_lost x f (or_intror (conj Sf N))) as [L1 L2].
  destruct (ewma_value x f) as [y f']. cbn [fst snd] in *. constructor; [exact L1|]. apply IH; assumption.
Qed.
Theorem lost_thm : forall h k f (x : float) xs, ew_k f = k -> ew_n f = f_zero \/ started f -> is_nan x = true ->
  Forall (fun y : float => is_nan y = true) (skipn (length h) (ewma_run (h ++ x :: xs) f)).
Proof.
  induction h as [|a h IH]; intros k f x xs K C N.
  - cbn [length skipn app ewma_run]. pose proof (ewma_counts x f C) as C'. pose proof (ewma_lost x f (or_introl N)) as [L1 L2].
    destruct (ewma_value x f) as [y f']. cbn [fst snd] in *. constructor; [exact L1|]. apply lost_for_ever; assumption.
  - cbn [length app ewma_run]. pose proof (ewma_counts a f C) as C'. destruct (ewma_value a f) as [y f']. cbn [snd] in C'. cbn [skipn].
    apply (IH (ew_k f')); auto.
Qed.
