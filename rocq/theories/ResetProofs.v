(** What reset_to does to filters and stacks of filters: specification and lemmas. *)
From Coq Require Import ZArith Bool List Lia.
From Verif Require Import Base FloatModel FilterModel FilterSpec PidProofs TunerProofs FilterProofs.
Import ListNotations.
Open Scope Z_scope.

(** A history: samples and resets. *)
Inductive fop := Sample (x : float) | Reset (v : float).
(** A filter turns each sample into its output and lets the resets pass. *)
Fixpoint filter_hist (f : filter) (h : list fop) : outcome (list fop) :=
  match h with
  | [] => Ok []
  | Sample x :: h' => '(y, f') <- run_filter x f ;; g <- filter_hist f' h' ;; Ok (Sample y :: g)
  | Reset v :: h' => g <- filter_hist (filter_reset v f) h' ;; Ok (Reset v :: g)
  end.
(** One filter after the other. *)
Fixpoint hist_through (fs : list filter) (h : list fop) : outcome (list fop) :=
  match fs with [] => Ok h | f :: fs' => g <- filter_hist f h ;; hist_through fs' g end.
(** The stack. *)
Fixpoint stack_hist (dbg : bool) (s : stack) (h : list fop) : outcome (list fop) :=
  match h with
  | [] => Ok []
  | Sample x :: h' => '(y, s') <- stack_value dbg x s ;; g <- stack_hist dbg s' h' ;; Ok (Sample y :: g)
  | Reset v :: h' => s' <- stack_reset v s ;; g <- stack_hist dbg s' h' ;; Ok (Reset v :: g)
  end.
Lemma stack_hist_nil dbg : forall h, stack_hist dbg [] h = Ok h.
Proof. induction h as [|[x|v] h IH]; [reflexivity| |]; cbn [stack_hist stack_value stack_reset bind]; now rewrite IH. Qed.
Lemma ok_inj {A} (a b : A) : Ok a = Ok b -> a = b. Proof. intros H. now injection H. Qed.
Lemma stack_hist_cons dbg : forall h f s zs, stack_hist dbg (Some f :: s) h = Ok zs <-> exists ys, filter_hist f h = Ok ys /\ stack_hist dbg s ys = Ok zs.
Proof.
  induction h as [|[x|v] h IH]; intros f s zs.
  - cbn [stack_hist filter_hist]. split; [intros H; exists []; auto|]. intros (ys & H1 & H2). apply ok_inj in H1. subst. exact H2.
  - cbn [stack_hist filter_hist stack_value]. split.
    + intros H. apply bind_ok in H as ([y s'] & H1 & H2). apply bind_ok in H1 as ([y1 f'] & H3 & H4). apply bind_ok in H4 as ([z s''] & H5 & H6).
      apply ok_pair in H6 as [-> <-]. apply bind_ok in H2 as (ws & H7 & H8). apply IH in H7 as (ys & H9 & H10).
      exists (Sample y1 :: ys). rewrite H3. cbn [bind]. rewrite H9. split; [reflexivity|]. cbn [stack_hist]. rewrite H5. cbn [bind]. rewrite H10. exact H8.
    + intros (ys & H1 & H2). apply bind_ok in H1 as ([y1 f'] & H3 & H4). apply bind_ok in H4 as (ys' & H5 & H6). rewrite H3. cbn [bind].
      apply ok_inj in H6. subst ys. cbn [stack_hist] in H2. apply bind_ok in H2 as ([z s''] & H7 & H8). rewrite H7. cbn [bind].
      apply bind_ok in H8 as (ws & H9 & H10). rewrite (proj2 (IH f' s'' ws)); [exact H10|]. exists ys'. auto.
  - cbn [stack_hist filter_hist stack_reset]. split.
    + intros H. apply bind_ok in H as (s' & H1 & H2). apply bind_ok in H1 as (s'' & H3 & H4). apply ok_inj in H4. subst s'.
      apply bind_ok in H2 as (ws & H7 & H8). apply IH in H7 as (ys & H9 & H10). exists (Reset v :: ys). rewrite H9. split; [reflexivity|].
      cbn [stack_hist]. rewrite H3. cbn [bind]. rewrite H10. exact H8.
    + intros (ys & H1 & H2). apply bind_ok in H1 as (ys' & H5 & H6). apply ok_inj in H6. subst ys. cbn [stack_hist] in H2.
      apply bind_ok in H2 as (s'' & H7 & H8). rewrite H7. cbn [bind]. apply bind_ok in H8 as (ws & H9 & H10).
      rewrite (proj2 (IH (filter_reset v f) s'' ws)); [exact H10|]. exists ys'. auto.
Qed.
Theorem stack_hist_thm dbg fs : forall h zs, stack_hist dbg (build fs) h = Ok zs <-> hist_through fs h = Ok zs.
Proof.
  rewrite build_map. induction fs as [|f fs IH]; intros h zs; cbn [map hist_through].
  - rewrite stack_hist_nil. reflexivity.
  - rewrite stack_hist_cons, bind_ok. split; intros (ys & H1 & H2); exists ys; split; auto; now apply IH.
Qed.

(** value() right after reset_to *)
Definition settable (f : filter) : Prop := forall v s, cur f (rst f v s) = v.
Lemma five_settable : (forall f, settable (of_ewma f)) /\ (forall f, settable (of_bandpass f)) /\ (forall dbg f, settable (of_invert dbg f)) /\
  (forall f, settable (of_mapped f)) /\ (forall v, settable (passthrough v)).
Proof. repeat split; intros; intros v' s; reflexivity. Qed.
Lemma stack_reset_last v : forall s f s', stack_reset v (s ++ [Some f]) = Ok s' -> exists s1, s' = s1 ++ [Some (filter_reset v f)].
Proof.
  induction s as [|[g|] s IH]; intros f s' H; cbn [app stack_reset bind] in H.
  - apply ok_inj in H. subst. exists []. reflexivity.
  - apply bind_ok in H as (s'' & H1 & H2). apply ok_inj in H2. subst. destruct (IH _ _ H1) as (s1 & ->). exists (Some (filter_reset v g) :: s1). reflexivity.
  - discriminate.
Qed.
Theorem stack_reset_value v s f s' : settable f -> stack_reset v (s ++ [Some f]) = Ok s' -> stack_current s' = Ok v.
Proof.
  intros S H. destruct (stack_reset_last v s f s' H) as (s1 & ->). unfold stack_current. rewrite last_last.
  destruct (s1 ++ _) eqn:Es; [destruct s1; discriminate|]. unfold filter_value, filter_reset. cbn [cur st]. now rewrite S.
Qed.

(** EWMA: after a reset the outputs are those of a new filter, whatever came before *)
Lemma ewma_fresh : forall v f xs, ewma_run xs (ewma_reset v f) = ewma_run xs (ewma_new (ew_k f)).
Proof. intros v f [|x xs]; reflexivity. Qed.
(** a history of one EWMA: only what came after the last reset matters *)
Lemma ewma_hist_run xs : forall f, filter_hist (of_ewma f) (map Sample xs) = Ok (map Sample (ewma_run xs f)).
Proof.
  induction xs as [|x xs IH]; intros f; [reflexivity|]. cbn [map filter_hist ewma_run]. unfold run_filter. cbn [of_ewma step st].
  destruct (ewma_value x f) as [y f'] eqn:E. cbn [bind]. change (mkFilter _ f' _ _ _) with (of_ewma f'). rewrite IH. reflexivity.
Qed.
Lemma ewma_hist_reset k : forall h f v xs, ew_k f = k -> exists pre, length pre = length h /\
  filter_hist (of_ewma f) (h ++ Reset v :: map Sample xs) = Ok (pre ++ Reset v :: map Sample (ewma_run xs (ewma_new k))).
Proof.
  induction h as [|[x|w] h IH]; intros f v xs K; cbn [app filter_hist].
  - exists []. split; [reflexivity|]. change (filter_reset v (of_ewma f)) with (of_ewma (ewma_reset v f)). rewrite ewma_hist_run, ewma_fresh, K. reflexivity.
  - unfold run_filter. cbn [of_ewma step st]. destruct (ewma_value x f) as [y f'] eqn:E. cbn [bind]. change (mkFilter _ f' _ _ _) with (of_ewma f').
    destruct (IH f' v xs) as (pre & L & ->).
    { unfold ewma_value in E. destruct (f_eq _ _); injection E as <- <-; exact K. }
    exists (Sample y :: pre). split; [cbn; lia|reflexivity].
  - change (filter_reset w (of_ewma f)) with (of_ewma (ewma_reset w f)). destruct (IH (ewma_reset w f) v xs K) as (pre & L & ->).
    exists (Reset w :: pre). split; [cbn; lia|reflexivity].
Qed.

(** Invert, MappedRange, Passthrough: each output is that of the sample alone, so a reset has no effect on later outputs *)
Fixpoint each (g : float -> outcome float) (h : list fop) : outcome (list fop) :=
  match h with
  | [] => Ok []
  | Sample x :: h' => y <- g x ;; r <- each g h' ;; Ok (Sample y :: r)
  | Reset v :: h' => r <- each g h' ;; Ok (Reset v :: r)
  end.
Definition output {A} (o : outcome (float * A)) : outcome float := '(y, _) <- o ;; Ok y.
Lemma invert_each dbg lo hi v0 : forall h v, filter_hist (of_invert dbg (mkInv lo hi v)) h = each (fun x => output (invert_value dbg x (mkInv lo hi v0))) h.
Proof.
  induction h as [|[x|w] h IH]; intros v; [reflexivity| |].
  - cbn [filter_hist each]. unfold run_filter, output. cbn [of_invert step st]. unfold invert_value. cbn [in_lo in_hi].
    destruct (sassert _ _); cbn [bind]; try reflexivity. change (mkFilter invert (mkInv lo hi ?a) _ _ _) with (of_invert dbg (mkInv lo hi a)).
    match goal with |- context [mkInv lo hi ?a] => change (mkFilter _ (mkInv lo hi a) _ _ _) with (of_invert dbg (mkInv lo hi a)); rewrite (IH a) end. reflexivity.
  - cbn [filter_hist each]. change (filter_reset w _) with (of_invert dbg (mkInv lo hi w)). rewrite IH. reflexivity.
Qed.
Lemma mapped_each a b c d t v0 : forall h v, filter_hist (of_mapped (mkMap a b c d t v)) h = each (fun x => output (mapped_value x (mkMap a b c d t v0))) h.
Proof.
  induction h as [|[x|w] h IH]; intros v; [reflexivity| |].
  - cbn [filter_hist each]. unfold run_filter, output. cbn [of_mapped step st]. unfold mapped_value. cbn [mr_ilo mr_ihi mr_olo mr_ohi mr_throw].
    destruct (_ && _); cbn [bind]; try reflexivity. unfold map_line. cbn [mr_ilo mr_ihi mr_olo mr_ohi].
    match goal with |- context [mkMap a b c d t ?a1] => change (mkFilter _ (mkMap a b c d t a1) _ _ _) with (of_mapped (mkMap a b c d t a1)); rewrite (IH a1) end. reflexivity.
  - cbn [filter_hist each]. change (filter_reset w _) with (of_mapped (mkMap a b c d t w)). rewrite IH. reflexivity.
Qed.
Lemma pass_each : forall h v, filter_hist (passthrough v) h = Ok h.
Proof.
  induction h as [|[x|w] h IH]; intros v; [reflexivity| |]; cbn [filter_hist].
  - change (run_filter x (passthrough v)) with (Ok (x, passthrough x)). cbn [bind]. now rewrite IH.
  - change (filter_reset w _) with (passthrough w). now rewrite IH.
Qed.
Theorem no_effect : (forall dbg f h, filter_hist (of_invert dbg f) h = each (fun x => output (invert_value dbg x f)) h) /\
  (forall f h, filter_hist (of_mapped f) h = each (fun x => output (mapped_value x f)) h) /\ (forall v h, filter_hist (passthrough v) h = Ok h).
Proof.
  split; [|split]; [intros dbg [lo hi v] h; apply invert_each|intros [a b c d t v] h; apply mapped_each|intros v h; apply pass_each].
Qed.

(** BandPass *)
Fixpoint bp_after (h : list fop) (f : bandpass) : outcome bandpass :=
  match h with
  | [] => Ok f
  | Sample x :: h' => f' <- bp_sample x f ;; bp_after h' f'
  | Reset v :: h' => bp_after h' (bp_reset v f)
  end.
Lemma bp_sample_keeps x f f' : bp_sample x f = Ok f' -> bp_inv f -> bp_cfg f' = bp_cfg f /\ bp_inv f'.
Proof.
  unfold bp_sample. set (f1 := if f_eq (bp_value f) bp_default then bp_reset x f else f). intros H I.
  assert (C1 : bp_cfg f1 = bp_cfg f /\ bp_inv f1) by (unfold f1; destruct (f_eq _ _); auto). destruct C1 as [C1 I1].
  set (f2 := match bc_mode (bp_cfg f1) with RELATIVE => bp_limits f1 | ABSOLUTE => f1 end) in H.
  assert (C2 : bp_cfg f2 = bp_cfg f /\ bp_inv f2).
  { unfold f2. destruct (bc_mode (bp_cfg f1)) eqn:M; [|auto]. split; [exact C1|]. intros A. cbn [bp_limits bp_cfg] in A. congruence. }
  destruct C2 as [C2 I2]. cbv zeta in H.
  destruct (_ && _); [|destruct (_ <? _); [destruct (bc_throw _)|]]; try discriminate; apply ok_inj in H; subst f'; (split; [exact C2|exact I2]).
Qed.
Lemma bp_after_keeps : forall h f f', bp_after h f = Ok f' -> bp_inv f -> bp_cfg f' = bp_cfg f /\ bp_inv f'.
Proof.
  induction h as [|[x|v] h IH]; intros f f' H I; cbn [bp_after] in H.
  - apply ok_inj in H. subst. auto.
  - apply bind_ok in H as (f1 & H1 & H2). destruct (bp_sample_keeps x f f1 H1 I) as [C1 I1]. destruct (IH _ _ H2 I1) as [C2 I2]. split; [congruence|exact I2].
  - destruct (IH _ _ H I) as [C2 I2]. auto.
Qed.
(** The outputs after any history and a reset: those of a band around the value given, with the rejections so far *)
Theorem bp_reset_thm c h v xs f : bp_after h (bp_new c) = Ok f -> Forall (fun x => f_eq x bp_default = false) (v :: xs) ->
  bp_run xs (bp_reset v f) = of_option (band (in_band c) (bc_limit c) (bc_throw c) v (bp_rejections f) xs).
Proof.
  intros H F. destruct (bp_after_keeps h _ _ H (bp_new_inv c)) as [C I]. inversion F as [|? ? F1 F2]; subst.
  rewrite (bp_run_eq xs (bp_reset v f) I F1 F2). cbn [bp_reset bp_cfg bp_value bp_rejections]. rewrite C. reflexivity.
Qed.
(** in particular after an in-band sample, and on a filter that had no sample: as if nothing had come before *)
Lemma bp_in_band_zero c f x f' : bp_inv f -> bp_cfg f = c -> f_eq (bp_value f) bp_default = false -> in_band c (bp_value f) x = true -> bp_sample x f = Ok f' -> bp_rejections f' = 0.
Proof.
  intros I C N B H. destruct (bp_step_eq x f I N) as (f1 & _ & _ & E). unfold bp_step in E. rewrite H in E. cbn [bind] in E. rewrite C, B in E.
  apply ok_pair in E as [_ E]. first [now rewrite E|now rewrite <- E].
Qed.
Lemma bp_after_app h1 h2 : forall f, bp_after (h1 ++ h2) f = (f' <- bp_after h1 f ;; bp_after h2 f').
Proof.
  induction h1 as [|[x|v] h1 IH]; intros f; cbn [app bp_after bind]; [reflexivity| |apply IH].
  destruct (bp_sample x f); cbn [bind]; auto.
Qed.
Theorem bp_reset_fresh c h x v xs f0 f : bp_after h (bp_new c) = Ok f0 -> f_eq (bp_value f0) bp_default = false -> in_band c (bp_value f0) x = true ->
  bp_after (h ++ [Sample x]) (bp_new c) = Ok f -> Forall (fun x => f_eq x bp_default = false) (v :: xs) ->
  bp_run xs (bp_reset v f) = bp_run xs (bp_reset v (bp_new c)) /\ bp_run xs (bp_reset v f) = of_option (band (in_band c) (bc_limit c) (bc_throw c) v 0 xs).
Proof.
  intros H0 N B H F. assert (E := bp_reset_thm c [] v xs (bp_new c) eq_refl F). cbn [bp_new bp_limits bp_rejections] in E.
  rewrite (bp_reset_thm c _ v xs f H F), E. assert (Z : bp_rejections f = 0); [|now rewrite Z].
  rewrite bp_after_app, H0 in H. cbn [bind bp_after] in H. apply bind_ok in H as (f' & H1 & H2). apply ok_inj in H2. subst f'.
  destruct (bp_after_keeps h _ _ H0 (bp_new_inv c)) as [C I]. eapply bp_in_band_zero; eauto.
Qed.
