(** Lemmas for property C116. *)
From Coq Require Import List Arith Bool Lia.
From Verif Require Import Base ResultModel ResultSpec MoveModel MoveSpec StreamProofs.
Import ListNotations.

Section Move.
Variable den : nat -> Type.
Variable from_bool : forall c, option (bool -> den c).
Variable moved : forall c, den c -> den c.
Variable dbg : bool.
Context {t e i : nat}.
Notation R := (result den t e i).
Notation step := (@mstep den from_bool moved dbg t e i).
Notation run := (@mrun den from_bool moved dbg t e i).

Lemma with_ok {B} (w : list R) n (k : R -> outcome B) b : with_var den w n k = Ok b -> exists r, nth_error w n = Some r /\ k r = Ok b.
Proof. unfold with_var. destruct nth_error as [r|]; [eauto|discriminate]. Qed.

Lemma nth_app_lt {A} (l : list A) x j : j < length l -> nth_error (l ++ [x]) j = nth_error l j.
Proof. apply nth_error_app1. Qed.

(** A move *)
Lemma move_new : forall (w : list R) n r, nth_error w n = Some r -> exists w', step (MMove den n) w = Ok (Done den, w') /\
  nth_error w' (length w) = Some r /\ (exists s, nth_error w' n = Some s /\ s = moved_from den moved r /\ reports s = reports r) /\
  (forall j, j < length w -> j <> n -> nth_error w' j = nth_error w j) /\ length w' = S (length w).
Proof.
  intros w n r H. assert (L : n < length w) by (apply nth_error_Some; congruence). unfold mstep, with_var. rewrite H. eexists. split; [reflexivity|].
  split; [rewrite nth_error_app2, upd_length, Nat.sub_diag by (rewrite upd_length; lia); reflexivity|].
  split; [eexists; split; [rewrite nth_app_lt by (rewrite upd_length; lia); now rewrite nth_error_upd_eq|split; reflexivity]|].
  split; [|now rewrite app_length, upd_length; cbn; lia].
  intros j J N. rewrite nth_app_lt by (rewrite upd_length; lia). apply nth_error_upd_neq. congruence.
Qed.
Lemma move_to : forall (w : list R) m n q r, m <> n -> nth_error w m = Some q -> nth_error w n = Some r ->
  exists w', step (MMoveTo den m n) w = Ok (Done den, w') /\
  nth_error w' m = Some r /\ (exists s, nth_error w' n = Some s /\ s = moved_from den moved r /\ reports s = reports r) /\
  (forall j, j <> m -> j <> n -> nth_error w' j = nth_error w j) /\ length w' = length w.
Proof.
  intros w m n q r N Q H. assert (L : n < length w) by (apply nth_error_Some; congruence). assert (L' : m < length w) by (apply nth_error_Some; congruence).
  unfold mstep, with_var. rewrite Q, H. eexists. split; [reflexivity|].
  split; [apply nth_error_upd_eq; now rewrite upd_length|].
  split; [eexists; split; [rewrite nth_error_upd_neq by congruence; now apply nth_error_upd_eq|split; reflexivity]|].
  split; [|now rewrite !upd_length].
  intros j J1 J2. rewrite !nth_error_upd_neq by congruence. reflexivity.
Qed.

(** Unwrapping *)
Lemma upd_same {A} (l : list A) n x : nth_error l n = Some x -> upd l n x = l.
Proof. revert n. induction l as [|y l IH]; intros [|n] H; cbn in *; try discriminate; [injection H as <-; reflexivity|f_equal; auto]. Qed.
Lemma unwrap_same w r a (r' : R) : unwrap_of den dbg w r = Ok (a, r') -> r' = r.
Proof. destruct w; cbn; intros H; apply bind_ok in H as (x & _ & H); injection H as _ <-; reflexivity. Qed.
Lemma looks_same : forall os w rs w', Forall (looks den) os -> run os w = Ok (rs, w') -> w' = w.
Proof.
  induction os as [|o os IH]; cbn [mrun]; intros w rs w' F H; [now injection H as _ <-|].
  apply Forall_cons_iff in F as [F1 F2]. apply bind_ok in H as ([a w1] & H1 & H). apply bind_ok in H as ([rs1 w2] & H2 & H). injection H as _ <-.
  assert (E : w1 = w).
  { destruct F1; cbn [mstep] in H1; apply with_ok in H1 as (r & N & H1).
    - apply bind_ok in H1 as (x & _ & H1). now injection H1 as _ <-.
    - apply bind_ok in H1 as ([x r'] & U & H1). apply unwrap_same in U. subst r'. injection H1 as _ <-. now apply upd_same. }
  subst w1. eapply IH; eauto.
Qed.
Lemma unwrap_again : forall os w rs w' n x, Forall (looks den) os -> run os w = Ok (rs, w') -> nth_error w n = Some (success den x) ->
  step (MUnwrap den Value n) w' = Ok (AnsT den x, w') /\ step (MRead den Value n) w' = Ok (AnsT den x, w').
Proof.
  intros os w rs w' n x F H N. apply looks_same in H; [|exact F]. subst w'. unfold mstep, with_var. rewrite N. unfold unwrap_of, read_of, unwrap, value.
  assert (G : get den t (success den (e := e) (i := i) x) = Ok x).
  { unfold get. cbn. destruct (Nat.eq_dec t t) as [E|E]; [|congruence]. rewrite (Eqdep_dec.UIP_dec Nat.eq_dec E eq_refl). reflexivity. }
  assert (A : holds den t (success den (e := e) (i := i) x) = true) by (unfold holds; cbn; apply Nat.eqb_refl).
  change (is_success den (success den x)) with true. cbn [orb]. rewrite A, G. destruct dbg; cbn; rewrite upd_same by exact N; split; reflexivity.
Qed.

(** Owners *)
Variable owns : forall c, den c -> option nat.
Hypothesis emptied : forall c x, owns c (moved c x) = None.
Notation own := (owners den owns (t := t) (e := e) (i := i)).
Notation ob := (owns_b den owns (t := t) (e := e) (i := i)).
Definition one (b : bool) : nat := if b then 1 else 0.
Lemma own_app k (w v : list R) : own k (w ++ v) = own k w + own k v.
Proof. unfold owners. rewrite filter_app. apply app_length. Qed.
Lemma own_cons k r (w : list R) : own k (r :: w) = one (ob k r) + own k w.
Proof. unfold owners. cbn. now destruct (ob k r). Qed.
Lemma own_upd k : forall (w : list R) n q r, nth_error w n = Some q -> own k (upd w n r) + one (ob k q) = own k w + one (ob k r).
Proof.
  induction w as [|y w IH]; intros [|n] q r H; cbn [nth_error upd] in *; try discriminate.
  - injection H as <-. rewrite !own_cons. lia.
  - rewrite !own_cons. specialize (IH _ _ r H). lia.
Qed.
Lemma moved_none k (r : R) : ob k (moved_from den moved r) = false.
Proof. unfold owns_b, owned, moved_from, moved_payload. cbn. destruct (rv r) as [[c x]|]; [|reflexivity]. now rewrite emptied. Qed.
Lemma move_step k o w a w' : moves den o -> step o w = Ok (a, w') ->
  own k w' <= own k w /\ ((forall m n, o <> MMoveTo den m n) -> own k w' = own k w).
Proof.
  intros F H. destruct F as [n|m n N|j n]; cbn [mstep] in H; apply with_ok in H as (q & Q & H).
  - injection H as _ <-. rewrite own_app, (own_cons k q []). pose proof (own_upd k w n q (moved_from den moved q) Q) as U. rewrite moved_none in U.
    cbn [one] in U. change (own k []) with 0. split; [|intros _]; lia.
  - apply with_ok in H as (r & Hr & H). injection H as _ <-. split; [|intros C; exfalso; now apply (C m n)].
    pose proof (own_upd k w n r (moved_from den moved r) Hr) as U. rewrite moved_none in U. cbn [one] in U.
    assert (Q' : nth_error (upd w n (moved_from den moved r)) m = Some q) by (rewrite nth_error_upd_neq; congruence).
    pose proof (own_upd k _ m q r Q') as V. lia.
  - apply bind_ok in H as (x & _ & H). injection H as _ <-. split; auto.
Qed.
Lemma move_run k : forall os w rs w', Forall (moves den) os -> run os w = Ok (rs, w') ->
  own k w' <= own k w /\ ((forall m n, ~ In (MMoveTo den m n) os) -> own k w' = own k w).
Proof.
  induction os as [|o os IH]; cbn [mrun]; intros w rs w' F H; [injection H as _ <-; split; auto|].
  apply Forall_cons_iff in F as [F1 F2]. apply bind_ok in H as ([a w1] & H1 & H). apply bind_ok in H as ([rs1 w2] & H2 & H). injection H as _ <-.
  destruct (move_step k _ _ _ _ F1 H1) as [A B]. destruct (IH _ _ _ F2 H2) as [C D]. split; [lia|].
  intros N. rewrite D, B; [reflexivity| |].
  - intros m n E. apply (N m n). now left.
  - intros m n E. apply (N m n). now right.
Qed.
Lemma copy_step k w n a w' r : nth_error w n = Some r -> step (MCopy den n) w = Ok (a, w') -> own k w' = own k w + one (ob k r).
Proof. intros N H. cbn [mstep] in H. apply with_ok in H as (q & Q & H). injection H as _ <-. rewrite Q in N. injection N as ->. rewrite own_app, own_cons. cbn. lia. Qed.

(** Every variable stays in one of the four states *)
Lemma moved_lawful (r : R) : lawful r -> lawful (moved_from den moved r).
Proof.
  intros [|x|x|x]; [apply (L_none)|apply (L_good (moved t x))|apply (L_half (moved i x))|apply (L_bad (moved e x))].
Qed.
Lemma upd_forall {A} (P : A -> Prop) : forall l n x, Forall P l -> P x -> Forall P (upd l n x).
Proof. induction l as [|y l IH]; intros [|n] x F H; cbn; auto; apply Forall_cons_iff in F as [F1 F2]; constructor; auto. Qed.
Lemma copy_lawful (r : R) : lawful r -> lawful (copy_of_variable den from_bool r).
Proof. intros H. unfold copy_of_variable. destruct Nat.eq_dec; [exact H|]. destruct from_bool; [apply L_bad|exact H]. Qed.
Lemma chain_lawful f (r r1 r2 : R) : lawful r -> (forall x, lawful (snd (f x))) -> chain_in den from_bool dbg f r = Ok (r1, r2) -> lawful r1 /\ lawful r2.
Proof.
  intros H F E. unfold chain_in in E. destruct (is_failed den r || is_success den r) eqn:T.
  - injection E as <- <-. split; [exact H|now apply copy_lawful].
  - apply bind_ok in E as (x & X & E). injection E as <- <-. split; [|apply F].
    unfold intermediary_value_mut in X. apply bind_ok in X as (u & U & X). destruct H as [|y|y|y]; try discriminate.
    apply (L_half (fst (f x))).
Qed.
Lemma tame_step o w a w' : tame den o -> Forall lawful w -> step o w = Ok (a, w') -> Forall lawful w'.
Proof.
  intros T F H. assert (N : forall n r, nth_error w n = Some r -> lawful r) by (intros n r E; apply nth_error_In in E; rewrite Forall_forall in F; auto).
  destruct T; cbn [mstep] in H; try (apply with_ok in H as (q & Q & H)).
  - injection H as _ <-. apply Forall_app. auto.
  - injection H as _ <-. apply Forall_app. eauto.
  - injection H as _ <-. apply Forall_app. split; [|eauto]. apply upd_forall; [exact F|]. apply moved_lawful. eauto.
  - apply with_ok in H as (r & Hr & H). injection H as _ <-. apply upd_forall; eauto.
  - apply with_ok in H as (r & Hr & H). injection H as _ <-. apply upd_forall; [apply upd_forall; [exact F|apply moved_lawful; eauto]|eauto].
  - apply bind_ok in H as (x & _ & H). injection H as _ <-. exact F.
  - apply bind_ok in H as ([x r'] & U & H). apply unwrap_same in U. subst r'. injection H as _ <-. rewrite upd_same; assumption.
  - apply bind_ok in H as ([r1 r2] & U & H). injection H as _ <-. apply chain_lawful in U as [U1 U2]; eauto.
    apply Forall_app. split; [|auto]. apply upd_forall; auto.
Qed.
Lemma tame_run : forall os w rs w', Forall (tame den) os -> Forall lawful w -> run os w = Ok (rs, w') -> Forall lawful w'.
Proof.
  induction os as [|o os IH]; cbn [mrun]; intros w rs w' T F H; [now injection H as _ <-|].
  apply Forall_cons_iff in T as [T1 T2]. apply bind_ok in H as ([a w1] & H1 & H). apply bind_ok in H as ([rs1 w2] & H2 & H). injection H as _ <-.
  eapply IH; [exact T2| |exact H2]. eapply tame_step; eauto.
Qed.
End Move.
