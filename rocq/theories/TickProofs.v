(** Proofs about clocks that advance within calls (TickModel). *)
From Coq Require Import ZArith Lia Bool List Permutation.
From Verif Require Import Base KTimeModel KTimeProofs TimersModel TimersSpec TimersProofs LatchModel LatchSpec TickModel TickSpec.
Import ListNotations.
Open Scope Z_scope.

(** ** Timer *)
Lemma polls_at_sum : forall rs s a b, short s -> Forall (fun r => short (fst r) /\ short (snd r)) rs ->
  total (polls_at (timer_new s) (rs ++ [(a, b)])) = a - s - within rs.
Proof.
  induction rs as [|[a0 b0] rs IH]; intros s a b Hs Hr; cbn [app polls_at since_last_at].
  - unfold ksub. rewrite from_other_same. cbn [tlast timer_new total fold_right within map]. rewrite short_near by exact Hs. lia.
  - inversion Hr as [|? ? [H1 H2] H3]; subst. unfold ksub. rewrite from_other_same. cbn [tlast timer_new].
    rewrite short_near by exact Hs. unfold timer_reset. change (mkTimer b0) with (timer_new b0).
    cbn [total fold_right within map fst snd]. cbn [fst snd] in *. specialize (IH b0 a b H2 H3). unfold total, within in IH. rewrite IH. lia.
Qed.
Lemma within_nonneg : forall rs t, in_turn t rs -> 0 <= within rs.
Proof.
  induction rs as [|[a b] rs IH]; intros t H; [unfold within; cbn; lia|]. destruct H as (H1 & H2 & H3). apply IH in H3.
  unfold within in *. cbn [map fold_right fst snd]. lia.
Qed.
Theorem polls_at_thm rs s a b : short s -> in_turn s (rs ++ [(a, b)]) -> Forall (fun r => short (fst r) /\ short (snd r)) rs ->
  total (polls_at (timer_new s) (rs ++ [(a, b)])) = a - s - within rs /\ 0 <= within rs.
Proof.
  intros Hs Ht Hr. split; [apply polls_at_sum; assumption|]. apply (within_nonneg rs s). clear Hr Hs. revert s Ht.
  induction rs as [|[a0 b0] rs IH]; intros s Ht; [exact I|]. destruct Ht as (H1 & H2 & H3). split; [exact H1|]. split; [exact H2|]. apply IH. exact H3.
Qed.

(** ** SRLatch *)
Section Latch.
Variable F : Type.
Variable ltb : F -> F -> bool.
Variable cfg : config F.
Variable clk : nat -> Z.
Notation step := (new_reading_at F ltb cfg clk).
Notation run := (readings_at F ltb cfg clk).
Definition least (on : bool) : Z := if on then min_on F cfg else min_off F cfg.

Lemma step_at n v l l' n' : step n v l = (l', n') ->
  (n < n')%nat /\ (l' = l \/ tlast (lturned l') = clk (n' - 1)) /\
  (lvalue l' <> lvalue l -> tlast (lturned l') = clk (n' - 1) /\ near24 (least (lvalue l)) <= clk n - near24 (tlast (lturned l))).
Proof.
  unfold new_reading_at, least. cbv zeta. unfold time_since_last. cbn [fst]. unfold ksub, klt. rewrite Nat.add_0_r, !from_other_same.
  destruct (lvalue l) eqn:L; cbn [andb negb]; rewrite ?andb_true_r, ?andb_false_r, ?orb_false_r, ?orb_false_l; cbn [orb andb].
  - destruct (Z.ltb_spec (clk n - near24 (tlast (lturned l))) (near24 (min_on F cfg))).
    { intros [= <- <-]. split; [lia|]. split; [auto|]. congruence. }
    assert (B : forall b m, (n < m)%nat -> (latch_set (clk (m - 1)%nat) b l, m) = (l', n') ->
      (n < n')%nat /\ (l' = l \/ tlast (lturned l') = clk (n' - 1)%nat) /\
      (lvalue l' <> true -> tlast (lturned l') = clk (n' - 1)%nat /\ near24 (min_on F cfg) <= clk n - near24 (tlast (lturned l)))).
    { intros b m Hm [= <- <-]. cbn. auto. }
    destruct (kne MS MS (max_on F cfg) 0); cbn [andb].
    + destruct (kgt MS MS _ (max_on F cfg)); [intros E; apply (B false (n + 3)%nat); [lia|]; replace (n + 3 - 1)%nat with (n + 2)%nat by lia; exact E|].
      destruct (ltb (high F cfg) v); [intros E; apply (B true (n + 2 + 1)%nat); [lia|]; replace (n + 2 + 1 - 1)%nat with (n + 2)%nat by lia; exact E|].
      destruct (ltb v (low F cfg)); [intros E; apply (B false (n + 2 + 1)%nat); [lia|]; replace (n + 2 + 1 - 1)%nat with (n + 2)%nat by lia; exact E|].
      intros [= <- <-]. split; [lia|]. split; [auto|]. congruence.
    + destruct (ltb (high F cfg) v); [intros E; apply (B true (n + 1 + 1)%nat); [lia|]; replace (n + 1 + 1 - 1)%nat with (n + 1)%nat by lia; exact E|].
      destruct (ltb v (low F cfg)); [intros E; apply (B false (n + 1 + 1)%nat); [lia|]; replace (n + 1 + 1 - 1)%nat with (n + 1)%nat by lia; exact E|].
      intros [= <- <-]. split; [lia|]. split; [auto|]. congruence.
  - destruct (Z.ltb_spec (clk n - near24 (tlast (lturned l))) (near24 (min_off F cfg))).
    { intros [= <- <-]. split; [lia|]. split; [auto|]. congruence. }
    assert (B : forall b m, (n < m)%nat -> (latch_set (clk (m - 1)%nat) b l, m) = (l', n') ->
      (n < n')%nat /\ (l' = l \/ tlast (lturned l') = clk (n' - 1)%nat) /\
      (lvalue l' <> false -> tlast (lturned l') = clk (n' - 1)%nat /\ near24 (min_off F cfg) <= clk n - near24 (tlast (lturned l)))).
    { intros b m Hm [= <- <-]. cbn. auto. }
    destruct (kne MS MS (max_off F cfg) 0); cbn [andb].
    + destruct (kgt MS MS _ (max_off F cfg)); [intros E; apply (B true (n + 3)%nat); [lia|]; replace (n + 3 - 1)%nat with (n + 2)%nat by lia; exact E|].
      destruct (ltb (high F cfg) v); [intros E; apply (B true (n + 2 + 1)%nat); [lia|]; replace (n + 2 + 1 - 1)%nat with (n + 2)%nat by lia; exact E|].
      destruct (ltb v (low F cfg)); [intros E; apply (B false (n + 2 + 1)%nat); [lia|]; replace (n + 2 + 1 - 1)%nat with (n + 2)%nat by lia; exact E|].
      intros [= <- <-]. split; [lia|]. split; [auto|]. congruence.
    + destruct (ltb (high F cfg) v); [intros E; apply (B true (n + 1 + 1)%nat); [lia|]; replace (n + 1 + 1 - 1)%nat with (n + 1)%nat by lia; exact E|].
      destruct (ltb v (low F cfg)); [intros E; apply (B false (n + 1 + 1)%nat); [lia|]; replace (n + 1 + 1 - 1)%nat with (n + 1)%nat by lia; exact E|].
      intros [= <- <-]. split; [lia|]. split; [auto|]. congruence.
Qed.
Lemma run_app : forall vs l n ws, run l n (vs ++ ws) = let (l', n') := run l n vs in run l' n' ws.
Proof. induction vs as [|v vs IH]; intros l n ws; cbn [app readings_at]; [reflexivity|]. destruct (step n v l). apply IH. Qed.

Hypothesis C : steady clk.
Lemma run_later : forall vs l n l' n' u, run l n vs = (l', n') -> u <= clk n -> u <= tlast (lturned l) -> u <= tlast (lturned l') /\ (n <= n')%nat.
Proof.
  induction vs as [|v vs IH]; intros l n l' n' u E Hn Hu; cbn [readings_at] in E; [injection E as <- <-; auto|].
  destruct (step n v l) as [l1 n1] eqn:E1. destruct (step_at _ _ _ _ _ E1) as (H1 & H2 & _).
  destruct (IH _ _ _ _ u E) as [A B].
  - specialize (C n n1). lia.
  - destruct H2 as [-> | ->]; [exact Hu|]. specialize (C n (n1 - 1)%nat). lia.
  - split; [exact A|lia].
Qed.

Theorem latch_gap pre v1 mid v2 :
  let out vs := response (fst (latch_at F ltb cfg clk vs)) in
  let reads vs := snd (latch_at F ltb cfg clk vs) in
  out (pre ++ [v1]) <> out pre -> out (pre ++ v1 :: mid ++ [v2]) <> out (pre ++ v1 :: mid) ->
  near24 (least (out (pre ++ v1 :: mid))) <= clk (reads (pre ++ v1 :: mid)) - near24 (clk (reads (pre ++ [v1]) - 1)%nat).
Proof.
  cbv zeta. unfold latch_at. set (l0 := latch_new F cfg (clk 0%nat)).
  destruct (run l0 1 pre) as [l n] eqn:E. destruct (step n v1 l) as [l1 n1] eqn:E1. destruct (run l1 n1 mid) as [l2 n2] eqn:E2. destruct (step n2 v2 l2) as [l3 n3] eqn:E3.
  assert (X1 : run l0 1 (pre ++ [v1]) = (l1, n1)) by (rewrite run_app, E; cbn [readings_at]; rewrite E1; reflexivity).
  assert (X2 : run l0 1 (pre ++ v1 :: mid) = (l2, n2)) by (rewrite run_app, E; cbn [readings_at]; rewrite E1; exact E2).
  assert (X3 : run l0 1 (pre ++ v1 :: mid ++ [v2]) = (l3, n3)).
  { change (v1 :: mid ++ [v2]) with ((v1 :: mid) ++ [v2]). rewrite app_assoc, run_app, X2. cbn [readings_at]. rewrite E3. reflexivity. }
  rewrite X1, X2, X3, ?E. cbn [fst snd]. unfold response. intros H1 H2.
  destruct (step_at _ _ _ _ _ E1) as (A1 & _ & A2). destruct (A2 H1) as [A3 _]. destruct (step_at _ _ _ _ _ E3) as (_ & _ & B2). destruct (B2 H2) as [_ B3].
  destruct (run_later mid l1 n1 l2 n2 (clk (n1 - 1)%nat) E2) as [D _]; [apply C; lia|lia|].
  apply near24_mono in D. lia.
Qed.
End Latch.

Theorem latch_gap_exact F ltb cfg clk : steady clk -> sane F cfg -> 0 <= clk 0%nat -> forall pre v1 mid v2,
  let out vs := response (fst (latch_at F ltb cfg clk vs)) in
  let reads vs := snd (latch_at F ltb cfg clk vs) in
  clk (reads (pre ++ [v1]) - 1)%nat <= 2 ^ 24 ->
  out (pre ++ [v1]) <> out pre -> out (pre ++ v1 :: mid ++ [v2]) <> out (pre ++ v1 :: mid) ->
  (if out (pre ++ v1 :: mid) then min_on F cfg else min_off F cfg) <= clk (reads (pre ++ v1 :: mid)) - clk (reads (pre ++ [v1]) - 1)%nat.
Proof.
  intros C (S1 & S2 & S3 & S4) C0 pre v1 mid v2 out reads B H1 H2.
  pose proof (latch_gap F ltb cfg clk C pre v1 mid v2 H1 H2) as G. fold out in G. fold reads in G.
  assert (0 <= clk (reads (pre ++ [v1]) - 1)%nat) by (pose proof (C 0%nat (reads (pre ++ [v1]) - 1)%nat); lia).
  rewrite (near24_id (clk (reads (pre ++ [v1]) - 1)%nat)) in G by lia. unfold least in G.
  destruct (out (pre ++ v1 :: mid)); rewrite near24_id in G by lia; exact G.
Qed.
Theorem latch_gap_any F ltb cfg clk : steady clk -> nonneg F cfg -> 0 <= clk 0%nat -> forall pre v1 mid v2,
  let out vs := response (fst (latch_at F ltb cfg clk vs)) in
  let reads vs := snd (latch_at F ltb cfg clk vs) in
  let least := if out (pre ++ v1 :: mid) then min_on F cfg else min_off F cfg in
  out (pre ++ [v1]) <> out pre -> out (pre ++ v1 :: mid ++ [v2]) <> out (pre ++ v1 :: mid) ->
  2 ^ 24 * (least - (clk (reads (pre ++ v1 :: mid)) - clk (reads (pre ++ [v1]) - 1)%nat)) <= least + clk (reads (pre ++ [v1]) - 1)%nat.
Proof.
  intros C (S1 & S2 & S3 & S4) C0 pre v1 mid v2 out reads lst H1 H2.
  pose proof (latch_gap F ltb cfg clk C pre v1 mid v2 H1 H2) as G. fold out in G. fold reads in G. unfold least in G. fold lst in G.
  assert (0 <= clk (reads (pre ++ [v1]) - 1)%nat) by (pose proof (C 0%nat (reads (pre ++ [v1]) - 1)%nat); lia).
  assert (0 <= lst) by (unfold lst; destruct (out (pre ++ v1 :: mid)); assumption).
  pose proof (near24_error lst). pose proof (near24_error (clk (reads (pre ++ [v1]) - 1)%nat)). lia.
Qed.

(** ** Pipeline *)
Section Pipe.
Variable A : Type.
Notation fut := (Z * A)%type.

Lemma ordered_cons d (x : fut) l : ordered_within d (x :: l) <-> Forall (fun y => fst x <= fst y + d) l /\ ordered_within d l.
Proof.
  split.
  - intros H. split.
    + apply Forall_forall. intros y Hy. apply In_nth_error in Hy. destruct Hy as [j Hj]. apply (H 0%nat (S j)); [lia|reflexivity|exact Hj].
    + intros i j u w Hij Hu Hw. apply (H (S i) (S j)); [lia|exact Hu|exact Hw].
  - intros [H1 H2] i j u w Hij Hu Hw. destruct j as [|j]; [lia|]. cbn [nth_error] in Hw. destruct i as [|i]; cbn [nth_error] in Hu.
    + injection Hu as <-. rewrite Forall_forall in H1. apply H1. eapply nth_error_In, Hw.
    + apply (H2 i j); [lia|exact Hu|exact Hw].
Qed.

(** [D]: the disorder so far; [e1]: how much later than the one behind it, at most, an element is put before it *)
Lemma insert_order (own : bool) clk d D e1 (e : fut) : steady clk -> 0 <= fst e <= 2 ^ 24 ->
  (forall k, 0 <= clk k <= 2 ^ 24 /\ clk k <= clk 1%nat + d) -> e1 = (if own then 0 else d) -> 0 <= e1 -> d <= D ->
  forall l k, (1 <= k)%nat -> Forall (fun o : fut => 0 <= fst o <= 2 ^ 24) l -> ordered_within D l ->
  ordered_within (D + e1) (insert_at A own clk k e l) /\
  forall x : fut, fst x <= fst e + (D + e1) -> Forall (fun y : fut => fst x <= fst y + D) l -> Forall (fun y : fut => fst x <= fst y + (D + e1)) (insert_at A own clk k e l).
Proof.
  intros C He Hk E1 P1 Hd. induction l as [|o l IH]; intros k Hk1 Hl Ho; cbn [insert_at].
  { split; [intros i j u w Hij Hu Hw; destruct j as [|j]; [lia|destruct j; discriminate]|]. intros x Hx _. constructor; [exact Hx|constructor]. }
  inversion Hl as [|? ? L1 L2]; subst. apply ordered_cons in Ho. destruct Ho as [O1 O2].
  assert (W : forall l', Forall (fun y : fut => fst o <= fst y + D) l' -> Forall (fun y : fut => fst o <= fst y + (D + if own then 0 else d)) l').
  { intros l'. apply Forall_impl. intros y Hy. lia. }
  set (re := if own then clk k else clk (k + 1)%nat). set (ro := if own then clk (k + 1)%nat else clk k).
  replace (let (re, ro) := if own then (clk k, clk (k + 1)%nat) else (clk (k + 1)%nat, clk k) in
    if klt MS MS (ksub MS MS (fst e) re) (ksub MS MS (fst o) ro) then e :: o :: l else o :: insert_at A own clk (k + 2) e l)
    with (if klt MS MS (ksub MS MS (fst e) re) (ksub MS MS (fst o) ro) then e :: o :: l else o :: insert_at A own clk (k + 2) e l)
    by (unfold re, ro; destruct own; reflexivity).
  assert (R1 : 0 <= re <= 2 ^ 24 /\ clk 1%nat <= re <= clk 1%nat + d).
  { unfold re. pose proof (Hk k). pose proof (Hk (k + 1)%nat). pose proof (C 1%nat k ltac:(lia)). pose proof (C 1%nat (k + 1)%nat ltac:(lia)). destruct own; lia. }
  assert (R2 : 0 <= ro <= 2 ^ 24 /\ clk 1%nat <= ro <= clk 1%nat + d).
  { unfold ro. pose proof (Hk k). pose proof (Hk (k + 1)%nat). pose proof (C 1%nat k ltac:(lia)). pose proof (C 1%nat (k + 1)%nat ltac:(lia)). destruct own; lia. }
  assert (R3 : if own then re <= ro else ro <= re).
  { unfold re, ro. pose proof (C k (k + 1)%nat ltac:(lia)). destruct own; lia. }
  unfold klt, ksub. rewrite !from_other_same, !near24_id by (rewrite ?near24_id; lia).
  destruct (Z.ltb_spec (fst e - re) (fst o - ro)) as [H|H].
  - assert (EO : fst e <= fst o + (if own then 0 else d)) by (destruct own; lia). split.
    + apply ordered_cons. split.
      * constructor; [lia|]. eapply Forall_impl; [|exact O1]. intros y Hy. cbv beta in Hy. lia.
      * apply ordered_cons. split; [exact (W l O1)|]. intros i j u w Hij Hu Hw. pose proof (O2 i j u w Hij Hu Hw). lia.
    + intros x Hx HF. constructor; [lia|]. eapply Forall_impl; [|exact HF]. intros y Hy. cbv beta in Hy. lia.
  - destruct (IH (k + 2)%nat ltac:(lia) L2 O2) as [I1 I2]. split.
    + apply ordered_cons. split; [|exact I1]. apply I2; [lia|exact O1].
    + intros x Hx HF. inversion HF as [|? ? F1 F2]; subst. constructor; [lia|]. apply I2; assumption.
Qed.

Lemma insert_in own clk (e : fut) : forall l k (P : fut -> Prop), P e -> Forall P l -> Forall P (insert_at A own clk k e l).
Proof.
  induction l as [|o l IH]; intros k P He Hl; cbn [insert_at]; [repeat constructor; exact He|]. inversion Hl; subst.
  destruct own; (destruct (klt MS MS _ _); [constructor; [exact He|exact Hl]|constructor; [assumption|apply IH; assumption]]).
Qed.

Lemma run_snoc own os o : pipe_run A own (os ++ [o]) = pipe_do A own o (pipe_run A own os).
Proof. unfold pipe_run. rewrite fold_left_app. reflexivity. Qed.
Lemma pushes_app (os : list (pop A)) o : pushes (os ++ [o]) = pushes os + pushes [o].
Proof. induction os as [|[? ? ?|] os IH]; cbn [app pushes]; [lia| |]; rewrite ?IH; cbn [pushes]; destruct o; cbn [pushes]; lia. Qed.
Lemma pushes_nonneg (os : list (pop A)) : 0 <= pushes os.
Proof. induction os as [|[? ? ?|] os IH]; cbn [pushes]; lia. Qed.

Theorem pipe_order (own : bool) d os : 0 <= d -> Forall (brief d) os ->
  ordered_within (if own then d else d + pushes os * d) (pipe_run A own os) /\ Forall (fun o : fut => 0 <= fst o <= 2 ^ 24) (pipe_run A own os).
Proof.
  intros Hd. induction os as [|o os IH] using rev_ind; intros Hb.
  { split; [|constructor]. intros i j x y _ H. unfold pipe_run in H; cbn [fold_left] in H. destruct i; discriminate. }
  apply Forall_app in Hb. destruct Hb as [B1 B2]. inversion B2 as [|? ? B3 _]; subst. destruct (IH B1) as [I1 I2]. clear IH.
  rewrite run_snoc, pushes_app. pose proof (pushes_nonneg os) as N.
  destruct o as [clk t a|]; cbn [pipe_do pushes].
  - destruct B3 as (C & C0 & T0 & T1 & CK). unfold push_at. set (e := (kadd MS MS (clk 0%nat) t, a)).
    assert (Ef : fst e = clk 0%nat + t) by (unfold e, kadd; cbn [fst]; rewrite from_other_same, near24_id by lia; reflexivity).
    assert (G : forall k, 0 <= clk k <= 2 ^ 24 /\ clk k <= clk 1%nat + d).
    { intros k. pose proof (CK k). pose proof (C 0%nat k ltac:(lia)). pose proof (C 0%nat 1%nat ltac:(lia)). lia. }
    split; [|apply insert_in; [rewrite Ef; lia|exact I2]].
    destruct (insert_order own clk d (if own then d else d + pushes os * d) (if own then 0 else d) e C ltac:(lia) G eq_refl ltac:(destruct own; lia)
      ltac:(destruct own; nia) (pipe_run A own os) 1%nat ltac:(lia) I2 I1) as [R _].
    intros i j x y Hij Hx Hy. pose proof (R i j x y Hij Hx Hy). destruct own; lia.
  - destruct (pipe_run A own os) as [|p l]; cbn [tl].
    + split; [|constructor]. intros i j x y _ H. destruct i; discriminate.
    + inversion I2; subst. split; [|assumption]. apply ordered_cons in I1. destruct I1 as [_ I1].
      intros i j x y Hij Hx Hy. pose proof (I1 i j x y Hij Hx Hy). destruct own; lia.
Qed.

Lemma insert_perm own clk (e : fut) : forall l k, Permutation (insert_at A own clk k e l) (e :: l).
Proof.
  induction l as [|o l IH]; intros k; cbn [insert_at]; [reflexivity|].
  destruct own; (destruct (klt MS MS _ _); [reflexivity|rewrite IH; apply perm_swap]).
Qed.
Theorem push_perm own clk d a (p : list fut) : Permutation (push_at A own clk d a p) ((kadd MS MS (clk 0%nat) d, a) :: p).
Proof. apply insert_perm. Qed.

Theorem pipe_first (own : bool) d os x l : 0 <= d -> Forall (brief d) os -> pipe_run A own os = x :: l ->
  forall t y, In y l -> t < fst x -> t - (if own then d else d + pushes os * d) < fst y.
Proof.
  intros Hd Hb E t y Hy Ht. destruct (pipe_order own d os Hd Hb) as [O _]. rewrite E in O. apply ordered_cons in O. destruct O as [O _].
  rewrite Forall_forall in O. specialize (O y Hy). lia.
Qed.
End Pipe.

(** On a clock that stands still during a call these are the functions of TimersModel and LatchModel *)
Lemma timer_still r t : since_last_at r r t = time_since_last r true t.
Proof. reflexivity. Qed.
Lemma latch_still F ltb cfg clk n t v l : (forall k, clk (n + k)%nat = t) -> fst (new_reading_at F ltb cfg clk n v l) = new_reading F ltb cfg t v l.
Proof.
  intros H. unfold new_reading_at, new_reading. cbv zeta. rewrite !H. destruct (lvalue l && klt MS MS _ _); [reflexivity|].
  destruct (negb (lvalue l) && klt MS MS _ _); [reflexivity|]. destruct (kne MS MS (max_on F cfg) 0 && lvalue l && _); [reflexivity|].
  destruct (kne MS MS (max_off F cfg) 0 && negb (lvalue l) && _); [reflexivity|].
  destruct (ltb (high F cfg) v); [reflexivity|]. destruct (ltb v (low F cfg)); reflexivity.
Qed.
