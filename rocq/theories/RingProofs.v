(** Refinement of the ring buffer to a bounded queue. *)
From Coq Require Import List Arith ZArith Lia Bool.
From Verif Require Import Base RingOps RingModel RingSpec.
Import ListNotations.

(** [rep r q]: ring [r] stores the queue [q]. *)
Record rep {A} (r : ring A) (q : list A) : Prop := {
  rep_cap : 0 < length (buf r);
  rep_tail : rtail r < length (buf r);
  rep_len : length q <= length (buf r);
  rep_head : rhead r = (rtail r + length q) mod length (buf r);
  rep_full : rfull r = (length q =? length (buf r));
  rep_elem : forall i, i < length q ->
      nth_error (buf r) ((rtail r + i) mod length (buf r)) = nth_error q i
}.

Ltac ringarith :=
  repeat rewrite mod_add_small in * by lia;
  repeat match goal with
         | |- context [?a <? ?b] => destruct (Nat.ltb_spec a b)
         | |- context [?a <=? ?b] => destruct (Nat.leb_spec a b)
         | |- context [?a =? ?b] => destruct (Nat.eqb_spec a b)
         | H : context [?a <? ?b] |- _ => destruct (Nat.ltb_spec a b)
         | H : context [?a <=? ?b] |- _ => destruct (Nat.leb_spec a b)
         | H : context [?a =? ?b] |- _ => destruct (Nat.eqb_spec a b)
         end; try lia.

Section Proofs.
Context {A : Type}.
Variable W : Z.
Implicit Types (r : ring A) (q : list A).

Lemma rep_used r q : rep r q -> used_space r = length q.
Proof.
  intros [Hc Ht Hl Hh Hf He]. unfold used_space, full, capacity. rewrite Hf.
  destruct (Nat.eqb_spec (length q) (length (buf r))); [easy|]. rewrite Hh. ringarith.
Qed.

Lemma rep_free r q : rep r q -> free_space r = length (buf r) - length q.
Proof.
  intros [Hc Ht Hl Hh Hf He]. unfold free_space, full, capacity. rewrite Hf.
  destruct (Nat.eqb_spec (length q) (length (buf r))); [lia|]. rewrite Hh. ringarith.
Qed.

Lemma rep_empty r q : rep r q -> empty r = (length q =? 0).
Proof.
  intros [Hc Ht Hl Hh Hf He]. unfold empty, full. rewrite Hf, Hh.
  destruct (Nat.eqb_spec (length q) (length (buf r))); simpl; ringarith.
Qed.

Lemma rep_is_full r q : rep r q -> full r = (length q =? length (buf r)).
Proof. intros H; exact (rep_full _ _ H). Qed.

Lemma rep_head_lt r q : rep r q -> rhead r < length (buf r).
Proof. intros [Hc Ht Hl Hh Hf He]. rewrite Hh. apply Nat.mod_upper_bound. lia. Qed.

Lemma rep_unique r q1 q2 : rep r q1 -> rep r q2 -> q1 = q2.
Proof.
  intros H1 H2. pose proof (rep_used _ _ H1) as U1. pose proof (rep_used _ _ H2) as U2.
  apply nth_error_ext; intro i. destruct (lt_dec i (length q1)).
  - rewrite <- (rep_elem _ _ H1) by lia. rewrite <- (rep_elem _ _ H2) by lia. reflexivity.
  - assert (nth_error q1 i = None) as -> by (apply nth_error_None; lia).
    symmetry; apply nth_error_None; lia.
Qed.

Lemma ring_new_rep dbg cap (init : A) :
  1 <= cap -> exists r, ring_new dbg cap init = Ok r /\ rep r [] /\ length (buf r) = cap /\ over r = 0%Z.
Proof.
  intros H. unfold ring_new, sassert.
  destruct (Nat.ltb_spec 0 cap); [|lia]. simpl. eexists; split; [reflexivity|].
  split; [|split]; simpl; try reflexivity; try apply repeat_length.
  constructor; simpl; rewrite ?repeat_length; try lia.
  - symmetry. apply Nat.mod_0_l. lia.
  - destruct cap; [lia|reflexivity].
Qed.

(** Pushing into a ring with room. *)
Lemma push_room r q v ro :
  rep r q -> length q < length (buf r) ->
  exists r', push W r v ro = Ok (true, r') /\ rep r' (q ++ [v]) /\
             length (buf r') = length (buf r) /\ over r' = over r.
Proof.
  intros HR Hlt. pose proof (rep_head_lt _ _ HR) as Hhl.
  destruct HR as [Hc Ht Hl Hh Hf He]. unfold push.
  assert (rfull r = false) as Ef by (rewrite Hf; apply Nat.eqb_neq; lia).
  rewrite Ef. simpl. rewrite wr_ok by lia. simpl. rewrite upd_length.
  assert (Hrep : forall full', full' = (length q + 1 =? length (buf r)) ->
     rep (mkRing (upd (buf r) (rhead r) v) ((rhead r + 1) mod length (buf r)) (rtail r) (over r) full') (q ++ [v])).
  { intros full' Hf'. constructor; simpl; rewrite ?upd_length, ?app_length; simpl; try lia.
    - rewrite Hh. ringarith.
    - exact Hf'.
    - intros i Hi. destruct (Nat.eq_dec i (length q)) as [->|Hne].
      + rewrite nth_error_app2, Nat.sub_diag by lia. rewrite Hh at 1.
        rewrite nth_error_upd_eq; [reflexivity|]. apply Nat.mod_upper_bound; lia.
      + rewrite nth_error_app1 by lia. rewrite nth_error_upd_neq.
        * apply He; lia.
        * rewrite Hh. ringarith. }
  destruct (Nat.eqb_spec ((rhead r + 1) mod length (buf r)) (rtail r)) as [E|E].
  - eexists; split; [reflexivity|]. split; [apply Hrep|split; simpl; rewrite ?upd_length; reflexivity].
    symmetry; apply Nat.eqb_eq. rewrite Hh in E. ringarith.
  - eexists; split; [reflexivity|]. split; [apply Hrep|split; simpl; rewrite ?upd_length; reflexivity].
    symmetry; apply Nat.eqb_neq. rewrite Hh in E. ringarith.
Qed.

(** Pushing into a full ring. *)
Lemma push_full_refused r q v :
  rep r q -> length q = length (buf r) -> push W r v false = Ok (false, r).
Proof.
  intros HR E. unfold push. rewrite (rep_full _ _ HR), E, Nat.eqb_refl. reflexivity.
Qed.

Lemma push_full_rollover r q v :
  rep r q -> length q = length (buf r) ->
  exists r', push W r v true = Ok (true, r') /\ rep r' (tl q ++ [v]) /\
             length (buf r') = length (buf r) /\
             over r' = (if length (buf r) =? 1 then over r else wrapW W (over r + 1)).
Proof.
  intros HR E. pose proof (rep_head_lt _ _ HR) as Hhl.
  destruct HR as [Hc Ht Hl Hh Hf He]. unfold push.
  assert (rfull r = true) as Ef by (rewrite Hf; apply Nat.eqb_eq; lia).
  rewrite Ef. simpl. rewrite wr_ok by lia. simpl. rewrite upd_length.
  assert (rhead r = rtail r) as Ehd by (rewrite Hh; ringarith).
  assert (length (tl q) = length q - 1) as Htl by (destruct q; simpl in *; lia).
  assert (Hrep : forall ov',
     rep (mkRing (upd (buf r) (rhead r) v) ((rhead r + 1) mod length (buf r))
                 ((rtail r + 1) mod length (buf r)) ov' true) (tl q ++ [v])).
  { intros ov'. constructor; simpl; rewrite ?upd_length, ?app_length, ?Htl; simpl; try lia.
    - apply Nat.mod_upper_bound; lia.
    - rewrite Ehd. replace (length q - 1 + 1) with (length (buf r)) by lia.
      rewrite mod_add_self, Nat.mod_mod by lia. reflexivity.
    - symmetry; apply Nat.eqb_eq; lia.
    - intros i Hi. rewrite Nat.add_mod_idemp_l by lia.
      replace (rtail r + 1 + i) with (rtail r + (1 + i)) by lia.
      destruct (Nat.eq_dec i (length q - 1)) as [->|Hne].
      + rewrite nth_error_app2, Htl, Nat.sub_diag by lia.
        replace (1 + (length q - 1)) with (length (buf r)) by lia.
        rewrite Ehd. replace ((rtail r + length (buf r)) mod length (buf r)) with (rtail r) by ringarith.
        rewrite nth_error_upd_eq by lia. reflexivity.
      + rewrite nth_error_app1 by lia. rewrite nth_error_upd_neq.
        * rewrite He by lia. destruct q; [simpl in *; lia|reflexivity].
        * rewrite Ehd. ringarith. }
  destruct (Nat.eqb_spec ((rhead r + 1) mod length (buf r)) (rtail r)) as [E1|E1].
  - assert (length (buf r) = 1) as L1 by (rewrite Ehd in E1; ringarith).
    eexists; split; [reflexivity|]. split; [|split; simpl; rewrite ?upd_length, ?L1; reflexivity].
    assert ((rtail r + 1) mod length (buf r) = rtail r) as E2 by congruence.
    specialize (Hrep (over r)). rewrite E2 in Hrep. exact Hrep.
  - eexists; split; [reflexivity|]. split; [apply Hrep|split; simpl; rewrite ?upd_length; try reflexivity].
    assert (length (buf r) <> 1).
    { intros L1. apply E1. rewrite Ehd, L1. rewrite Nat.mod_1_r. lia. }
    destruct (Nat.eqb_spec (length (buf r)) 1); [easy|reflexivity].
Qed.

Lemma lastn_push_full (q : list A) v : 1 <= length q -> lastn (length q) (q ++ [v]) = tl q ++ [v].
Proof.
  intros H. unfold lastn. rewrite app_length. simpl.
  replace (length q + 1 - length q) with 1 by lia. destruct q; simpl in *; [lia|reflexivity].
Qed.

Lemma lastn_all n (l : list A) : length l <= n -> lastn n l = l.
Proof. intros; unfold lastn. replace (length l - n) with 0 by lia. reflexivity. Qed.

Lemma lastn_length n (l : list A) : length (lastn n l) = Nat.min n (length l).
Proof. unfold lastn. rewrite skipn_length. lia. Qed.

Lemma skipn_skipn' n m (l : list A) : skipn n (skipn m l) = skipn (m + n) l.
Proof. revert l; induction m; intros l; simpl; auto. destruct l; simpl; auto. now rewrite skipn_nil. Qed.

Lemma lastn_app_lastn n (l1 l2 : list A) : lastn n (lastn n l1 ++ l2) = lastn n (l1 ++ l2).
Proof.
  unfold lastn. rewrite !app_length, skipn_length.
  rewrite !skipn_app, skipn_skipn', skipn_length.
  destruct (le_lt_dec (length l1) n).
  - replace (length l1 - n) with 0 by lia. rewrite Nat.sub_0_r. reflexivity.
  - replace (length l1 - n + (length l1 - (length l1 - n) + length l2 - n)) with (length l1 + length l2 - n) by lia.
    f_equal. f_equal. lia.
Qed.

(** One push in all cases. *)
Lemma push_rep r q v ro :
  rep r q ->
  exists r', let cap := length (buf r) in
    push W r v ro = Ok (match fst (fifo_step cap q (OpPush v ro)) with RBool b => b | _ => false end, r') /\
    rep r' (snd (fifo_step cap q (OpPush v ro))) /\ length (buf r') = cap.
Proof.
  intros HR. simpl. destruct (Nat.ltb_spec (length q) (length (buf r))) as [Hlt|Hge].
  - destruct (push_room r q v ro HR Hlt) as (r' & E & HR' & L & _).
    exists r'. rewrite E. auto.
  - assert (length q = length (buf r)) as E by (pose proof (rep_len _ _ HR); lia).
    destruct ro.
    + destruct (push_full_rollover r q v HR E) as (r' & Ep & HR' & L & _).
      exists r'. rewrite Ep. simpl. split; [reflexivity|]. split; [|exact L].
      rewrite <- E, lastn_push_full; [exact HR'|]. pose proof (rep_cap _ _ HR). lia.
    + exists r. rewrite (push_full_refused r q v HR E). auto.
Qed.

Lemma push_n_rollover l : forall r q,
  rep r q ->
  exists r', push_n W r l true = Ok (length l, r') /\
             rep r' (lastn (length (buf r)) (q ++ l)) /\ length (buf r') = length (buf r).
Proof.
  induction l as [|v l IH]; intros r q HR; simpl.
  - exists r. rewrite app_nil_r, lastn_all by (apply rep_len; auto). auto.
  - destruct (push_rep r q v true HR) as (r1 & E1 & HR1 & L1). simpl in E1, HR1.
    assert (rep r1 (lastn (length (buf r)) (q ++ [v]))) as HR1'.
    { destruct (Nat.ltb_spec (length q) (length (buf r))); simpl in HR1; [|exact HR1].
      rewrite lastn_all; [exact HR1|]. rewrite app_length; simpl; lia. }
    rewrite E1. destruct (length q <? length (buf r)); simpl;
      (destruct (IH r1 _ HR1') as (r2 & E2 & HR2 & L2); rewrite E2; simpl;
       exists r2; rewrite L1, lastn_app_lastn, <- app_assoc in HR2; simpl in HR2;
       split; [reflexivity|split; [exact HR2|lia]]).
Qed.

Lemma push_n_plain l : forall r q,
  rep r q ->
  exists r', let room := length (buf r) - length q in
             push_n W r l false = Ok (Nat.min (length l) room, r') /\
             rep r' (q ++ firstn room l) /\ length (buf r') = length (buf r) /\ over r' = over r.
Proof.
  induction l as [|v l IH]; intros r q HR; simpl.
  - exists r. rewrite firstn_nil, app_nil_r. auto.
  - destruct (Nat.ltb_spec (length q) (length (buf r))) as [Hlt|Hge].
    + destruct (push_room r q v false HR Hlt) as (r1 & E1 & HR1 & L1 & O1).
      rewrite E1; simpl. destruct (IH r1 _ HR1) as (r2 & E2 & HR2 & L2 & O2).
      rewrite E2; simpl. exists r2. rewrite app_length, L1 in *. simpl in *.
      destruct (length (buf r) - length q) as [|room] eqn:Er; [lia|].
      replace (length (buf r) - (length q + 1)) with room in * by lia.
      rewrite <- app_assoc in HR2. simpl in HR2. split; [reflexivity|]. split; [exact HR2|]. split; congruence.
    + assert (length q = length (buf r)) as E by (pose proof (rep_len _ _ HR); lia).
      rewrite (push_full_refused r q v HR E). simpl. exists r.
      replace (length (buf r) - length q) with 0 by lia. simpl. rewrite app_nil_r. auto.
Qed.

Lemma pop_rep_cons r x q :
  rep r (x :: q) ->
  exists r', pop r = Ok (Some x, r') /\ rep r' q /\ buf r' = buf r /\ over r' = 0%Z.
Proof.
  intros HR. pose proof (rep_empty _ _ HR) as Hem. simpl in Hem.
  destruct HR as [Hc Ht Hl Hh Hf He]. unfold pop. rewrite Hem.
  pose proof (He 0 ltac:(simpl; lia)) as H0. rewrite Nat.add_0_r, Nat.mod_small in H0 by lia.
  rewrite (rd_ok _ _ x H0). simpl. eexists; split; [reflexivity|]. split; [|auto].
  simpl in *. constructor; simpl; try lia.
  - apply Nat.mod_upper_bound; lia.
  - rewrite Hh. rewrite Nat.add_mod_idemp_l by lia. f_equal. lia.
  - symmetry; apply Nat.eqb_neq; lia.
  - intros i Hi. rewrite Nat.add_mod_idemp_l by lia.
    replace (rtail r + 1 + i) with (rtail r + S i) by lia.
    rewrite He by lia. reflexivity.
Qed.

Lemma pop_rep_nil r : rep r [] -> pop r = Ok (None, r).
Proof. intros HR. unfold pop. rewrite (rep_empty _ _ HR). reflexivity. Qed.

Lemma pop_loop_rep n : forall r q,
  rep r q -> n <= length q ->
  exists r', pop_loop r n = Ok (map Some (firstn n q), r') /\ rep r' (skipn n q) /\ buf r' = buf r /\
             over r' = (if n =? 0 then over r else 0%Z).
Proof.
  induction n as [|n IH]; intros r q HR Hn; simpl.
  - exists r. auto.
  - destruct q as [|x q]; simpl in Hn; [lia|].
    destruct (pop_rep_cons r x q HR) as (r1 & E1 & HR1 & B1 & O1). rewrite E1; simpl.
    destruct (IH r1 q HR1 ltac:(lia)) as (r2 & E2 & HR2 & B2 & O2). rewrite E2; simpl.
    exists r2. split; [reflexivity|]. split; [exact HR2|]. split; [congruence|].
    rewrite O2, O1. now destruct (n =? 0).
Qed.

Lemma pop_n_rep r q n :
  rep r q ->
  exists r', pop_n r n = Ok (if length q <? n then [] else map Some (firstn n q), r') /\
             rep r' (if length q <? n then q else skipn n q) /\ buf r' = buf r.
Proof.
  intros HR. unfold pop_n. rewrite (rep_used _ _ HR).
  destruct (Nat.ltb_spec (length q) n).
  - exists r; auto.
  - destruct (pop_loop_rep n r q HR H) as (r' & E & HR' & B & _). exists r'; auto.
Qed.

Lemma peek_rep r q i : rep r q -> peek_at r i = Ok (nth_error q i).
Proof.
  intros HR. unfold peek_at. rewrite (rep_used _ _ HR).
  destruct (Nat.leb_spec (length q) i).
  - apply nth_error_None in H. now rewrite H.
  - rewrite <- (rep_elem _ _ HR) by lia.
    destruct (nth_error q i) as [a|] eqn:E; [|apply nth_error_None in E; lia].
    rewrite <- (rep_elem _ _ HR) in E by lia.
    rewrite (rd_ok _ _ a E). simpl. now rewrite E.
Qed.

Lemma peek_ptr_rep r q i : rep r q ->
  match peek_ptr r i with
  | None => length q <= i
  | Some p => i < length q /\ nth_error (buf r) p = nth_error q i
  end.
Proof.
  intros HR. unfold peek_ptr. rewrite (rep_used _ _ HR).
  destruct (Nat.leb_spec (length q) i); [exact H|]. split; [exact H|]. apply (rep_elem _ _ HR); lia.
Qed.

(** Dropping, for every [n] except the no-op drop on a full ring. *)
Lemma drop_last_rep r q n :
  rep r q -> (1 <= n \/ length q < length (buf r)) ->
  exists r', drop_last W r n = Ok (Nat.min n (length q), r') /\
             rep r' (firstn (length q - n) q) /\ buf r' = buf r.
Proof.
  intros HR Hn. unfold drop_last, retract_head. rewrite (rep_used _ _ HR).
  pose proof (rep_head_lt _ _ HR) as Hhl.
  destruct HR as [Hc Ht Hl Hh Hf He].
  destruct (Nat.eqb_spec (length (buf r)) 0); [lia|]. simpl. rewrite Nat.min_comm.
  eexists; split; [reflexivity|]. split; [|reflexivity].
  set (k := Nat.min n (length q)).
  assert (length (firstn (length q - n) q) = length q - k) as Hfl by (rewrite firstn_length; lia).
  constructor; simpl; rewrite ?Hfl; try lia.
  - assert (k <= length q) by lia.
    destruct (Nat.eq_dec k (length (buf r))) as [Ek|Ek].
    + rewrite Ek, Nat.mod_same, Nat.sub_0_r by lia. replace (length q - length (buf r)) with 0 by lia.
      rewrite Nat.add_0_r, mod_add_self, Hh. replace (length q) with (length (buf r)) by lia.
      rewrite mod_add_self, Nat.mod_mod by lia. reflexivity.
    + rewrite (Nat.mod_small k) by lia. rewrite Hh.
      destruct (Nat.eq_dec k 0) as [->|].
      * rewrite !Nat.sub_0_r.
        rewrite mod_add_self, Nat.mod_mod by lia. reflexivity.
      * rewrite <- Nat.add_sub_assoc by lia. ringarith.
  - symmetry; apply Nat.eqb_neq. lia.
  - intros i Hi. rewrite nth_error_firstn. destruct (Nat.ltb_spec i (length q - n)); [|lia].
    apply He; lia.
Qed.

Lemma drop_first_rep r q n :
  rep r q -> (1 <= n \/ length q < length (buf r)) ->
  exists r', drop_first W r n = Ok (Nat.min n (length q), r') /\
             rep r' (skipn n q) /\ buf r' = buf r.
Proof.
  intros HR Hn. unfold drop_first, advance_tail. rewrite (rep_used _ _ HR).
  destruct HR as [Hc Ht Hl Hh Hf He].
  destruct (Nat.eqb_spec (length (buf r)) 0); [lia|]. simpl. rewrite Nat.min_comm.
  eexists; split; [reflexivity|]. split; [|reflexivity].
  set (k := Nat.min n (length q)).
  assert (length (skipn n q) = length q - k) as Hfl by (rewrite skipn_length; lia).
  constructor; simpl; rewrite ?Hfl; try lia.
  - apply Nat.mod_upper_bound; lia.
  - rewrite Nat.add_mod_idemp_l by lia. rewrite Hh. f_equal. lia.
  - symmetry; apply Nat.eqb_neq. lia.
  - intros i Hi. rewrite Nat.add_mod_idemp_l by lia. rewrite nth_error_skipn.
    replace n with k by lia. rewrite <- He by lia. f_equal. f_equal. lia.
Qed.

Lemma clear_rep r q : rep r q ->
  exists r', clear W r = Ok r' /\ rep r' [] /\ buf r' = buf r.
Proof.
  intros HR. unfold clear. rewrite (rep_used _ _ HR).
  pose proof (rep_cap _ _ HR).
  destruct (drop_last_rep r q (length q) HR) as (r' & E & HR' & B); [lia|].
  rewrite E; simpl. exists r'. rewrite Nat.sub_diag in HR'. auto.
Qed.

(** Exact effect of a zero drop: nothing happens unless the ring is full, in which case everything is lost. *)
Lemma zero_drop_full r q :
  rep r q -> length q = length (buf r) ->
  exists r1 r2, drop_last W r 0 = Ok (0, r1) /\ rep r1 [] /\ buf r1 = buf r /\
                drop_first W r 0 = Ok (0, r2) /\ rep r2 [] /\ buf r2 = buf r.
Proof.
  intros HR E. unfold drop_last, drop_first, retract_head, advance_tail.
  pose proof (rep_head_lt _ _ HR) as Hhl. destruct HR as [Hc Ht Hl Hh Hf He].
  rewrite !Nat.min_0_r. destruct (Nat.eqb_spec (length (buf r)) 0); [lia|]. simpl bind.
  assert (rhead r = rtail r) as Ehd by (rewrite Hh; ringarith).
  do 2 eexists. split; [reflexivity|]. split.
  2:{ split; [reflexivity|]. split; [reflexivity|]. split; [|reflexivity].
      constructor; simpl; rewrite ?Nat.add_0_r; try lia.
      - apply Nat.mod_upper_bound; lia.
      - rewrite Ehd, Nat.mod_mod by lia. symmetry; apply Nat.mod_small; lia.
      - destruct (length (buf r)); [lia|reflexivity]. }
  constructor; simpl; rewrite ?Nat.add_0_r; try lia.
  - rewrite Nat.mod_0_l, Nat.sub_0_r by lia. rewrite Ehd.
    rewrite mod_add_self. reflexivity.
  - destruct (length (buf r)); [lia|reflexivity].
Qed.

(** The step of the model is the step of the queue. *)
Lemma step_refines r q op :
  rep r q -> no_zero_drop op ->
  exists r', ring_step W r op = Ok (fst (fifo_step (length (buf r)) q op), r') /\
             rep r' (snd (fifo_step (length (buf r)) q op)) /\ length (buf r') = length (buf r).
Proof.
  intros HR Hop. destruct op; simpl ring_step.
  - destruct (push_rep r q v rollover HR) as (r' & E & HR' & L). exists r'. rewrite E. simpl bind.
    split; [|auto]. simpl. destruct (length q <? length (buf r)); [reflexivity|].
    now destruct rollover.
  - destruct rollover.
    + destruct (push_n_rollover l r q HR) as (r' & E & HR' & L). exists r'. rewrite E. simpl. auto.
    + destruct (push_n_plain l r q HR) as (r' & E & HR' & L & _). exists r'. rewrite E. simpl. auto.
  - destruct q as [|x q].
    + exists r. rewrite (pop_rep_nil r HR). simpl. auto.
    + destruct (pop_rep_cons r x q HR) as (r' & E & HR' & B & _). exists r'. rewrite E, B. simpl. auto.
  - destruct (pop_n_rep r q n HR) as (r' & E & HR' & B). exists r'. rewrite E, B. simpl.
    destruct (length q <? n); auto.
  - exists r. rewrite (peek_rep r q i HR). simpl. auto.
  - exists r. pose proof (peek_ptr_rep r q i HR) as Hp. destruct (peek_ptr r i) as [p|].
    + destruct Hp as [Hi Ep]. destruct (nth_error q i) as [a|] eqn:E; [|apply nth_error_None in E; lia].
      rewrite (rd_ok _ _ a Ep). simpl. rewrite E. auto.
    + apply nth_error_None in Hp. simpl. rewrite Hp. auto.
  - destruct (drop_last_rep r q n HR (or_introl Hop)) as (r' & E & HR' & B). exists r'. rewrite E, B. simpl. auto.
  - destruct (drop_first_rep r q n HR (or_introl Hop)) as (r' & E & HR' & B). exists r'. rewrite E, B. simpl. auto.
  - destruct (clear_rep r q HR) as (r' & E & HR' & B). exists r'. rewrite E, B. simpl. auto.
  - exists r. rewrite (rep_used _ _ HR). auto.
  - exists r. rewrite (rep_free _ _ HR). auto.
  - exists r. rewrite (rep_empty _ _ HR). auto.
  - exists r. rewrite (rep_is_full _ _ HR). auto.
  - exists r. auto.
Qed.

Lemma run_refines ops : forall r q,
  rep r q -> Forall no_zero_drop ops ->
  exists r', ring_run W r ops = Ok (fst (fifo_run (length (buf r)) q ops), r') /\
             rep r' (snd (fifo_run (length (buf r)) q ops)) /\ length (buf r') = length (buf r).
Proof.
  induction ops as [|op ops IH]; intros r q HR Hops; simpl.
  - exists r; auto.
  - inversion Hops as [|? ? H1 H2]; subst.
    destruct (step_refines r q op HR H1) as (r1 & E1 & HR1 & L1). rewrite E1.
    destruct (fifo_step (length (buf r)) q op) as [x q1]. simpl in *.
    destruct (IH r1 q1 HR1 H2) as (r2 & E2 & HR2 & L2). rewrite E2, L1 in *.
    destruct (fifo_run (length (buf r)) q1 ops) as [xs q2]. simpl in *.
    exists r2. auto.
Qed.

(** Every reachable ring represents some queue, whatever the calls. *)
Lemma step_any r q op :
  rep r q -> exists x r' q', ring_step W r op = Ok (x, r') /\ rep r' q' /\ length (buf r') = length (buf r).
Proof.
  intros HR.
  assert (no_zero_drop op \/ op = OpDropLast 0 \/ op = OpDropFirst 0) as [Hop|Hop].
  { destruct op; simpl; auto; destruct n; auto; left; lia. }
  - destruct (step_refines r q op HR Hop) as (r' & E & HR' & L). eauto 8.
  - destruct (Nat.eq_dec (length q) (length (buf r))) as [E|E].
    + destruct (zero_drop_full r q HR E) as (r1 & r2 & E1 & R1 & B1 & E2 & R2 & B2).
      destruct Hop as [-> | ->]; simpl.
      * rewrite E1; simpl. do 3 eexists. split; [reflexivity|]. split; [exact R1|congruence].
      * rewrite E2; simpl. do 3 eexists. split; [reflexivity|]. split; [exact R2|congruence].
    + pose proof (rep_len _ _ HR).
      destruct Hop as [-> | ->]; simpl.
      * destruct (drop_last_rep r q 0 HR) as (r1 & E1 & R1 & B1); [lia|].
        rewrite E1; simpl. do 3 eexists. split; [reflexivity|]. split; [exact R1|congruence].
      * destruct (drop_first_rep r q 0 HR) as (r1 & E1 & R1 & B1); [lia|].
        rewrite E1; simpl. do 3 eexists. split; [reflexivity|]. split; [exact R1|congruence].
Qed.

Lemma run_any ops : forall r q,
  rep r q -> exists xs r' q', ring_run W r ops = Ok (xs, r') /\ rep r' q' /\ length (buf r') = length (buf r).
Proof.
  induction ops as [|op ops IH]; intros r q HR; simpl.
  - eauto 8.
  - destruct (step_any r q op HR) as (x & r1 & q1 & E1 & HR1 & L1). rewrite E1; simpl.
    destruct (IH r1 q1 HR1) as (xs & r2 & q2 & E2 & HR2 & L2). rewrite E2; simpl.
    do 3 eexists. split; [reflexivity|]. split; [exact HR2|congruence].
Qed.

(** Overrun counter. *)
Lemma push_n_rollover_over l : forall r q,
  rep r q -> 2 <= length (buf r) -> (0 <= over r)%Z ->
  (over r + Z.of_nat (length q + length l) < 2 ^ W)%Z ->
  exists r', push_n W r l true = Ok (length l, r') /\
             over r' = (over r + Z.of_nat ((length q + length l) - length (buf r)))%Z.
Proof.
  induction l as [|v l IH]; intros r q HR Hc H0 Hb; simpl.
  - exists r. split; [reflexivity|]. pose proof (rep_len _ _ HR). lia.
  - simpl in Hb. destruct (Nat.ltb_spec (length q) (length (buf r))) as [Hlt|Hge].
    + destruct (push_room r q v true HR Hlt) as (r1 & E1 & HR1 & L1 & O1).
      rewrite E1; simpl. rewrite <- L1 in Hc.
      destruct (IH r1 _ HR1 Hc) as (r2 & E2 & O2); rewrite ?app_length; simpl; try lia.
      rewrite E2; simpl. exists r2. split; [reflexivity|]. rewrite O2, O1, L1, app_length. simpl. lia.
    + assert (length q = length (buf r)) as E by (pose proof (rep_len _ _ HR); lia).
      destruct (push_full_rollover r q v HR E) as (r1 & E1 & HR1 & L1 & O1).
      assert (length (tl q) = length q - 1) as Htl by (destruct q; simpl in *; lia).
      destruct (Nat.eqb_spec (length (buf r)) 1); [lia|].
      unfold wrapW in O1. rewrite Z.mod_small in O1 by lia.
      rewrite E1; simpl.
      destruct (IH r1 _ HR1) as (r2 & E2 & O2); rewrite ?app_length, ?Htl; simpl; try lia.
      rewrite E2; simpl. exists r2. split; [reflexivity|]. rewrite O2, O1, L1, app_length, Htl. simpl. lia.
Qed.

(** Total number of elements offered by a history. *)
Lemma step_over r q op lost :
  rep r q -> 2 <= length (buf r) -> push_or_pop op -> over r = Z.of_nat lost ->
  (Z.of_nat (lost + length q + offered op) < 2 ^ W)%Z ->
  exists r', ring_step W r op = Ok (fst (fifo_step (length (buf r)) q op), r') /\
             rep r' (snd (fifo_step (length (buf r)) q op)) /\ length (buf r') = length (buf r) /\
             over r' = Z.of_nat (if takes_out q op then 0 else lost + lost_in (length (buf r)) q op) /\
             (if takes_out q op then 0 else lost + lost_in (length (buf r)) q op)
               + length (snd (fifo_step (length (buf r)) q op)) <= lost + length q + offered op.
Proof.
  intros HR Hc Hop Ho Hb. pose proof (rep_len _ _ HR) as Hl. pose proof (rep_cap _ _ HR) as Hcap.
  destruct (step_refines r q op HR) as (r' & E & HR' & L); [destruct op; simpl in *; auto; easy|].
  exists r'. split; [exact E|]. split; [exact HR'|]. split; [exact L|].
  destruct op; simpl in Hop, Hb |- *; try easy; simpl in E.
  - destruct (Nat.ltb_spec (length q) (length (buf r))) as [Hlt|Hge].
    + destruct (push_room r q v rollover HR Hlt) as (r1 & E1 & _ & _ & O1).
      rewrite E1 in E. simpl in E. inversion E; subst r1. simpl. rewrite app_length; simpl.
      destruct rollover; (split; [rewrite O1, Ho; f_equal; lia | lia]).
    + destruct rollover.
      * destruct (push_full_rollover r q v HR ltac:(lia)) as (r1 & E1 & _ & _ & O1).
        rewrite E1 in E. simpl in E. inversion E; subst r1.
        destruct (Nat.eqb_spec (length (buf r)) 1); [lia|].
        unfold wrapW in O1. rewrite Z.mod_small in O1 by lia. simpl.
        rewrite lastn_length, app_length; simpl. split; [rewrite O1, Ho; lia|lia].
      * rewrite (push_full_refused r q v HR ltac:(lia)) in E. simpl in E. inversion E; subst r'. simpl.
        split; [rewrite Ho; f_equal; lia|lia].
  - destruct rollover.
    + destruct (push_n_rollover_over l r q HR Hc ltac:(lia) ltac:(lia)) as (r1 & E1 & O1).
      rewrite E1 in E. simpl in E. inversion E; subst r1. simpl. rewrite lastn_length, app_length.
      split; [rewrite O1, Ho; lia|lia].
    + destruct (push_n_plain l r q HR) as (r1 & E1 & _ & _ & O1).
      rewrite E1 in E. simpl in E. inversion E; subst r1. simpl. rewrite app_length, firstn_length.
      split; [rewrite O1, Ho; lia|lia].
  - destruct q as [|x q].
    + rewrite (pop_rep_nil r HR) in E. simpl in E. inversion E; subst r'. simpl. split; [rewrite Ho; f_equal; lia|lia].
    + destruct (pop_rep_cons r x q HR) as (r1 & E1 & _ & _ & O1).
      rewrite E1 in E. simpl in E. inversion E; subst r1. simpl. split; [exact O1|lia].
  - unfold pop_n in E. rewrite (rep_used _ _ HR) in E. destruct (Nat.ltb_spec (length q) n) as [Hlt|Hge].
    + simpl in E. inversion E; subst r'. simpl. destruct (Nat.leb_spec n (length q)); [lia|].
      rewrite andb_false_r. split; [rewrite Ho; f_equal; lia|lia].
    + destruct (pop_loop_rep n r q HR Hge) as (r1 & E1 & _ & _ & O1).
      rewrite E1 in E. simpl in E. inversion E; subst r1. destruct (Nat.leb_spec n (length q)); [|lia].
      rewrite andb_true_r. simpl. rewrite skipn_length. destruct (n =? 0); simpl; (split; [rewrite O1; lia|lia]).
  - rewrite (peek_rep r q i HR) in E. simpl in E. inversion E; subst r'. split; [rewrite Ho; f_equal; lia|lia].
  - destruct (peek_ptr r i); simpl in E.
    + destruct (rd (buf r) n); simpl in E; try discriminate. inversion E; subst r'. split; [rewrite Ho; f_equal; lia|lia].
    + inversion E; subst r'. split; [rewrite Ho; f_equal; lia|lia].
  - inversion E; subst r'. split; [rewrite Ho; f_equal; lia|lia].
  - inversion E; subst r'. split; [rewrite Ho; f_equal; lia|lia].
  - inversion E; subst r'. split; [rewrite Ho; f_equal; lia|lia].
  - inversion E; subst r'. split; [rewrite Ho; f_equal; lia|lia].
  - inversion E; subst r'. split; [rewrite Ho; f_equal; lia|lia].
Qed.

Lemma run_over ops : forall r q lost,
  rep r q -> 2 <= length (buf r) -> Forall push_or_pop ops -> over r = Z.of_nat lost ->
  (Z.of_nat (lost + length q + total_offered ops) < 2 ^ W)%Z ->
  exists xs r', ring_run W r ops = Ok (xs, r') /\
             over r' = Z.of_nat (overrun_run (length (buf r)) q lost ops).
Proof.
  induction ops as [|op ops IH]; intros r q lost HR Hc Hops Ho Hb; simpl in *.
  - eauto.
  - inversion Hops as [|? ? H1 H2]; subst.
    destruct (step_over r q op lost HR Hc H1 Ho) as (r1 & E1 & HR1 & L1 & O1 & B1); [lia|].
    rewrite E1. destruct (fifo_step (length (buf r)) q op) as [x q1] eqn:Ef. simpl in *.
    destruct (IH r1 q1 _ HR1 ltac:(lia) H2 O1 ltac:(lia)) as (xs & r2 & E2 & O2).
    rewrite E2; simpl. do 2 eexists. split; [reflexivity|]. rewrite O2, L1. reflexivity.
Qed.

(** Statements about rings reached from the constructor. *)
Lemma rep_holds r q : rep r q -> holds r q.
Proof.
  intros HR. split; [apply rep_used; exact HR|].
  destruct (pop_n_rep r q (length q) HR) as (r' & E & HR' & B).
  rewrite Nat.ltb_irrefl in *. rewrite firstn_all, skipn_all in *.
  exists r'. split; [exact E|]. rewrite (rep_empty _ _ HR'). reflexivity.
Qed.

Lemma fifo_history dbg cap (init : A) ops r0 :
  1 <= cap -> ring_new dbg cap init = Ok r0 -> Forall no_zero_drop ops ->
  exists r, ring_run W r0 ops = Ok (fst (fifo_run cap [] ops), r) /\
            holds r (snd (fifo_run cap [] ops)).
Proof.
  intros H E Hops. destruct (ring_new_rep dbg cap init H) as (r & E' & HR & L & _).
  rewrite E in E'; inversion E'; subst r0.
  destruct (run_refines ops r [] HR Hops) as (r' & E1 & HR' & L'). rewrite L in *.
  exists r'. split; [exact E1|]. apply rep_holds; exact HR'.
Qed.

Lemma reach_rep dbg cap (init : A) ops r0 xs r :
  1 <= cap -> ring_new dbg cap init = Ok r0 -> ring_run W r0 ops = Ok (xs, r) ->
  exists q, rep r q /\ length (buf r) = cap.
Proof.
  intros H E Er. destruct (ring_new_rep dbg cap init H) as (r' & E' & HR & L & _).
  rewrite E in E'; inversion E'; subst r0.
  destruct (run_any ops r' [] HR) as (xs' & r2 & q & E2 & HR2 & L2).
  rewrite Er in E2. inversion E2; subst. exists q. split; [exact HR2|congruence].
Qed.

Lemma rollover_history dbg cap (init : A) ops r0 xs r l :
  1 <= cap -> ring_new dbg cap init = Ok r0 -> ring_run W r0 ops = Ok (xs, r) ->
  exists q r', holds r q /\ push_n W r l true = Ok (length l, r') /\ holds r' (lastn cap (q ++ l)).
Proof.
  intros H E Er. destruct (reach_rep dbg cap init ops r0 xs r H E Er) as (q & HR & L).
  destruct (push_n_rollover l r q HR) as (r' & E' & HR' & L'). exists q, r'. rewrite L in *.
  split; [apply rep_holds; exact HR|]. split; [exact E'|apply rep_holds; exact HR'].
Qed.

Lemma accounting_history dbg cap (init : A) ops r0 :
  1 <= cap -> ring_new dbg cap init = Ok r0 ->
  exists xs r q, ring_run W r0 ops = Ok (xs, r) /\ holds r q /\
    capacity r = cap /\ used_space r = length q /\ used_space r + free_space r = cap /\
    (empty r = true <-> q = []) /\ (full r = true <-> length q = cap).
Proof.
  intros H E. destruct (ring_new_rep dbg cap init H) as (r' & E' & HR & L & _).
  rewrite E in E'; inversion E'; subst r0.
  destruct (run_any ops r' [] HR) as (xs & r & q & E2 & HR2 & L2).
  exists xs, r, q. split; [exact E2|]. split; [apply rep_holds; exact HR2|].
  pose proof (rep_len _ _ HR2).
  split; [unfold capacity; congruence|]. split; [apply rep_used; exact HR2|].
  split; [rewrite (rep_used _ _ HR2), (rep_free _ _ HR2); lia|].
  split.
  - rewrite (rep_empty _ _ HR2), Nat.eqb_eq. apply length_zero_iff_nil.
  - rewrite (rep_is_full _ _ HR2), Nat.eqb_eq. rewrite L2, L. reflexivity.
Qed.

Lemma overrun_history dbg cap (init : A) ops r0 :
  2 <= cap -> ring_new dbg cap init = Ok r0 -> Forall push_or_pop ops ->
  (Z.of_nat (total_offered ops) < 2 ^ W)%Z ->
  exists xs r, ring_run W r0 ops = Ok (xs, r) /\
               overrun_space r = Z.of_nat (overrun_run cap [] 0 ops).
Proof.
  intros H E Hops Hb. destruct (ring_new_rep dbg cap init ltac:(lia)) as (r' & E' & HR & L & O).
  rewrite E in E'; inversion E'; subst r0.
  destruct (run_over ops r' [] 0 HR ltac:(lia) Hops O ltac:(simpl; lia)) as (xs & r & E2 & O2).
  exists xs, r. rewrite L in O2. auto.
Qed.

Lemma zero_drop_history dbg cap (init : A) ops r0 xs r :
  1 <= cap -> ring_new dbg cap init = Ok r0 -> ring_run W r0 ops = Ok (xs, r) ->
  exists q r1 r2, holds r q /\ drop_last W r 0 = Ok (0, r1) /\ drop_first W r 0 = Ok (0, r2) /\
    holds r1 (if length q =? cap then [] else q) /\ holds r2 (if length q =? cap then [] else q).
Proof.
  intros H E Er. destruct (reach_rep dbg cap init ops r0 xs r H E Er) as (q & HR & L).
  pose proof (rep_len _ _ HR).
  exists q. destruct (Nat.eqb_spec (length q) cap) as [Eq|Eq].
  - destruct (zero_drop_full r q HR ltac:(lia)) as (r1 & r2 & E1 & R1 & _ & E2 & R2 & _).
    exists r1, r2. repeat split; auto using rep_holds; apply rep_holds; assumption.
  - destruct (drop_last_rep r q 0 HR ltac:(lia)) as (r1 & E1 & R1 & _).
    destruct (drop_first_rep r q 0 HR ltac:(lia)) as (r2 & E2 & R2 & _).
    exists r1, r2. rewrite Nat.sub_0_r, firstn_all in R1. simpl in *.
    repeat (split; auto using rep_holds).
Qed.

End Proofs.
