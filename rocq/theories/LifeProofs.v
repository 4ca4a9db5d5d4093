(** Counters against references. *)
From Coq Require Import List Arith ZArith Bool Lia.
From Verif Require Import Base VectorModel VectorSpec VectorProofs RingOps RingModel LifeModel LifeSpec StreamProofs.
Require Verif.WrapProofs.
Import ListNotations.

Lemma refs_app o a b : refs o (a ++ b) = refs o a + refs o b.
Proof. unfold refs. rewrite filter_app, app_length. reflexivity. Qed.
Lemma refs_cons o x l : refs o (x :: l) = refs o [x] + refs o l.
Proof. apply (refs_app o [x] l). Qed.
Lemma refs_nil o : refs o [] = 0.
Proof. reflexivity. Qed.
Lemma refs_none o : refs o [None] = 0.
Proof. reflexivity. Qed.
Lemma refs_some o : refs o [Some o] = 1.
Proof. unfold refs. simpl. now rewrite Nat.eqb_refl. Qed.
Lemma refs_other o p : p <> o -> refs o [Some p] = 0.
Proof. unfold refs. simpl. intros H. apply Nat.eqb_neq in H. now rewrite H. Qed.
Lemma refs_repeat o n : refs o (repeat None n) = 0.
Proof. induction n; simpl; [reflexivity|]. now rewrite refs_cons, IHn. Qed.
Lemma refs_in o l : In (Some o) l <-> 1 <= refs o l.
Proof.
  induction l as [|x l IH]; simpl; [rewrite refs_nil; split; [intros [] | lia]|]. rewrite refs_cons. rewrite IH. destruct x as [p|].
  - destruct (Nat.eq_dec p o) as [-> | N].
    + rewrite refs_some. split; [lia|auto].
    + rewrite refs_other by auto. split; [intros [E | H]; [congruence|lia]|auto].
  - rewrite refs_none. split; [intros [E | H]; [congruence|lia]|auto].
Qed.
Lemma refs_split o n l : refs o l = refs o (firstn n l) + refs o (skipn n l).
Proof. rewrite <- refs_app, firstn_skipn. reflexivity. Qed.
Lemma refs_upd o l p x old : nth_error l p = Some old -> refs o (upd l p x) + refs o [old] = refs o l + refs o [x].
Proof.
  revert p. induction l as [|y l IH]; intros [|p]; simpl; try discriminate.
  - intros [= ->]. rewrite (refs_cons o x l), (refs_cons o old l). lia.
  - intros H. specialize (IH p H). rewrite (refs_cons o y (upd l p x)), (refs_cons o y l). lia.
Qed.

Definition cnt (c : list nat) (o : nat) : nat := nth o c 0.
Lemma cnt_upd c o p n : p < length c -> cnt (upd c p n) o = if p =? o then n else cnt c o.
Proof.
  unfold cnt. intros H. destruct (Nat.eqb_spec p o) as [-> | N].
  - apply nth_error_nth. now rewrite nth_error_upd_eq.
  - rewrite !nth_default_eq || idtac. destruct (nth_error c o) as [m|] eqn:E.
    + rewrite (nth_error_nth _ _ 0 E). apply nth_error_nth. now rewrite nth_error_upd_neq.
    + apply nth_error_None in E. rewrite !nth_overflow; rewrite ?upd_length; auto.
Qed.
Lemma cnt_some c o n : nth_error c o = Some n -> cnt c o = n.
Proof. apply nth_error_nth. Qed.
Lemma cnt_pos c o : 1 <= cnt c o -> exists n, nth_error c o = Some (S n).
Proof.
  intros H. destruct (nth_error c o) as [m|] eqn:E.
  - apply cnt_some in E as E'. destruct m; [lia|eauto].
  - apply nth_error_None in E. unfold cnt in H. rewrite nth_overflow in H; auto. lia.
Qed.
Lemma alive_cnt c o : alive c o <-> 1 <= cnt c o.
Proof. split; [|apply cnt_pos]. intros [n E]. rewrite (cnt_some _ _ _ E). lia. Qed.

Lemma inc_ok c x : (forall o, x = Some o -> 1 <= cnt c o) ->
  exists c', inc c x = Ok c' /\ length c' = length c /\ forall o, cnt c' o = cnt c o + refs o [x].
Proof.
  destruct x as [p|]; intros H; simpl.
  - destruct (cnt_pos c p (H p eq_refl)) as [n E]. rewrite E. eexists; split; [reflexivity|]. split; [apply upd_length|]. intros o.
    assert (p < length c) as L by (apply nth_error_Some; congruence). rewrite cnt_upd by auto. destruct (Nat.eqb_spec p o) as [-> | N].
    + rewrite refs_some, (cnt_some _ _ _ E). lia.
    + rewrite refs_other by auto. lia.
  - eexists; split; [reflexivity|]. split; [reflexivity|]. intros o. rewrite refs_none. lia.
Qed.
Lemma dec_ok c x : (forall o, x = Some o -> 1 <= cnt c o) ->
  exists c', dec c x = Ok c' /\ length c' = length c /\ forall o, cnt c o = cnt c' o + refs o [x].
Proof.
  destruct x as [p|]; intros H; simpl.
  - destruct (cnt_pos c p (H p eq_refl)) as [n E]. rewrite E. eexists; split; [reflexivity|]. split; [apply upd_length|]. intros o.
    assert (p < length c) as L by (apply nth_error_Some; congruence). rewrite cnt_upd by auto. destruct (Nat.eqb_spec p o) as [-> | N].
    + rewrite refs_some, (cnt_some _ _ _ E). lia.
    + rewrite refs_other by auto. lia.
  - eexists; split; [reflexivity|]. split; [reflexivity|]. intros o. rewrite refs_none. lia.
Qed.
Lemma rd_cases {A} (st : list A) p : (exists x, rd st p = Ok x /\ nth_error st p = Some x) \/ (rd st p = UB /\ length st <= p).
Proof.
  destruct (nth_error st p) as [x|] eqn:E.
  - left. exists x. split; [now apply rd_ok|reflexivity].
  - right. apply nth_error_None in E. split; [|exact E]. now apply rd_ub.
Qed.
Lemma rd_nth {A} (st : list A) p x : rd st p = Ok x -> nth_error st p = Some x.
Proof. destruct (rd_cases st p) as [(y & E & N) | [E L]]; rewrite E; congruence. Qed.
Lemma wr_ub {A} (st : list A) p x : length st <= p -> wr st p x = UB.
Proof. intros H. unfold wr. destruct (Nat.ltb_spec p (length st)); [lia|reflexivity]. Qed.
Lemma nth_lt {A} (st : list A) p x : nth_error st p = Some x -> p < length st.
Proof. intros H. apply nth_error_Some. congruence. Qed.

(** A counted computation does what the plain one does, and the counters end up as [Q] says. *)
Definition sim {B} (a : outcome (list nat * B)) (b : outcome B) (Q : list nat -> B -> Prop) : Prop :=
  match a, b with
  | Ok (c, v), Ok v' => v = v' /\ Q c v
  | Halt, Halt => True | UB, UB => True | Throw, Throw => True | Fuel, Fuel => True
  | _, _ => False
  end.
Lemma sim_bind {B D} (a : outcome (list nat * B)) (b : outcome B) f g Q (Q' : list nat -> D -> Prop) :
  sim a b Q -> (forall c v, Q c v -> sim (f (c, v)) (g v) Q') -> sim (x <- a ;; f x) (y <- b ;; g y) Q'.
Proof. destruct a as [[c v]| | | |], b as [v'| | | |]; simpl; try tauto. intros [-> H] K. apply K, H. Qed.
Lemma sim_same {B D} (m : outcome B) f g (Q' : list nat -> D -> Prop) :
  (forall v, m = Ok v -> sim (f v) (g v) Q') -> sim (x <- m ;; f x) (y <- m ;; g y) Q'.
Proof. destruct m; simpl; auto. Qed.

(** [asg] is an assignment of the cell, and the counters follow the references. *)
Lemma asg_sim c st p (x : ptr) vs : (forall o, refs o st + refs o vs <= cnt c o) -> (forall o, x = Some o -> 1 <= refs o vs) ->
  sim (asg c st p x) (wr st p x) (fun c' st' => length c' = length c /\ length st' = length st /\ forall o, cnt c' o + refs o st = cnt c o + refs o st').
Proof.
  intros H X. unfold asg. destruct (rd_cases st p) as [(old & E & N) | [E L]]; rewrite E; cbn [bind].
  - destruct (inc_ok c x) as (c1 & E1 & L1 & K1). { intros o Eo. specialize (H o). specialize (X o Eo). lia. }
    rewrite E1. cbn [bind]. rewrite wr_ok by (eapply nth_lt; eauto). cbn [bind].
    destruct (dec_ok c1 old) as (c2 & E2 & L2 & K2).
    { intros o ->. rewrite K1. specialize (H o). apply nth_error_In, refs_in in N. lia. }
    rewrite E2. cbn [bind sim]. split; [reflexivity|]. split; [congruence|]. split; [apply upd_length|]. intros o. specialize (K1 o). specialize (K2 o).
    pose proof (refs_upd o st p x old N). lia.
  - rewrite wr_ub by auto. exact Logic.I.
Qed.

Lemma memmove_some {A} (l l' : list A) d s n : memmove l d s n = Ok l' ->
  d + n <= length l /\ s + n <= length l /\ l' = firstn d l ++ firstn n (skipn s l) ++ skipn (d + n) l.
Proof.
  unfold memmove. destruct (Nat.leb_spec (d + n) (length l)), (Nat.leb_spec (s + n) (length l)); simpl; try discriminate.
  intros K. apply WrapProofs.ok_inj in K. auto.
Qed.
Lemma memset0_some {A} (z : A) (l l' : list A) d n : memset0 z l d n = Ok l' ->
  d + n <= length l /\ l' = firstn d l ++ repeat z n ++ skipn (d + n) l.
Proof.
  unfold memset0. destruct (Nat.leb_spec (d + n) (length l)); simpl; try discriminate.
  intros K. apply WrapProofs.ok_inj in K. auto.
Qed.
Lemma rearrange_st W dbg (v v' : vec ptr) : rearrange None W dbg v 0 = Ok v' -> vst v' = firstn (vsize v) (skipn (vh v) (vst v)) ++ repeat None (vmax v - vsize v).
Proof.
  unfold rearrange. intros H. apply bind_ok in H as (_ & _ & H). apply bind_ok in H as (st1 & M & H). cbv zeta in H.
  apply bind_ok in H as (st2 & M2 & H). apply bind_ok in H as (_ & _ & H). apply bind_ok in H as (st3 & M3 & H).
  apply WrapProofs.ok_inj in H. subst v'. cbn [vst]. simpl in M3.
  apply memmove_some in M as (B1 & B2 & ->). apply memset0_some in M2 as (_ & ->). apply memset0_some in M3 as (B3 & ->). simpl in *.
  assert (length (firstn (vsize v) (skipn (vh v) (vst v))) = vsize v) as L by (rewrite firstn_length, skipn_length; lia).
  rewrite firstn_app_exact by auto. f_equal. rewrite skipn_all2; [apply app_nil_r|]. rewrite app_length, skipn_length. unfold vmax. lia.
Qed.
Lemma skipn_skipn {A} n m (l : list A) : skipn n (skipn m l) = skipn (n + m) l.
Proof. rewrite Nat.add_comm. revert l; induction m; intros l; simpl; auto. destruct l; simpl; auto. now rewrite skipn_nil. Qed.
Lemma refs_window o (l : list ptr) h n : refs o l = refs o (firstn h l) + refs o (firstn n (skipn h l)) + refs o (skipn (h + n) l).
Proof. rewrite (refs_split o h l), (refs_split o n (skipn h l)). rewrite skipn_skipn. rewrite (Nat.add_comm n h). lia. Qed.
Lemma shift_st (l st1 st2 : list ptr) i k : memmove l (i + 1) i k = Ok st1 -> memset0 None st1 i 1 = Ok st2 ->
  length st2 = length l /\ forall o, refs o st2 + refs o (firstn 1 (skipn (i + k) l)) = refs o l.
Proof.
  intros M M2. apply memmove_some in M as (B1 & B2 & ->). apply memset0_some in M2 as (B3 & ->).
  assert (length (firstn (i + 1) l) = i + 1) as L by (rewrite firstn_length; lia).
  rewrite firstn_app, L, (skipn_app (i + 1) (firstn (i + 1) l)), L. replace (i - (i + 1)) with 0 by lia. rewrite Nat.sub_diag. cbn [firstn skipn].
  rewrite app_nil_r, firstn_firstn, Nat.min_l by lia. rewrite (skipn_all2 (firstn (i + 1) l)) by lia. rewrite app_nil_l. split.
  - rewrite !app_length, firstn_length, repeat_length, firstn_length, !skipn_length. lia.
  - intros o. rewrite !refs_app. change (repeat None 1) with [@None nat]. rewrite refs_none. rewrite (refs_window o l i k).
    pose proof (refs_split o 1 (skipn (i + k) l)) as Q. rewrite skipn_skipn in Q. replace (1 + (i + k)) with (i + 1 + k) in Q by lia. cbn [firstn] in Q. lia.
Qed.

(** The cells outside the elements hold nothing. *)
Definition bare (v : vec ptr) : Prop := vt v <= length (vst v) /\ vh v <= vt v /\
  forall o, refs o (firstn (vh v) (vst v)) = 0 /\ refs o (skipn (vt v) (vst v)) = 0.

(** ** Calls of a vector: never fewer counts than references; exactly as many where the cells outside the elements hold nothing *)
Section Vec.
Variable W : Z.
Variable dbg : bool.
Variable vs : list ptr.
Definition room c (st : list ptr) := forall o, refs o st + refs o vs <= cnt c o.
Definition kept (c : list nat) (v : vec ptr) (c' : list nat) (v' : vec ptr) : Prop :=
  length c' = length c /\ forall o, cnt c o + refs o (vst v') <= cnt c' o + refs o (vst v) /\
    (bare v -> cnt c o + refs o (vst v') = cnt c' o + refs o (vst v)).
Lemma sim_weaken {B} (a : outcome (list nat * B)) b (Q Q' : list nat -> B -> Prop) : sim a b Q -> (forall c v, Q c v -> Q' c v) -> sim a b Q'.
Proof. destruct a as [[c v]| | | |], b; simpl; auto. intros [-> H] K. auto. Qed.

Lemma make_room_st v v1 : (if (vmax v <=? vt v) && (0 <? vh v) then rearrange None W dbg v 0 else Ok v) = Ok v1 ->
  forall o, refs o (vst v1) <= refs o (vst v) /\ (bare v -> refs o (vst v1) = refs o (vst v)).
Proof.
  destruct (_ && _) eqn:C; intros H o.
  - rewrite (rearrange_st _ _ _ _ H), refs_app, refs_repeat, (refs_window o (vst v) (vh v) (vsize v)). split; [lia|].
    intros (B1 & B2 & B). destruct (B o) as [Z1 Z2]. unfold vsize in *. replace (vh v + (vt v - vh v)) with (vt v) by lia. lia.
  - apply WrapProofs.ok_inj in H. subst. split; [lia|reflexivity].
Qed.
Lemma push_back_sim c v (x : ptr) : room c (vst v) -> (forall o, x = Some o -> 1 <= refs o vs) ->
  sim (lpush_back W dbg c v x) (push_back None W dbg v x) (kept c v).
Proof.
  intros R X. unfold lpush_back, push_back. apply sim_same. intros v1 E1. pose proof (make_room_st v v1 E1) as K1.
  apply sim_same. intros [] _. destruct (vt v1 <? vmax v1).
  - eapply sim_bind; [apply (asg_sim c (vst v1) (vt v1) x vs)|]; auto.
    + intros o. specialize (R o). destruct (K1 o) as [K _]. lia.
    + intros c' st' (L & L' & K). cbn [sim]. split; [reflexivity|]. split; [exact L|]. cbn [vst]. intros o. specialize (K o). destruct (K1 o) as [K2 K3].
      split; [lia|]. intros B. specialize (K3 B). lia.
  - cbn [sim]. split; [reflexivity|]. split; [reflexivity|]. intros o. destruct (K1 o) as [K2 K3]. split; [lia|]. intros B. specialize (K3 B). lia.
Qed.
Lemma push_front_sim c v (x : ptr) : room c (vst v) -> (forall o, x = Some o -> 1 <= refs o vs) ->
  sim (lpush_front dbg c v x) (push_front None dbg v x) (kept c v).
Proof.
  intros R X. unfold lpush_front, push_front. apply sim_same. intros [] _. destruct (0 <? vh v).
  - eapply sim_bind; [apply (asg_sim c (vst v) (vh v - 1) x vs)|]; auto.
    intros c' st' (L & L' & K). cbn [sim]. split; [reflexivity|]. split; [exact L|]. cbn [vst]. intros o. specialize (K o). split; lia.
  - apply sim_same. intros st1 M1. apply sim_same. intros st2 M2. destruct (shift_st _ _ _ _ _ M1 M2) as [L2 K2].
    eapply sim_bind; [apply (asg_sim c st2 (vh v) x vs)|]; auto.
    + intros o. specialize (R o). specialize (K2 o). lia.
    + intros c' st' (L & L' & K). cbn [sim]. split; [reflexivity|]. split; [exact L|]. cbn [vst]. intros o. specialize (K o). specialize (K2 o).
      split; [lia|]. intros (B1 & B2 & B). destruct (B o) as [Z1 Z2]. unfold vsize in *. replace (vh v + (vt v - vh v)) with (vt v) in K2 by lia.
      rewrite (refs_split o 1 (skipn (vt v) (vst v))) in Z2. lia.
Qed.
Lemma insert_sim c v i (x : ptr) : room c (vst v) -> (forall o, x = Some o -> 1 <= refs o vs) ->
  sim (linsert W dbg c v i x) (insert None W dbg v i x) (kept c v).
Proof.
  intros R X. unfold linsert, insert. apply sim_same. intros [] _. destruct (i =? 0); [now apply push_front_sim|].
  destruct (vt v <=? vh v + i) eqn:Ci; [now apply push_back_sim|]. apply Nat.leb_gt in Ci.
  apply sim_same. intros v1 E1. pose proof (make_room_st v v1 E1) as K1.
  apply sim_same. intros [] _. apply sim_same. intros st1 M1. apply sim_same. intros st2 M2. destruct (shift_st _ _ _ _ _ M1 M2) as [L2 K2].
  eapply sim_bind; [apply (asg_sim c st2 (vh v1 + i) x vs)|]; auto.
  - intros o. specialize (R o). specialize (K2 o). destruct (K1 o) as [K _]. lia.
  - intros c' st' (L & L' & K). cbn [sim]. split; [reflexivity|]. split; [exact L|]. cbn [vst]. intros o. specialize (K o). specialize (K2 o).
    destruct (K1 o) as [K3 K4]. split; [lia|]. intros B. specialize (K4 B).
    assert (refs o (skipn (vt v1) (vst v1)) = 0 /\ vh v1 + i <= vt v1) as [Z I].
    { destruct (_ && _) eqn:C.
      - pose proof (rearrange_st _ _ _ _ E1) as S1. unfold rearrange in E1. apply bind_ok in E1 as (_ & _ & E1). apply bind_ok in E1 as (s1 & Em & E1).
        apply memmove_some in Em as (B1 & B2 & _). cbv zeta in E1.
        apply bind_ok in E1 as (s2 & _ & E1). apply bind_ok in E1 as (_ & _ & E1). apply bind_ok in E1 as (s3 & _ & E1). apply WrapProofs.ok_inj in E1.
        assert (vt v1 = vsize v /\ vh v1 = 0) as [-> ->] by (subst v1; auto). rewrite S1. rewrite skipn_app_exact.
        + rewrite refs_repeat. unfold vsize. split; lia.
        + rewrite firstn_length, skipn_length. lia.
      - apply WrapProofs.ok_inj in E1. subst v1. destruct B as (_ & B2 & B). split; [apply B|lia]. }
    replace (vh v1 + i + (vt v1 - (vh v1 + i))) with (vt v1) in K2 by lia. rewrite (refs_split o 1 (skipn (vt v1) (vst v1))) in Z. lia.
Qed.

Lemma take_st (st st1 : list ptr) t keep x o : rd st t = Ok x -> wr st t (left keep x) = Ok st1 ->
  refs o st = refs o st1 + (if keep then refs o [x] else 0) /\ length st1 = length st.
Proof.
  intros E M. apply rd_nth in E. rewrite wr_ok in M by (eapply nth_lt; eauto). apply WrapProofs.ok_inj in M. subst st1. rewrite upd_length.
  split; [|reflexivity]. pose proof (refs_upd o st t (left keep x) x E) as U. destruct keep; cbn [left] in *; rewrite ?refs_none in U; lia.
Qed.
Lemma pop_back_st keep v x v1 o : pop_back (left keep) dbg v = Ok (x, v1) ->
  refs o (vst v) = refs o (vst v1) + (if keep then refs o [x] else 0).
Proof.
  unfold pop_back. intros H. apply bind_ok in H as (_ & _ & H). cbv zeta in H.
  destruct (if 0 <? vt v then _ else _) as [h' t']. apply bind_ok in H as (y & E & H). apply bind_ok in H as (st & M & H).
  apply WrapProofs.ok_inj in H. assert (y = x) as -> by congruence. assert (v1 = mkVec st h' t') as -> by congruence. cbn [vst].
  exact (proj1 (take_st _ _ _ _ _ o E M)).
Qed.
Lemma pop_front_st keep v x v1 o : pop_front (left keep) dbg v = Ok (x, v1) ->
  refs o (vst v) = refs o (vst v1) + (if keep then refs o [x] else 0).
Proof.
  unfold pop_front. intros H. apply bind_ok in H as (_ & _ & H). apply bind_ok in H as (_ & _ & H). cbv zeta in H.
  destruct (if vt v =? vh v + 1 then _ else _) as [h' t']. apply bind_ok in H as (y & E & H). apply bind_ok in H as (st & M & H).
  apply WrapProofs.ok_inj in H. assert (y = x) as -> by congruence. assert (v1 = mkVec st h' t') as -> by congruence. cbn [vst].
  exact (proj1 (take_st _ _ _ _ _ o E M)).
Qed.
Lemma clear_sim : forall k c v, room c (vst v) ->
  sim (lclear dbg c v k) (clear_loop (left true) dbg v k) (fun c' v' => length c' = length c /\ forall o, cnt c o + refs o (vst v') = cnt c' o + refs o (vst v)).
Proof.
  induction k as [|k IH]; intros c v R; cbn [lclear clear_loop].
  - cbn [sim]. split; [reflexivity|]. split; [reflexivity|]. intros o. lia.
  - unfold lpop_back. apply sim_same. intros [x v1] E. assert (forall o, refs o (vst v) = refs o (vst v1) + refs o [x]) as P by (intros o; exact (pop_back_st true _ _ _ o E)).
    destruct (dec_ok c x) as (c1 & E1 & L1 & K1). { intros o ->. specialize (R o). specialize (P o). rewrite refs_some in P. lia. }
    rewrite E1. cbn [bind]. eapply sim_weaken; [apply IH|].
    + intros o. specialize (R o). specialize (P o). specialize (K1 o). lia.
    + cbv beta. intros c' v' [L K]. split; [congruence|]. intros o. specialize (K o). specialize (P o). specialize (K1 o). lia.
Qed.
Lemma firstn_succ_upd (st : list ptr) i x : i < length st -> firstn (i + 1) (upd st i x) = firstn i st ++ [x].
Proof.
  intros H. rewrite upd_split by auto. match goal with |- firstn _ (?a ++ x :: ?b) = _ => change (a ++ x :: b) with (a ++ [x] ++ b) end.
  rewrite app_assoc. apply firstn_app_exact. rewrite app_length, firstn_length. simpl. lia.
Qed.
Lemma fill_sim (x : ptr) : (forall o, x = Some o -> 1 <= refs o vs) -> forall k i c st, i + k = length st -> room c st ->
  sim (lfill c st i k x) (Ok (firstn i st ++ repeat x k)) (fun c' st' => length c' = length c /\ forall o, cnt c o + refs o st' = cnt c' o + refs o st).
Proof.
  intros X. induction k as [|k IH]; intros i c st L R; cbn [lfill repeat].
  - cbn [sim]. rewrite app_nil_r, firstn_all2 by lia. split; [reflexivity|]. split; [reflexivity|]. intros o. lia.
  - pose proof (asg_sim c st i x vs R X) as A. rewrite wr_ok in A by lia. destruct (asg c st i x) as [[c1 st1]| | | |]; cbn [sim] in A; try contradiction.
    destruct A as (-> & L1 & L2 & K). cbn [bind].
    assert (firstn i st ++ x :: repeat x k = firstn (i + 1) (upd st i x) ++ repeat x k) as ->.
    { rewrite firstn_succ_upd by lia. rewrite <- app_assoc. reflexivity. }
    eapply sim_weaken; [apply IH|].
    + rewrite L2. lia.
    + intros o. specialize (R o). specialize (K o). lia.
    + cbv beta. intros c' st' [L' K']. split; [congruence|]. intros o. specialize (K o). specialize (K' o). lia.
Qed.
Lemma list_sim : forall l i c st, (forall x o, In x l -> x = Some o -> 1 <= refs o vs) -> i + length l = length st -> room c st ->
  sim (llist c st i l) (Ok (firstn i st ++ l)) (fun c' st' => length c' = length c /\ forall o, cnt c o + refs o st' = cnt c' o + refs o st).
Proof.
  induction l as [|x l IH]; intros i c st X L R; cbn [llist]; cbn [length] in L.
  - cbn [sim]. rewrite app_nil_r, firstn_all2 by lia. split; [reflexivity|]. split; [reflexivity|]. intros o. lia.
  - pose proof (asg_sim c st i x vs R (fun o => X x o (or_introl eq_refl))) as A. rewrite wr_ok in A by lia. destruct (asg c st i x) as [[c1 st1]| | | |]; cbn [sim] in A; try contradiction.
    destruct A as (-> & L1 & L2 & K). cbn [bind].
    assert (firstn i st ++ x :: l = firstn (i + 1) (upd st i x) ++ l) as ->.
    { rewrite firstn_succ_upd by lia. rewrite <- app_assoc. reflexivity. }
    eapply sim_weaken; [apply IH|].
    + intros y o Hy. apply X. now right.
    + rewrite L2. lia.
    + intros o. specialize (R o). specialize (K o). lia.
    + cbv beta. intros c' st' [L' K']. split; [congruence|]. intros o. specialize (K o). specialize (K' o). lia.
Qed.
End Vec.

(** ** Programs *)
Section Prog.
Variable W : Z.
Variable dbg : bool.
Definition cells (w : lw) : list ptr := match lv w with Some v => vst v | None => [] end.
Definition total (w : lw) (o : nat) : nat := refs o (cells w) + refs o (lvars w).
Definition Inv (w : lw) : Prop := forall o, total w o <= cnt (lc w) o.
Definition bare_w (w : lw) : Prop := match lv w with Some v => bare v | None => True end.
(** What a step does: the plain step, and the difference between counts and references does not shrink. *)
Definition keeps_op (op : lop) : bool := match op with LAssign _ | LDestroy => false | _ => true end.
Definition better (w : lw) (op : lop) (w' : lw) : Prop :=
  length (lc w) <= length (lc w') /\ forall o, cnt (lc w) o + total w' o <= cnt (lc w') o + total w o /\
    (bare_w w -> keeps_op op = true -> cnt (lc w) o + total w' o = cnt (lc w') o + total w o).
Definition simw (a : outcome lw) (b : outcome pw) (Q : lw -> Prop) : Prop :=
  match a, b with
  | Ok w, Ok p => plain w = p /\ Q w
  | Halt, Halt => True | UB, UB => True | Throw, Throw => True | Fuel, Fuel => True
  | _, _ => False
  end.
Lemma better_inv w op w' : Inv w -> better w op w' -> Inv w'.
Proof. intros I [_ B] o. specialize (I o). destruct (B o) as [K _]. lia. Qed.
Lemma pvar_plain w k : pvar (plain w) k = var w k.
Proof.
  unfold pvar, var, plain. cbn [pvars]. destruct (nth_error (lvars w) k) eqn:E; [now apply nth_error_nth|].
  apply nth_error_None in E. now apply nth_overflow.
Qed.
Lemma var_refs w k o : var w k = Some o -> 1 <= refs o (lvars w).
Proof. unfold var. destruct (nth_error (lvars w) k) eqn:E; [|discriminate]. intros ->. apply refs_in. eapply nth_error_In; eauto. Qed.
Lemma cnt_app c n o : cnt (c ++ [n]) o = if o =? length c then n else cnt c o.
Proof.
  unfold cnt. destruct (Nat.eqb_spec o (length c)) as [-> | N]; [now rewrite nth_middle|].
  destruct (lt_dec o (length c)); [now rewrite app_nth1|]. rewrite !nth_overflow; auto; rewrite ?app_length; simpl; lia.
Qed.
Lemma on_vec_sim w keep f c : Inv w -> (forall v, lv w = Some v -> (exists g, vstep None (left keep) W dbg v c = (v' <- g ;; Ok (VUnit, v')) /\ sim (f v) g (kept (lc w) v))) ->
  simw (on_vec w f) (pcall W dbg keep (plain w) c) (better w (LMake)).
Proof.
  intros I H. unfold on_vec, pcall. cbn [plain pv pn pvars]. destruct (lv w) as [v|] eqn:Ev.
  - destruct (H v eq_refl) as (g & -> & S). destruct (f v) as [[c1 v1]| | | |], g; cbn [sim bind simw] in *; try contradiction; auto.
    destruct S as (-> & L & K). split.
    + unfold plain. cbn [lc lv lvars]. rewrite L, ?Ev. reflexivity.
    + split; [cbn [lc]; lia|]. intros o. unfold total, cells, bare_w. cbn [lv lc lvars]. rewrite Ev. destruct (K o) as [K1 K2]. split; [lia|]. intros B _. specialize (K2 B). lia.
  - cbn [simw]. split; [unfold plain; now rewrite Ev|]. split; [lia|]. intros o. lia.
Qed.
Lemma better_any w op op' w' : keeps_op op' = true -> better w op' w' -> better w op w'.
Proof. intros E [L K]. split; [exact L|]. intros o. destruct (K o) as [K1 K2]. auto. Qed.
Lemma simw_weaken a b (Q Q' : lw -> Prop) : simw a b Q -> (forall w, Q w -> Q' w) -> simw a b Q'.
Proof. destruct a, b; simpl; auto. intros [-> H] K. auto. Qed.

Lemma lstep_sim w op : Inv w -> (forall i, op <> LRemove i) -> simw (lstep W dbg w op) (pstep W dbg (plain w) op) (better w op).
Proof.
  intros I NR. assert (forall o k, var w k = Some o -> 1 <= refs o (lvars w)) as X by (intros; eapply var_refs; eauto).
  assert (forall v, lv w = Some v -> room (lvars w) (lc w) (vst v)) as R by (intros v E o; specialize (I o); unfold total, cells in I; now rewrite E in I).
  destruct op; cbn [lstep pstep]; rewrite ?pvar_plain.
  - cbn [simw]. split.
    + unfold plain. cbn [lc lv lvars pn pv pvars]. rewrite app_length. reflexivity.
    + split; [cbn [lc]; rewrite app_length; lia|]. intros o. unfold total, cells. cbn [lv lc lvars]. rewrite refs_app, cnt_app.
      destruct (Nat.eqb_spec o (length (lc w))) as [-> | N].
      * rewrite refs_some. assert (cnt (lc w) (length (lc w)) = 0) as Z by (apply nth_overflow; lia).
        specialize (I (length (lc w))). unfold total, cells in I. lia.
      * rewrite refs_other by auto. lia.
  - destruct (inc_ok (lc w) (var w k)) as (c & E & L & K). { intros o Eo. specialize (X o k Eo). specialize (I o). unfold total in I. lia. }
    rewrite E. cbn [bind simw]. split; [unfold plain; cbn [lc lv lvars pn pv pvars]; now rewrite L|]. split; [cbn [lc]; lia|].
    intros o. unfold total, cells. cbn [lv lc lvars]. rewrite refs_app, K. lia.
  - destruct (dec_ok (lc w) (var w k)) as (c & E & L & K). { intros o Eo. specialize (X o k Eo). specialize (I o). unfold total in I. lia. }
    rewrite E. cbn [bind simw]. split; [unfold plain; cbn [lc lv lvars pn pv pvars]; now rewrite L|]. split; [cbn [lc]; lia|].
    intros o. unfold total, cells. cbn [lv lc lvars]. specialize (K o). unfold var in K. destruct (nth_error (lvars w) k) as [y|] eqn:En.
    + pose proof (refs_upd o (lvars w) k None y En) as U. rewrite refs_none in U. lia.
    + rewrite refs_none in K. apply nth_error_None in En. assert (upd (lvars w) k None = lvars w) as ->.
      { apply nth_error_ext. intros j. rewrite nth_error_upd. destruct (Nat.eqb_spec k j), (Nat.ltb_spec j (length (lvars w))); cbn [andb]; try reflexivity; lia. }
      lia.
  - eapply simw_weaken; [eapply on_vec_sim; auto|intros w'; now apply better_any]. intros v Ev. exists (push_back None W dbg v (var w k)).
    split; [reflexivity|]. apply (push_back_sim W dbg (lvars w)); auto. intros o. apply X.
  - eapply simw_weaken; [eapply on_vec_sim; auto|intros w'; now apply better_any]. intros v Ev. exists (push_front None dbg v (var w k)).
    split; [reflexivity|]. apply (push_front_sim dbg (lvars w)); auto. intros o. apply X.
  - eapply simw_weaken; [eapply on_vec_sim; auto|intros w'; now apply better_any]. intros v Ev. exists (insert None W dbg v i (var w k)).
    split; [reflexivity|]. apply (insert_sim W dbg (lvars w)); auto. intros o. apply X.
  - eapply simw_weaken; [eapply on_vec_sim; auto|intros w'; now apply better_any]. intros v Ev. exists (Ok (fill v (var w k))).
    split; [reflexivity|]. pose proof (fill_sim (lvars w) (var w k) (fun o => X o k) (vmax v) 0 (lc w) (vst v) eq_refl (R v Ev)) as F.
    cbn [firstn app] in F. destruct (lfill (lc w) (vst v) 0 (vmax v) (var w k)) as [[c st]| | | |]; cbn [sim bind] in *; try contradiction.
    destruct F as (-> & L & K). split; [reflexivity|]. split; [exact L|]. intros o. specialize (K o). unfold fill. cbn [vst]. lia.
  - assert (map (pvar (plain w)) ks = map (var w) ks) as -> by (apply map_ext; intros; apply pvar_plain).
    unfold on_vec, pcall. cbn [plain pv pn pvars vstep bind]. destruct (lv w) as [v|] eqn:Ev.
    + cbn [vstep bind]. assert (0 + length (map (var w) ks) = length (@repeat ptr None (length ks))) as Ln by (rewrite map_length, repeat_length; reflexivity).
      assert (room (lvars w) (lc w) (@repeat ptr None (length ks))) as Rm.
      { intros o. rewrite refs_repeat. specialize (I o). unfold total in I. lia. }
      assert (forall x o, In x (map (var w) ks) -> x = Some o -> 1 <= refs o (lvars w)) as Xs.
      { intros x o Hx ->. apply in_map_iff in Hx as (k & Ek & _). eapply X; eauto. }
      pose proof (list_sim (lvars w) _ 0 (lc w) _ Xs Ln Rm) as F. cbn [firstn app] in F.
      destruct (llist (lc w) (repeat None (length ks)) 0 (map (var w) ks)) as [[c st]| | | |]; cbn [sim bind simw] in *; try contradiction.
      destruct F as (-> & L & K). split.
      * unfold plain, assign. cbn [lc lv lvars]. rewrite L, map_length. reflexivity.
      * split; [cbn [lc]; lia|]. intros o. unfold total, cells. cbn [lv lc lvars vst]. rewrite Ev. specialize (K o). rewrite refs_repeat in K.
        split; [lia|discriminate].
    + cbn [simw]. split; [unfold plain; now rewrite Ev|]. split; [lia|]. intros o. lia.
  - unfold pcall, lpop_back. cbn [plain pv pn pvars vstep]. destruct (lv w) as [v|] eqn:Ev; [|cbn [simw]; split; [unfold plain; now rewrite Ev|]; split; [lia|]; intros o; lia].
    cbn [vstep]. destruct (pop_back (left keep) dbg v) as [[x v1]| | | |] eqn:E; cbn [bind simw]; auto. split; [reflexivity|]. split; [cbn [lc]; lia|].
    intros o. pose proof (pop_back_st dbg keep v x v1 o E) as P. unfold total, cells. cbn [lv lc lvars]. rewrite Ev. destruct keep; rewrite ?refs_app; lia.
  - unfold pcall, lpop_front. cbn [plain pv pn pvars vstep]. destruct (lv w) as [v|] eqn:Ev; [|cbn [simw]; split; [unfold plain; now rewrite Ev|]; split; [lia|]; intros o; lia].
    cbn [vstep]. destruct (pop_front (left keep) dbg v) as [[x v1]| | | |] eqn:E; cbn [bind simw]; auto. split; [reflexivity|]. split; [cbn [lc]; lia|].
    intros o. pose proof (pop_front_st dbg keep v x v1 o E) as P. unfold total, cells. cbn [lv lc lvars]. rewrite Ev. destruct keep; rewrite ?refs_app; lia.
  - destruct (NR i eq_refl).
  - unfold pcall. cbn [plain pv pn pvars vstep]. destruct (lv w) as [v|] eqn:Ev; [|cbn [simw]; split; [unfold plain; now rewrite Ev|]; split; [lia|]; intros o; lia].
    cbn [vstep]. destruct (vget dbg v i) as [x| | | |] eqn:E; cbn [bind simw]; auto.
    assert (In x (vst v)) as Hx. { unfold vget in E. apply bind_ok in E as (_ & _ & E). apply rd_nth in E. eapply nth_error_In; eauto. }
    destruct (inc_ok (lc w) x) as (c & Ec & L & K). { intros o ->. apply refs_in in Hx. specialize (R v eq_refl o). lia. }
    rewrite Ec. cbn [bind simw]. split; [unfold plain; cbn [lc lv lvars]; now rewrite L|]. split; [cbn [lc]; lia|].
    intros o. unfold total, cells. cbn [lv lc lvars]. rewrite ?Ev, refs_app, K. lia.
  - eapply simw_weaken; [eapply on_vec_sim; auto|intros w'; now apply better_any]. intros v Ev. exists (VectorModel.clear (left true) dbg v).
    split; [reflexivity|]. eapply sim_weaken; [apply (clear_sim dbg (lvars w)); auto|]. cbv beta. intros c v' [L K]. split; [exact L|]. intros o. specialize (K o). lia.
  - cbn [simw]. split; [reflexivity|]. split; [cbn [lc]; lia|]. intros o. unfold total, cells. cbn [lv lc lvars]. rewrite refs_nil. split; [lia|discriminate].
Qed.

Lemma lrun_sim : forall ops w, Inv w -> no_remove ops -> simw (lrun W dbg w ops) (prun W dbg (plain w) ops)
  (fun w' => Inv w' /\ forall o, cnt (lc w) o + total w' o <= cnt (lc w') o + total w o).
Proof.
  induction ops as [|op ops IH]; intros w I NR; cbn [lrun prun].
  - cbn [simw]. split; [reflexivity|]. split; [exact I|]. intros o. lia.
  - assert (forall i, op <> LRemove i) as N1 by (intros i ->; apply (NR i); now left).
    assert (no_remove ops) as N2 by (intros i Hi; apply (NR i); now right).
    pose proof (lstep_sim w op I N1) as S. destruct (lstep W dbg w op) as [w1| | | |], (pstep W dbg (plain w) op) as [p1| | | |]; cbn [simw bind] in *; try contradiction; auto.
    destruct S as [<- B]. eapply simw_weaken; [apply IH; auto; eapply better_inv; eauto|]. cbv beta. intros w' [I' K]. split; [exact I'|].
    intros o. destruct B as [_ B]. destruct (B o) as [B1 _]. specialize (K o). lia.
Qed.
Lemma start_inv n : Inv (lstart n).
Proof. intros o. unfold total, cells, lstart, vec_new. cbn [lv lc lvars vst]. rewrite refs_repeat, refs_nil. lia. Qed.
Lemma iterate_in {A} (st : list A) step : forall fuel b e l x, iterate W fuel step st b e = Ok l -> In x l -> In x st.
Proof.
  induction fuel as [|fuel IH]; intros b e l x; cbn [iterate]; destruct (b =? e)%Z.
  - intros H. apply WrapProofs.ok_inj in H. subst l. intros [].
  - discriminate.
  - intros H. apply WrapProofs.ok_inj in H. subst l. intros [].
  - intros H. apply bind_ok in H as (y & E & H). apply bind_ok in H as (ys & E2 & H). apply WrapProofs.ok_inj in H. subst l. intros [-> | Hx].
    + unfold deref_it in E. destruct (_ && _)%bool; [|discriminate]. apply rd_nth in E. eapply nth_error_In; eauto.
    + eapply IH; eauto.
Qed.
Lemma elems_refs w l o : elems W w l -> In (Some o) l -> 1 <= refs o (cells w).
Proof.
  unfold elems, cells. destruct (lv w) as [v|]; [|intros -> []]. intros [_ H] Hx. apply refs_in. eapply iterate_in; eauto.
Qed.
Lemma lives n ops : no_remove ops ->
  (w <- lrun W dbg (lstart n) ops ;; Ok (plain w)) = prun W dbg (plain (lstart n)) ops /\
  forall w l o, lrun W dbg (lstart n) ops = Ok w -> elems W w l -> In (Some o) (l ++ lvars w) -> alive (lc w) o.
Proof.
  intros NR. pose proof (lrun_sim ops (lstart n) (start_inv n) NR) as S.
  destruct (lrun W dbg (lstart n) ops) as [w1| | | |], (prun W dbg (plain (lstart n)) ops) as [p1| | | |]; cbn [simw bind] in *; try contradiction; split; auto; try discriminate.
  - destruct S as [-> _]. reflexivity.
  - intros w l o E. apply WrapProofs.ok_inj in E. subst w1. destruct S as (_ & I & _). intros El Hx. apply alive_cnt. specialize (I o). unfold total in I.
    apply in_app_iff in Hx as [Hx | Hx].
    + pose proof (elems_refs w l o El Hx). lia.
    + apply refs_in in Hx. lia.
Qed.

(** ** Storage that is freed *)
Lemma frees_step w op w' : Inv w -> frees op -> lstep W dbg w op = Ok w' -> lv w <> None ->
  forall o, cnt (lc w) o + total w' o + refs o (cells w) = cnt (lc w') o + total w o.
Proof.
  intros I [-> | [ks ->]] E Hv o; cbn [lstep] in E.
  - apply WrapProofs.ok_inj in E. subst w'. unfold total, cells. cbn [lv lc lvars]. rewrite refs_nil. lia.
  - unfold on_vec in E. destruct (lv w) as [v|] eqn:Ev; [|congruence].
    assert (0 + length (map (var w) ks) = length (@repeat ptr None (length ks))) as Ln by (rewrite map_length, repeat_length; reflexivity).
    assert (room (lvars w) (lc w) (@repeat ptr None (length ks))) as Rm.
    { intros o'. rewrite refs_repeat. specialize (I o'). unfold total in I. lia. }
    assert (forall x o, In x (map (var w) ks) -> x = Some o -> 1 <= refs o (lvars w)) as Xs.
    { intros x o' Hx ->. apply in_map_iff in Hx as (k & Ek & _). eapply var_refs; eauto. }
    pose proof (list_sim (lvars w) _ 0 (lc w) _ Xs Ln Rm) as F. cbn [firstn app] in F.
    destruct (llist (lc w) (repeat None (length ks)) 0 (map (var w) ks)) as [[c st]| | | |]; cbn [sim bind] in *; try contradiction.
    destruct F as (-> & L & K). apply WrapProofs.ok_inj in E. subst w'. unfold total, cells. cbn [lv lc lvars vst]. rewrite Ev. specialize (K o). rewrite refs_repeat in K. lia.
Qed.
Lemma leaks n ops w l o op ops' w' : no_remove ops -> no_remove ops' -> lrun W dbg (lstart n) ops = Ok w -> elems W w l -> In (Some o) l ->
  frees op -> lrun W dbg w (op :: ops') = Ok w' -> alive (lc w') o.
Proof.
  intros N N' E El Hx F E'. pose proof (lrun_sim ops (lstart n) (start_inv n) N) as S. rewrite E in S.
  destruct (prun W dbg (plain (lstart n)) ops); cbn [simw] in S; try contradiction. destruct S as (_ & I & _).
  cbn [lrun] in E'. apply bind_ok in E' as (w1 & E1 & E2).
  assert (lv w <> None) as Hv. { unfold elems in El. destruct (lv w); [discriminate|]. subst l. destruct Hx. }
  pose proof (frees_step w op w1 I F E1 Hv) as K.
  assert (Inv w1) as I1. { intros o'. specialize (I o'). specialize (K o'). lia. }
  pose proof (lrun_sim ops' w1 I1 N') as S. rewrite E2 in S. destruct (prun W dbg (plain w1) ops'); cbn [simw] in S; try contradiction. destruct S as (_ & I' & K').
  apply alive_cnt. specialize (K o). specialize (K' o). specialize (I o). pose proof (elems_refs w l o El Hx). lia.
Qed.

(** ** Careful programs *)
Notation null := (fun y : ptr => y = None).
Lemma null_refs (l : list ptr) o : Forall null l -> refs o l = 0.
Proof. induction 1 as [|x l Hx H IH]; [reflexivity|]. cbn beta in Hx. subst x. rewrite refs_cons, refs_none, IH. reflexivity. Qed.
Definition Good (w : lw) : Prop := exists v l pre post, lv w = Some v /\ vr W v l pre post /\ clean null pre post /\
  forall o, cnt (lc w) o = refs o l + refs o (lvars w).
Lemma vr_refs v l pre post o : vr W v l pre post -> clean null pre post -> refs o (vst v) = refs o l.
Proof. intros [S _ _ _ _] [C1 C2]. rewrite S, !refs_app, (null_refs pre), (null_refs post) by auto. lia. Qed.
Lemma vr_bare v l pre post : vr W v l pre post -> clean null pre post -> bare v.
Proof.
  intros HR [C1 C2]. destruct HR as [S H T E B]. unfold bare. rewrite S, H, T. rewrite !app_length. splits; try lia. intros o. split.
  - rewrite firstn_app_exact by auto. now apply null_refs.
  - rewrite app_assoc, skipn_app_exact by (rewrite app_length; auto). now apply null_refs.
Qed.
Lemma good_inv w : Good w -> Inv w.
Proof. intros (v & l & pre & post & Ev & HR & C & K) o. unfold total, cells. rewrite Ev, (vr_refs _ _ _ _ o HR C), K. lia. Qed.
Lemma refs_remove o (l : list ptr) i : i < length l -> refs o l = refs o (remove_at i l) + refs o [nth i l None].
Proof.
  intros Hi. destruct (nth_split l None Hi) as (l1 & l2 & El & L1). set (x := nth i l None) in *. unfold remove_at. rewrite El.
  rewrite firstn_app_exact by auto. change (x :: l2) with ([x] ++ l2) at 2. rewrite (app_assoc l1 [x] l2), (skipn_app_exact (l1 ++ [x])) by (rewrite app_length; simpl; lia).
  rewrite !refs_app. rewrite (refs_cons o x l2) || idtac. lia.
Qed.
Lemma careful_step w op : Good w -> careful_op W w op -> exists w', lstep W dbg w op = Ok w' /\ Good w'.
Proof.
  intros G [Hop Hg]. pose proof (good_inv w G) as I. destruct G as (v & l & pre & post & Ev & HR & C & K).
  pose proof (vr_size _ _ _ _ _ HR) as Hs. pose proof (vr_h _ _ _ _ _ HR) as Hh.
  assert (bare_w w) as B by (unfold bare_w; rewrite Ev; eapply vr_bare; eauto).
  (* a step that the plain program makes with a well-formed result *)
  assert (forall w1 v1 l1 pre1 post1, (forall i, op <> LRemove i) -> keeps_op op = true -> lstep W dbg w op = Ok w1 -> lv w1 = Some v1 -> vr W v1 l1 pre1 post1 -> clean null pre1 post1 -> Good w1) as Fin.
  { intros w1 v1 l1 pre1 post1 NR Ko E1 Ev1 HR1 C1. exists v1, l1, pre1, post1. splits; auto. intros o.
    pose proof (lstep_sim w op I NR) as S. rewrite E1 in S. destruct (pstep W dbg (plain w) op); cbn [simw] in S; try contradiction. destruct S as (_ & _ & Bt).
    destruct (Bt o) as [_ Q]. specialize (Q B Ko). unfold total, cells in Q. rewrite Ev, Ev1, (vr_refs _ _ _ _ o HR C), (vr_refs _ _ _ _ o HR1 C1) in Q. specialize (K o). lia. }
  assert (forall c, vcall w op = Some c -> exists x v1 pre1 post1, vstep None (left true) W dbg v c = Ok (x, v1) /\ vr W v1 (snd (seq_step None (vmax v) l c)) pre1 post1 /\ clean null pre1 post1) as Vc.
  { intros c Ec. destruct (Hg v c Ev Ec) as [G1 G2]. unfold offset in G1. rewrite Hs, Hh in G1.
    destruct (vstep_ok None (left true) W null eq_refl (fun _ => eq_refl) dbg v l pre post c HR G1) as (v1 & pre1 & post1 & E1 & HR1 & _ & C1).
    exists (fst (seq_step None (vmax v) l c)), v1, pre1, post1. splits; auto. apply C1; auto. unfold vtidy, offset in G2. destruct c; simpl; auto. now rewrite <- Hh, <- Hs. }
  assert (forall p1, (forall i, op <> LRemove i) -> pstep W dbg (plain w) op = Ok p1 -> exists w1, lstep W dbg w op = Ok w1 /\ plain w1 = p1) as Run.
  { intros p1 NR Ep. pose proof (lstep_sim w op I NR) as S. rewrite Ep in S. destruct (lstep W dbg w op) as [w1| | | |]; cbn [simw] in S; try contradiction. exists w1. tauto. }
  assert (forall c, (forall i, op <> LRemove i) -> keeps_op op = true -> vcall w op = Some c -> pstep W dbg (plain w) op = pcall W dbg true (plain w) c -> exists w', lstep W dbg w op = Ok w' /\ Good w') as Most.
  { intros c NR Ko Ec Ep. destruct (Vc c Ec) as (x & v1 & pre1 & post1 & E1 & HR1 & C1). unfold pcall in Ep. cbn [plain pv pn pvars] in Ep. rewrite Ev, E1 in Ep. cbn [bind] in Ep.
    destruct (Run _ NR Ep) as (w1 & Ew & Pw). exists w1. split; [exact Ew|]. assert (lv w1 = Some v1) as Ev1 by (change (lv w1) with (pv (plain w1)); now rewrite Pw).
    eapply Fin; eauto. }
  destruct op; cbn [careful_op] in *; try contradiction.
  - eexists. split; [reflexivity|]. eapply Fin; eauto; try reflexivity; discriminate.
  - destruct (Run _ ltac:(discriminate) eq_refl) as (w1 & Ew & Pw). exists w1. split; [exact Ew|].
    assert (lv w1 = Some v) as Ev1 by (change (lv w1) with (pv (plain w1)); now rewrite Pw). eapply Fin; eauto; try reflexivity; discriminate.
  - destruct (Run _ ltac:(discriminate) eq_refl) as (w1 & Ew & Pw). exists w1. split; [exact Ew|].
    assert (lv w1 = Some v) as Ev1 by (change (lv w1) with (pv (plain w1)); now rewrite Pw). eapply Fin; eauto; try reflexivity; discriminate.
  - apply (Most (VPushBack (var w k))); try reflexivity; try discriminate. cbn [pstep]. now rewrite pvar_plain.
  - apply (Most (VPushFront (var w k))); try reflexivity; try discriminate. cbn [pstep]. now rewrite pvar_plain.
  - apply (Most (VInsert i (var w k))); try reflexivity; try discriminate. cbn [pstep]. now rewrite pvar_plain.
  - apply (Most (VFill (var w k))); try reflexivity; try discriminate. cbn [pstep]. now rewrite pvar_plain.
  - destruct keep; [|contradiction]. apply (Most VPopBack); try reflexivity; try discriminate.
  - destruct keep; [|contradiction]. apply (Most VPopFront); try reflexivity; try discriminate.
  - destruct (Vc (VRemove i) eq_refl) as (x & v1 & pre1 & post1 & E1 & HR1 & C1). cbn [lstep]. rewrite Ev. unfold lremove.
    destruct (Hg v _ Ev eq_refl) as [G1 _]. cbn [vguard] in G1. unfold offset in G1. rewrite Hs, Hh in G1.
    destruct (vstep_ok None (left true) W null eq_refl (fun _ => eq_refl) dbg v l pre post (VRemove i) HR) as (v2 & _ & _ & E2 & _); [cbn [vguard]; exact G1|].
    cbn [vstep] in E1, E2. destruct (remove None (left true) dbg v i) as [[y v3]| | | |]; try discriminate. cbn [bind] in *.
    assert (v3 = v1) as -> by congruence. assert (y = nth i l None) as -> by (cbn in E2; congruence).
    eexists. split; [reflexivity|]. exists v1, (remove_at i l), pre1, post1. cbn [lv lc lvars]. splits; auto. intros o. rewrite K, refs_app, (refs_remove o l i) by tauto. lia.
  - apply (Most (VGet i)); try reflexivity; try discriminate.
  - apply (Most VClear); try reflexivity; try discriminate.
Qed.
Lemma start_good n : (Z.of_nat n < 2 ^ W)%Z -> Good (lstart n).
Proof.
  intros H. destruct (vmade_vr None W null eq_refl _ _ _ (made_new None W n H)) as (p1 & R1 & _ & C1).
  exists (vec_new None n), [], [], p1. splits; auto.
  - apply C1; eauto.
  - intros o. unfold lstart, cnt. cbn [lc lvars]. rewrite refs_nil. now destruct o.
Qed.
Lemma careful_run : forall ops w, Good w -> careful W dbg w ops -> exists w', lrun W dbg w ops = Ok w' /\ Good w'.
Proof.
  induction ops as [|op ops IH]; intros w G C; cbn [lrun careful] in *; [eauto|]. destruct C as [C1 C2].
  destruct (careful_step w op G C1) as (w1 & E1 & G1). rewrite E1. cbn [bind]. auto.
Qed.
Lemma exact_count n ops : (Z.of_nat n < 2 ^ W)%Z -> careful W dbg (lstart n) ops ->
  exists w l, lrun W dbg (lstart n) ops = Ok w /\ elems W w l /\
    (forall o, alive (lc w) o <-> In (Some o) (l ++ lvars w)) /\ forall o k, nth_error (lc w) o = Some k -> k = refs o (l ++ lvars w).
Proof.
  intros Hn C. destruct (careful_run ops (lstart n) (start_good n Hn) C) as (w & E & v & l & pre & post & Ev & HR & Cl & K).
  exists w, l. splits; auto.
  - unfold elems. rewrite Ev. eapply vr_holds; eauto.
  - intros o. rewrite alive_cnt, K, refs_in, refs_app. reflexivity.
  - intros o k Ek. apply cnt_some in Ek. rewrite refs_app, <- K. auto.
Qed.
End Prog.
