(** Ring buffers, line buffers and vectors over shared storage *)
From Coq Require Import List Arith Lia Bool ZArith Ascii.
From Verif Require Import Base RingOps RingModel RingProofs LineModel VectorModel VectorSpec VectorProofs ShareModel ShareSpec ShareProofs.
From Verif Require StreamProofs.
Import ListNotations.

(** ** The storages keep their size. *)
Lemma wr_len {A} (l : list A) i x l' : wr l i x = Ok l' -> length l' = length l.
Proof. unfold wr. destruct (i <? length l); [|discriminate]. intros E. assert (l' = upd l i x) as -> by congruence. apply upd_length. Qed.
Lemma memmove_len {A} (l : list A) d s n l' : memmove l d s n = Ok l' -> length l' = length l.
Proof.
  unfold memmove. destruct (d + n <=? length l) eqn:E1; [|discriminate]. destruct (s + n <=? length l) eqn:E2; [|discriminate]. apply Nat.leb_le in E1, E2. cbn [andb]. intros E.
  assert (l' = firstn d l ++ firstn n (skipn s l) ++ skipn (d + n) l) as -> by congruence. rewrite !app_length, !firstn_length, !skipn_length. lia.
Qed.
Lemma memset0_len {A} (z : A) l d n l' : memset0 z l d n = Ok l' -> length l' = length l.
Proof.
  unfold memset0. destruct (d + n <=? length l) eqn:E1; [|discriminate]. apply Nat.leb_le in E1. intros E.
  assert (l' = firstn d l ++ repeat z n ++ skipn (d + n) l) as -> by congruence. rewrite !app_length, firstn_length, repeat_length, skipn_length. lia.
Qed.
Ltac ub := repeat match goal with
  | H : bind ?o _ = Ok _ |- _ => let E := fresh "E" in apply StreamProofs.bind_ok in H as (? & E & H)
  | H : (let '(_, _) := ?p in _) = Ok _ |- _ => destruct p
  | p : (_ * _)%type |- _ => destruct p
  | H : (if ?c then _ else _) = Ok _ |- _ => destruct c eqn:?; try discriminate
  | H : Ok ?a = Ok ?b |- _ => assert (a = b) by congruence; clear H; subst
  | H : (?a, ?b) = (?c, ?d) |- _ => assert (a = c) by congruence; assert (b = d) by congruence; clear H; subst
  end.
Section R.
Context {A : Type}.
Variable W : Z.
Lemma push_len (r : ring A) v ro b r' : push W r v ro = Ok (b, r') -> length (buf r') = length (buf r).
Proof. unfold push. intros H. ub; auto; cbn [buf]; eapply wr_len; eauto. Qed.
Lemma push_n_len ro : forall l (r : ring A) n r', push_n W r l ro = Ok (n, r') -> length (buf r') = length (buf r).
Proof.
  induction l as [|v l IH]; intros r n r' H; cbn [push_n] in H; [congruence|]. apply StreamProofs.bind_ok in H as ([ok r1] & E & H). apply push_len in E. destruct ok.
  - apply StreamProofs.bind_ok in H as ([k r2] & E2 & H). apply IH in E2. congruence.
  - congruence.
Qed.
Lemma pop_buf (r : ring A) x r' : pop r = Ok (x, r') -> buf r' = buf r.
Proof. unfold pop. intros H. ub; auto. Qed.
Lemma pop_loop_buf : forall n (r : ring A) x r', pop_loop r n = Ok (x, r') -> buf r' = buf r.
Proof.
  induction n as [|n IH]; intros r x r' H; cbn [pop_loop] in H; [congruence|]. apply StreamProofs.bind_ok in H as ([v r1] & E & H). apply pop_buf in E.
  apply StreamProofs.bind_ok in H as ([vs r2] & E2 & H). apply IH in E2. congruence.
Qed.
Lemma ring_reads op (r : ring A) x r' : ring_reader op -> ring_step W r op = Ok (x, r') -> buf r' = buf r.
Proof.
  destruct op; cbn [ring_reader ring_step]; try contradiction; intros _ E.
  - apply StreamProofs.bind_ok in E as ([v r1] & E & H). apply pop_buf in E. congruence.
  - apply StreamProofs.bind_ok in E as ([v r1] & E & H). unfold pop_n in E. destruct (used_space r <? n); [congruence|]. apply pop_loop_buf in E. congruence.
  - apply StreamProofs.bind_ok in E as (v & E & H). congruence.
  - destruct (peek_ptr r i); [apply StreamProofs.bind_ok in E as (v & E & H)|]; congruence.
  - unfold drop_last in E. apply StreamProofs.bind_ok in E as ([v r1] & E & H). apply StreamProofs.bind_ok in E as (v2 & E & H2). assert (buf r1 = buf r) by (ub; reflexivity). congruence.
  - unfold drop_first in E. apply StreamProofs.bind_ok in E as ([v r1] & E & H). apply StreamProofs.bind_ok in E as (v2 & E & H2). assert (buf r1 = buf r) by (ub; reflexivity). congruence.
  - unfold clear in E. apply StreamProofs.bind_ok in E as (r1 & E & H). apply StreamProofs.bind_ok in E as ([k r2] & E & H2). unfold drop_last in E. apply StreamProofs.bind_ok in E as (v2 & E & H3).
    assert (buf r2 = buf r) by (ub; reflexivity). congruence.
  - congruence.
  - congruence.
  - congruence.
  - congruence.
  - congruence.
Qed.
Lemma ring_step_len op (r : ring A) x r' : ring_step W r op = Ok (x, r') -> length (buf r') = length (buf r).
Proof.
  intros E. assert (D : ring_reader op \/ ~ ring_reader op) by (destruct op; simpl; auto). destruct D as [D|D]; [f_equal; eapply ring_reads; eauto|].
  destruct op; simpl in D; try tauto; cbn [ring_step] in E; apply StreamProofs.bind_ok in E as ([k r1] & E & H); [apply push_len in E|apply push_n_len in E]; congruence.
Qed.
End R.
Lemma ring_fixed A zero W dbg : fixed_size (ring_cls A zero W dbg).
Proof.
  intros hd st op r hd' st' _ E. cbn [call ring_cls] in E. apply StreamProofs.bind_ok in E as ([x r1] & E & H). apply ring_step_len in E. cbn [buf ring_of] in E. congruence.
Qed.
Lemma ring_reads_cls A zero W dbg op : ring_reader op -> reads (ring_cls A zero W dbg) op.
Proof.
  intros Hr. split; [reflexivity|]. intros hd st r hd' st' E. cbn [call ring_cls] in E. apply StreamProofs.bind_ok in E as ([x r1] & E & H). apply (ring_reads _ _ _ _ _ Hr) in E. cbn [buf ring_of] in E. congruence.
Qed.
Lemma line_loop_buf : forall k r out i x, line_loop r out i k = Ok x -> buf (snd x) = buf r.
Proof.
  induction k as [|k IH]; intros r out i x E; cbn [line_loop] in E; [assert (x = (out, r)) as -> by congruence; reflexivity|]. apply StreamProofs.bind_ok in E as ([v r1] & E1 & E). apply pop_buf in E1.
  destruct v as [c|]; [apply StreamProofs.bind_ok in E as (o & _ & E)|]; apply IH in E; congruence.
Qed.
Lemma drop_loop_buf : forall k r r', drop_loop r k = Ok r' -> buf r' = buf r.
Proof.
  induction k as [|k IH]; intros r r' E; cbn [drop_loop] in E; [congruence|]. apply StreamProofs.bind_ok in E as ([v r1] & E1 & E). apply pop_buf in E1. apply IH in E. congruence.
Qed.
Lemma line_reads W op hd st x hd' st' : line_reader op -> line_call W hd st op = Ok (x, hd', st') -> st' = st.
Proof.
  intros Hr E. destruct op; cbn [line_reader line_call] in *; try contradiction.
  - apply StreamProofs.bind_ok in E as ([y r1] & E & H). apply (ring_reads _ _ _ _ _ Hr) in E. cbn [buf ring_of] in E. congruence.
  - congruence.
  - apply StreamProofs.bind_ok in E as (y & E & H). congruence.
  - apply StreamProofs.bind_ok in E as (y & E & H). congruence.
  - apply StreamProofs.bind_ok in E as ([[n out] r1] & E & H). unfold get_next_line in E. apply StreamProofs.bind_ok in E as (len & _ & E). destruct ((len =? 0) || (m <? len)).
    + assert (r1 = ring_of (fst hd) st) by congruence. subst. cbn [buf ring_of] in H. congruence.
    + apply StreamProofs.bind_ok in E as ([o2 r2] & E1 & E). apply line_loop_buf in E1. apply StreamProofs.bind_ok in E as ([v r3] & E2 & E). apply pop_buf in E2. apply StreamProofs.bind_ok in E as (o4 & _ & E).
      cbn [snd buf ring_of] in *. congruence.
  - apply StreamProofs.bind_ok in E as ([[p n]|] & E & H); [apply StreamProofs.bind_ok in H as (t & _ & H)|]; congruence.
  - apply StreamProofs.bind_ok in E as ([b r1] & E & H). unfold drop_next_line in E. apply StreamProofs.bind_ok in E as (len & _ & E). destruct (len =? 0).
    + assert (r1 = ring_of (fst hd) st) by congruence. subst. cbn [buf ring_of] in H. congruence.
    + apply StreamProofs.bind_ok in E as (r2 & E1 & E). apply drop_loop_buf in E1. apply StreamProofs.bind_ok in E as ([v r3] & E2 & E). apply pop_buf in E2. cbn [buf ring_of] in *. congruence.
Qed.
Lemma line_reads_cls W dbg op : line_reader op -> reads (line_cls W dbg) op.
Proof. intros Hr. split; [reflexivity|]. intros hd st r hd' st' E. exact (line_reads W op hd st r hd' st' Hr E). Qed.
Lemma line_fixed W dbg : fixed_size (line_cls W dbg).
Proof.
  intros hd st op r hd' st' _ E. cbn [call line_cls] in E. assert (D : line_reader op \/ ~ line_reader op) by (destruct op as [[]| | | | | | |]; simpl; auto).
  destruct D as [D|D]; [f_equal; eapply line_reads; eauto|]. destruct op; simpl in D; try tauto; cbn [line_call] in E.
  - apply StreamProofs.bind_ok in E as ([x r1] & E & H). apply ring_step_len in E. cbn [buf ring_of] in E. congruence.
  - apply StreamProofs.bind_ok in E as ([x r1] & E & H). apply push_n_len in E. cbn [buf ring_of] in E. congruence.
Qed.

Section V.
Context {A : Type}.
Variable zero : A.
Variable moved : A -> A.
Variable W : Z.
Variable dbg : bool.
Lemma rearrange_len (v : vec A) i v' : rearrange zero W dbg v i = Ok v' -> vmax v' = vmax v.
Proof.
  unfold rearrange. intros H. apply StreamProofs.bind_ok in H as (_ & _ & H). apply StreamProofs.bind_ok in H as (s1 & E1 & H). apply StreamProofs.bind_ok in H as (s2 & E2 & H).
  apply StreamProofs.bind_ok in H as (_ & _ & H). apply StreamProofs.bind_ok in H as (s3 & E3 & H). apply memmove_len in E1. apply memset0_len in E2, E3.
  assert (v' = mkVec s3 i (i + vsize v)) as -> by congruence. unfold vmax. cbn [vst]. congruence.
Qed.
Lemma room_len (v : vec A) (c : bool) v' : (if c then rearrange zero W dbg v 0 else Ok v) = Ok v' -> vmax v' = vmax v.
Proof. destruct c; [apply rearrange_len|congruence]. Qed.
Lemma push_back_len (v : vec A) x v' : VectorModel.push_back zero W dbg v x = Ok v' -> vmax v' = vmax v.
Proof.
  unfold VectorModel.push_back. intros H. apply StreamProofs.bind_ok in H as (v1 & E1 & H). apply room_len in E1. apply StreamProofs.bind_ok in H as (_ & _ & H). destruct (vt v1 <? vmax v1); [|congruence].
  apply StreamProofs.bind_ok in H as (st & E2 & H). apply wr_len in E2. assert (v' = mkVec st (vh v1) (vt v1 + 1)) as -> by congruence. unfold vmax in *. cbn [vst]. congruence.
Qed.
Lemma emplace_front_len (v : vec A) x v' : emplace_front zero v x = Ok v' -> vmax v' = vmax v.
Proof.
  unfold emplace_front. destruct (0 <? vh v); intros H.
  - apply StreamProofs.bind_ok in H as (st & E2 & H). apply wr_len in E2. assert (v' = mkVec st (vh v - 1) (vt v)) as -> by congruence. exact E2.
  - apply StreamProofs.bind_ok in H as (s1 & E1 & H). apply StreamProofs.bind_ok in H as (s2 & E2 & H). apply StreamProofs.bind_ok in H as (s3 & E3 & H). apply memmove_len in E1. apply memset0_len in E2. apply wr_len in E3.
    assert (v' = mkVec s3 (vh v) (vt v + 1)) as -> by congruence. unfold vmax. cbn [vst]. congruence.
Qed.
Lemma push_front_len (v : vec A) x v' : push_front zero dbg v x = Ok v' -> vmax v' = vmax v.
Proof. unfold push_front. intros H. apply StreamProofs.bind_ok in H as (_ & _ & H). eapply emplace_front_len; eauto. Qed.
Lemma pop_back_len (v : vec A) x v' : VectorModel.pop_back moved dbg v = Ok (x, v') -> vmax v' = vmax v.
Proof.
  unfold VectorModel.pop_back. intros H. apply StreamProofs.bind_ok in H as (_ & _ & H). destruct (if 0 <? vt v then _ else _) as [h' t']. apply StreamProofs.bind_ok in H as (y & _ & H).
  apply StreamProofs.bind_ok in H as (st & E & H). apply wr_len in E. assert (v' = mkVec st h' t') as -> by congruence. exact E.
Qed.
Lemma pop_front_len (v : vec A) x v' : pop_front moved dbg v = Ok (x, v') -> vmax v' = vmax v.
Proof.
  unfold pop_front. intros H. apply StreamProofs.bind_ok in H as (_ & _ & H). apply StreamProofs.bind_ok in H as (_ & _ & H). destruct (if vt v =? vh v + 1 then _ else _) as [h' t'].
  apply StreamProofs.bind_ok in H as (y & _ & H). apply StreamProofs.bind_ok in H as (st & E & H). apply wr_len in E. assert (v' = mkVec st h' t') as -> by congruence. exact E.
Qed.
Lemma clear_len : forall k (v : vec A) v', clear_loop moved dbg v k = Ok v' -> vmax v' = vmax v.
Proof. induction k as [|k IH]; intros v v' H; cbn [clear_loop] in H; [congruence|]. apply StreamProofs.bind_ok in H as ([x v1] & E & H). apply pop_back_len in E. apply IH in H. congruence. Qed.
Lemma insert_len (v : vec A) i x v' : insert zero W dbg v i x = Ok v' -> vmax v' = vmax v.
Proof.
  unfold insert. intros H. apply StreamProofs.bind_ok in H as (_ & _ & H). destruct (i =? 0); [eapply push_front_len; eauto|]. destruct (vt v <=? vh v + i); [eapply push_back_len; eauto|].
  apply StreamProofs.bind_ok in H as (v1 & E0 & H). apply room_len in E0. apply StreamProofs.bind_ok in H as (_ & _ & H).
  apply StreamProofs.bind_ok in H as (s1 & E1 & H). apply StreamProofs.bind_ok in H as (s2 & E2 & H). apply StreamProofs.bind_ok in H as (s3 & E3 & H). apply memmove_len in E1. apply memset0_len in E2. apply wr_len in E3.
  assert (v' = mkVec s3 (vh v1) (vt v1 + 1)) as -> by congruence. unfold vmax in *. cbn [vst]. congruence.
Qed.
Lemma remove_len (v : vec A) i x v' : VectorModel.remove zero moved dbg v i = Ok (x, v') -> vmax v' = vmax v.
Proof.
  unfold VectorModel.remove. destruct (i =? vh v); [apply pop_front_len|]. destruct (i =? vt v); [apply pop_back_len|]. destruct ((vh v <? i) && (i <? vt v)); intros H.
  - apply StreamProofs.bind_ok in H as (y & _ & H). apply StreamProofs.bind_ok in H as (s1 & E1 & H). apply StreamProofs.bind_ok in H as (s2 & E2 & H). apply wr_len in E1. apply memmove_len in E2.
    assert (v' = if vt v - 1 =? vh v then mkVec s2 0 0 else mkVec s2 (vh v) (vt v - 1)) as -> by congruence. unfold vmax. destruct (vt v - 1 =? vh v); cbn [vst]; congruence.
  - apply StreamProofs.bind_ok in H as (_ & _ & H). congruence.
Qed.
Lemma vec_reads (v : vec A) op x v' : vec_reader op -> vstep zero moved W dbg v op = Ok (x, v') -> v' = v.
Proof. destruct op; simpl vec_reader; try contradiction; intros _ E; cbn [vstep] in E; try (apply StreamProofs.bind_ok in E as (y & _ & E)); congruence. Qed.
Lemma vec_fixed : fixed_size (vec_cls A zero moved W dbg).
Proof.
  intros hd st op r hd' st' Er E. cbn [call vec_cls renews] in *. apply StreamProofs.bind_ok in E as ([x v] & E & H). change st with (vst (mkVec st (fst hd) (snd hd))). assert (st' = vst v) as -> by congruence. clear H.
  change (vmax v = vmax (mkVec st (fst hd) (snd hd))). set (v0 := mkVec st (fst hd) (snd hd)) in *. clearbody v0.
  destruct op; try discriminate; cbn [vstep] in E;
    try (apply StreamProofs.bind_ok in E as ([y v1] & E1 & E); assert (v = v1) as -> by congruence);
    try (apply StreamProofs.bind_ok in E as (v1 & E1 & E)); try (assert (v = v1) as -> by congruence); try (assert (v = v0) as -> by congruence; reflexivity).
  - eapply push_back_len; eauto.
  - eapply push_back_len; eauto.
  - eapply push_front_len; eauto.
  - eapply emplace_front_len; eauto.
  - eapply pop_back_len; eauto.
  - eapply pop_front_len; eauto.
  - eapply insert_len; eauto.
  - eapply remove_len; eauto.
  - eapply clear_len; eauto.
  - assert (v = fill v0 x0) as -> by congruence. unfold vmax, fill. cbn [vst]. apply repeat_length.
Qed.
Lemma vec_reads_cls op : vec_reader op -> reads (vec_cls A zero moved W dbg) op.
Proof.
  intros Hr. split; [destruct op; simpl in *; tauto|]. intros hd st r hd' st' E. cbn [call vec_cls] in E. apply StreamProofs.bind_ok in E as ([x v] & E & H). apply (vec_reads _ _ _ _ Hr) in E. subst v. cbn [vst] in H. congruence.
Qed.
End V.
