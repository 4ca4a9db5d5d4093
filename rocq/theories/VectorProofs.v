(** Proofs about Vector. *)
From Coq Require Import List Arith ZArith Lia Bool.
From Verif Require Import Base VectorModel VectorSpec.
Import ListNotations.

(** Lists cut at known places. *)
Lemma skipn_app_exact {A} (a b : list A) n : n = length a -> skipn n (a ++ b) = b.
Proof. intros ->. rewrite skipn_app, skipn_all, Nat.sub_diag. reflexivity. Qed.

Lemma firstn_app_exact {A} (a b : list A) n : n = length a -> firstn n (a ++ b) = a.
Proof. intros ->. rewrite firstn_app, firstn_all, Nat.sub_diag. simpl. apply app_nil_r. Qed.

Lemma nth_error_app_exact {A} (a b : list A) x n : n = length a -> nth_error (a ++ x :: b) n = Some x.
Proof. intros ->. rewrite nth_error_app2 by lia. now rewrite Nat.sub_diag. Qed.

Lemma rd_app {A} (a b : list A) x n : n = length a -> rd (a ++ x :: b) n = Ok x.
Proof. intros H. apply rd_ok. now apply nth_error_app_exact. Qed.

Lemma wr_app {A} (a b : list A) x y n : n = length a -> wr (a ++ x :: b) n y = Ok (a ++ y :: b).
Proof.
  intros ->. rewrite wr_ok by (rewrite app_length; simpl; lia). rewrite upd_split by (rewrite app_length; simpl; lia).
  rewrite firstn_app_exact by reflexivity. f_equal. f_equal. f_equal.
  change (x :: b) with ([x] ++ b). rewrite app_assoc. apply skipn_app_exact. rewrite app_length. simpl. lia.
Qed.

Lemma list_snoc {A} (l : list A) : l <> [] -> exists l' x, l = l' ++ [x].
Proof. intros H. destruct (exists_last H) as (l' & x & ->). eauto. Qed.

Section Proofs.
Context {A : Type}.
Variable zero : A.
Variable moved : A -> A.
Variable W : Z.
Variable null : A -> Prop.
Hypothesis null_zero : null zero.
Hypothesis null_moved : forall x, null (moved x).

(** [vr v l pre post]: the storage is pre ++ l ++ post. *)
Record vr (v : vec A) (l pre post : list A) : Prop := {
  vr_st : vst v = pre ++ l ++ post;
  vr_h : vh v = length pre;
  vr_t : vt v = length pre + length l;
  vr_e : l = [] -> pre = [];
  vr_w : (Z.of_nat (length (vst v)) < 2 ^ W)%Z
}.

Definition clean (pre post : list A) : Prop := Forall null pre /\ Forall null post.

Lemma vr_size v l pre post : vr v l pre post -> vsize v = length l.
Proof. intros [S H T E B]. unfold vsize. lia. Qed.

Lemma vr_max v l pre post : vr v l pre post -> vmax v = length pre + length l + length post.
Proof. intros [S H T E B]. unfold vmax. rewrite S, !app_length. lia. Qed.

Lemma sassert_true dbg : sassert dbg true = Ok tt.
Proof. reflexivity. Qed.

Lemma Forall_repeat_null n : Forall null (repeat zero n).
Proof. induction n; simpl; constructor; auto. Qed.

Lemma rearrange_vr dbg v l pre :
  vr v l pre [] -> pre <> [] ->
  exists v', rearrange zero W dbg v 0 = Ok v' /\ vr v' l [] (repeat zero (length pre)).
Proof.
  intros HR Hp. pose proof (vr_size _ _ _ _ HR) as Hs. pose proof (vr_max _ _ _ _ HR) as Hm. simpl in Hm.
  destruct HR as [S H T E B]. rewrite app_nil_r in S.
  assert (1 <= length pre) as Hp1 by (destruct pre; [congruence|simpl; lia]).
  unfold rearrange. rewrite Hs, Hm, H. simpl.
  assert (sassert dbg (length l <? length pre + length l + 0) = Ok tt) as ->.
  { unfold sassert. destruct (Nat.ltb_spec (length l) (length pre + length l + 0)); [reflexivity|lia]. }
  cbn [bind]. unfold memmove. rewrite S, app_length.
  destruct (Nat.leb_spec (0 + length l) (length pre + length l)); [|lia].
  destruct (Nat.leb_spec (length pre + length l) (length pre + length l)); [|lia]. cbn [andb bind].
  rewrite skipn_app_exact, firstn_all by reflexivity. cbn [firstn app Nat.add].
  unfold memset0 at 1. cbn [Nat.add Nat.leb]. cbn [firstn repeat app skipn bind].
  rewrite Z.sub_diag.
  assert (sassert dbg (wrapW W 0 <? Z.of_nat (length pre + length l + 0))%Z = Ok tt) as ->.
  { unfold sassert, wrapW. rewrite Zmod_0_l. destruct (Z.ltb_spec 0 (Z.of_nat (length pre + length l + 0))); [reflexivity|lia]. }
  cbn [bind]. unfold memset0. rewrite !app_length, skipn_length, app_length.
  destruct (Nat.leb_spec (length l + (length pre + length l + 0 - length l)) (length l + (length pre + length l - length l))); [|lia].
  cbn [bind]. rewrite firstn_app_exact by reflexivity.
  replace (length pre + length l + 0 - length l) with (length pre) by lia.
  rewrite (skipn_all2 (l ++ _)) by (rewrite app_length, skipn_length, app_length; lia). rewrite app_nil_r.
  eexists; split; [reflexivity|]. constructor; simpl; auto.
  rewrite app_length, repeat_length. rewrite S, app_length in B. lia.
Qed.

(** The first half of push_back and insert. *)
Lemma make_room dbg v l pre post :
  vr v l pre post -> length l < vmax v ->
  exists v' pre' post', (if (vmax v <=? vt v) && (0 <? vh v) then rearrange zero W dbg v 0 else Ok v) = Ok v' /\
    vr v' l pre' post' /\ 1 <= length post' /\ vmax v' = vmax v /\ (clean pre post -> clean pre' post').
Proof.
  intros HR Hlt. pose proof (vr_max _ _ _ _ HR) as Hm. pose proof HR as [S H T E B].
  destruct (Nat.leb_spec (vmax v) (vt v)) as [Hf|Hf]; simpl.
  - assert (post = []) as -> by (destruct post; [auto|simpl in Hm; lia]).
    destruct (Nat.ltb_spec 0 (vh v)) as [Hp|Hp]; [|simpl in *; lia].
    destruct (rearrange_vr dbg v l pre HR) as (v' & E' & HR'); [destruct pre; simpl in *; [lia|discriminate]|].
    exists v', [], (repeat zero (length pre)). rewrite repeat_length. splits; auto; try lia.
    + rewrite (vr_max _ _ _ _ HR'), Hm, repeat_length. simpl. lia.
    + intros _. split; [constructor|apply Forall_repeat_null].
  - exists v, pre, post. splits; auto; try lia.
Qed.

Lemma push_back_vr dbg v l pre post x :
  vr v l pre post -> length l < vmax v ->
  exists v' pre' post', push_back zero W dbg v x = Ok v' /\ emplace_back zero W dbg v x = Ok v' /\
    vr v' (l ++ [x]) pre' post' /\ vmax v' = vmax v /\ (clean pre post -> clean pre' post').
Proof.
  intros HR Hlt. destruct (make_room dbg v l pre post HR Hlt) as (v1 & pre1 & post1 & E1 & HR1 & Hp & Hm1 & Hc).
  unfold push_back, emplace_back. rewrite E1. cbn [bind].
  pose proof (vr_max _ _ _ _ HR1) as Hm. destruct HR1 as [S H T E B].
  destruct post1 as [|p post1]; [simpl in Hp; lia|]. simpl in Hm.
  destruct (Nat.ltb_spec (vt v1) (vmax v1)); [|lia]. rewrite sassert_true. cbn [bind].
  rewrite S, app_assoc, wr_app by (rewrite app_length; lia). cbn [bind].
  eexists; exists pre1, post1. splits; try reflexivity.
  - constructor; simpl; auto.
    + rewrite <- !app_assoc. reflexivity.
    + rewrite app_length. simpl. lia.
    + intros X; destruct l; discriminate.
    + rewrite !app_length in *. rewrite S, !app_length in B. simpl in *. lia.
  - unfold vmax in *. simpl. rewrite <- Hm1. rewrite S, !app_length. simpl. lia.
  - intros Hcl. specialize (Hc Hcl) as [C1 C2]. split; auto. now inversion C2.
Qed.

Lemma push_back_full dbg v l :
  vr v l [] [] -> push_back zero W dbg v = emplace_back zero W dbg v /\
  forall x, push_back zero W dbg v x = if dbg then Halt else Ok v.
Proof.
  intros HR. split; [reflexivity|]. intros x. pose proof (vr_max _ _ _ _ HR) as Hm. destruct HR as [S H T E B]. simpl in *.
  unfold push_back. rewrite H. simpl. rewrite andb_false_r. cbn [bind].
  destruct (Nat.ltb_spec (vt v) (vmax v)); [lia|]. unfold sassert. destruct dbg; reflexivity.
Qed.

Lemma emplace_front_vr v l pre post x :
  vr v l pre post -> length l < vmax v ->
  exists v' pre' post', emplace_front zero v x = Ok v' /\
    vr v' (x :: l) pre' post' /\ vmax v' = vmax v /\ (clean pre post -> clean pre' post').
Proof.
  intros HR Hlt. pose proof (vr_max _ _ _ _ HR) as Hm. pose proof (vr_size _ _ _ _ HR) as Hs. destruct HR as [S H T E B].
  unfold emplace_front. destruct (Nat.ltb_spec 0 (vh v)) as [Hp|Hp].
  - destruct (list_snoc pre) as (pre' & p & ->); [destruct pre; simpl in *; [lia|discriminate]|].
    rewrite app_length in *. simpl in *.
    rewrite S, <- app_assoc. simpl. rewrite wr_app by lia. cbn [bind].
    eexists; exists pre', post. splits; [reflexivity| | |].
    + constructor; simpl; auto; try lia.
      * discriminate.
      * rewrite S, <- app_assoc, !app_length in B. simpl in *. rewrite !app_length in *. simpl in *. rewrite app_length. lia.
    + unfold vmax in *. simpl. rewrite S, <- app_assoc, !app_length. simpl. rewrite !app_length. lia.
    + intros [C1 C2]. apply Forall_app in C1. split; tauto.
  - assert (pre = []) as -> by (destruct pre; simpl in *; [auto|lia]). simpl in *.
    destruct post as [|p post]; [simpl in *; lia|]. rewrite H, Hs.
    unfold memmove. rewrite S, app_length. simpl length.
    destruct (Nat.leb_spec (0 + 1 + length l) (length l + Datatypes.S (length post))); [|simpl in *; lia].
    destruct (Nat.leb_spec (0 + length l) (length l + Datatypes.S (length post))); [|lia]. cbn [andb bind].
    cbn [skipn]. rewrite (firstn_app_exact l (p :: post) (length l)) by reflexivity.
    assert (skipn (0 + 1 + length l) (l ++ p :: post) = post) as ->.
    { change (p :: post) with ([p] ++ post). rewrite app_assoc. apply skipn_app_exact. rewrite app_length. simpl. lia. }
    assert (exists y, firstn (0 + 1) (l ++ p :: post) = [y]) as (y & ->) by (destruct l; simpl; eauto).
    simpl. unfold memset0. simpl. cbn [bind]. unfold wr. simpl. cbn [bind].
    eexists; exists [], post. splits; [reflexivity| | |].
    + constructor; simpl; auto; try lia; try discriminate.
      rewrite S in B. rewrite !app_length in *. simpl in *. lia.
    + unfold vmax in *. simpl. rewrite S, !app_length. simpl. lia.
    + intros [C1 C2]. split; auto. now inversion C2.
Qed.

Lemma push_front_emplace dbg v x : vsize v < vmax v -> push_front zero dbg v x = emplace_front zero v x.
Proof.
  intros H. unfold push_front. destruct (Nat.ltb_spec (vsize v) (vmax v)); [|lia]. reflexivity.
Qed.

Lemma push_front_full dbg v l x : vr v l [] [] -> push_front zero dbg v x = if dbg then Halt else UB.
Proof.
  intros HR. pose proof (vr_max _ _ _ _ HR) as Hm. pose proof (vr_size _ _ _ _ HR) as Hs. destruct HR as [S H T E B].
  simpl in *. unfold push_front. rewrite Hs. destruct (Nat.ltb_spec (length l) (vmax v)); [lia|].
  unfold sassert. destruct dbg; [reflexivity|]. cbn [bind]. rewrite H. simpl. unfold memmove. rewrite S, app_nil_r.
  destruct (Nat.leb_spec (1 + length l) (length l)); [lia|]. reflexivity.
Qed.

Lemma emplace_front_full v l x : vr v l [] [] -> emplace_front zero v x = UB.
Proof.
  intros HR. pose proof (vr_size _ _ _ _ HR) as Hs. destruct HR as [S H T E B].
  simpl in *. unfold emplace_front. rewrite Hs, H. simpl. unfold memmove. rewrite S, app_nil_r.
  destruct (Nat.leb_spec (1 + length l) (length l)); [lia|]. reflexivity.
Qed.

Lemma pop_front_vr dbg v x l pre post :
  vr v (x :: l) pre post ->
  exists v' pre' post', pop_front moved dbg v = Ok (x, v') /\
    vr v' l pre' post' /\ vmax v' = vmax v /\ (clean pre post -> clean pre' post').
Proof.
  intros HR. pose proof (vr_max _ _ _ _ HR) as Hm. pose proof (vr_size _ _ _ _ HR) as Hs. destruct HR as [S H T E B].
  unfold pop_front. rewrite Hs. simpl length. change (0 <? Datatypes.S (length l)) with true. rewrite sassert_true. cbn [bind].
  simpl in S. rewrite S, rd_app by exact H. simpl in T.
  destruct (Nat.eqb_spec (vt v) (vh v + 1)) as [E1|E1].
  - assert (l = []) as -> by (destruct l; simpl in *; [auto|lia]). cbn [bind].
    rewrite wr_app by exact H. cbn [bind]. eexists; exists [], (pre ++ moved x :: post). splits; [reflexivity| | |].
    + constructor; simpl; auto. rewrite S, !app_length in B. rewrite !app_length. simpl in *. lia.
    + unfold vmax in *. simpl. rewrite S, !app_length. reflexivity.
    + intros [C1 C2]. split; [constructor|]. apply Forall_app. split; auto.
  - cbn [bind]. rewrite wr_app by exact H. cbn [bind]. eexists; exists (pre ++ [moved x]), post. splits; [reflexivity| | |].
    + constructor; simpl; auto; rewrite ?app_length; simpl; try lia.
      * now rewrite <- app_assoc.
      * intros ->; simpl in *; lia.
      * rewrite S, !app_length in B. simpl in *. rewrite app_length in *. lia.
    + unfold vmax in *. simpl. rewrite S, !app_length. reflexivity.
    + intros [C1 C2]. split; auto. apply Forall_app. split; auto.
Qed.

Lemma pop_front_empty dbg v : vr v [] [] (vst v) -> pop_front moved dbg v = if dbg then Halt else UB.
Proof.
  intros HR. pose proof (vr_size _ _ _ _ HR) as Hs. unfold pop_front. rewrite Hs. simpl. destruct dbg; reflexivity.
Qed.

Lemma pop_back_vr dbg v x l pre post :
  vr v (l ++ [x]) pre post -> (l <> [] \/ pre = []) ->
  exists v' post', pop_back moved dbg v = Ok (x, v') /\
    vr v' l pre post' /\ vmax v' = vmax v /\ (clean pre post -> clean pre post').
Proof.
  intros HR Hl. pose proof (vr_max _ _ _ _ HR) as Hm. pose proof (vr_size _ _ _ _ HR) as Hs. destruct HR as [S H T E B].
  rewrite app_length in *. simpl in *.
  unfold pop_back. rewrite Hs. destruct (Nat.ltb_spec 0 (length l + 1)); [|lia]. rewrite sassert_true. cbn [bind].
  destruct (Nat.ltb_spec 0 (vt v)); [|lia].
  rewrite <- app_assoc in S. simpl in S.
  assert ((if vt v - 1 =? vh v then (0, 0) else (vh v, vt v - 1)) = (length pre, length pre + length l)) as ->.
  { destruct (Nat.eqb_spec (vt v - 1) (vh v)).
    - assert (l = []) as -> by (destruct l; simpl in *; [auto|lia]). destruct Hl as [Hl| ->]; [congruence|]. reflexivity.
    - f_equal; lia. }
  rewrite S, app_assoc, rd_app by (rewrite app_length; lia). cbn [bind].
  rewrite wr_app by (rewrite app_length; lia). cbn [bind].
  eexists; exists (moved x :: post). splits; [reflexivity| | |].
  - constructor; simpl; auto.
    + now rewrite <- app_assoc.
    + intros ->. destruct Hl; congruence.
    + rewrite S, !app_length in B. rewrite !app_length. simpl in *. lia.
  - unfold vmax in *. simpl. rewrite S, !app_length. simpl. lia.
  - intros [C1 C2]. split; auto.
Qed.

(** The remaining case: one element, window shifted. *)
Lemma pop_back_shifted dbg v x p pre post :
  vr v [x] (p :: pre) post ->
  exists v', pop_back moved dbg v = Ok (p, v') /\ vr v' [] [] (moved p :: pre ++ x :: post) /\ vmax v' = vmax v.
Proof.
  intros HR. pose proof (vr_max _ _ _ _ HR) as Hm. pose proof (vr_size _ _ _ _ HR) as Hs. destruct HR as [S H T E B].
  unfold pop_back. rewrite Hs. simpl length. change (0 <? 1) with true. rewrite sassert_true. cbn [bind]. simpl in *.
  destruct (Nat.ltb_spec 0 (vt v)); [|lia]. destruct (Nat.eqb_spec (vt v - 1) (vh v)); [|lia].
  rewrite S. unfold rd, wr. simpl. eexists; splits; [reflexivity| |].
  - constructor; simpl; auto. rewrite S in B. simpl in B. exact B.
  - unfold vmax in *. rewrite S. reflexivity.
Qed.

Lemma clear_vr dbg : forall l v pre post,
  vr v l pre post ->
  exists v' post', clear_loop moved dbg v (length l) = Ok v' /\ vr v' [] [] post' /\ vmax v' = vmax v /\
    (clean pre post -> pre = [] -> clean [] post').
Proof.
  intros l. remember (length l) as n eqn:Hn. revert l Hn. induction n as [|n IH]; intros l Hn v pre post HR; simpl.
  - destruct l; [|discriminate]. assert (pre = []) as -> by (apply (vr_e _ _ _ _ HR); reflexivity).
    exists v, post. splits; auto.
  - destruct (list_snoc l) as (l' & x & ->); [destruct l; [discriminate|congruence]|].
    rewrite app_length in Hn. simpl in Hn.
    destruct l' as [|y l'].
    + destruct pre as [|p pre].
      * destruct (pop_back_vr dbg v x [] [] post HR (or_intror eq_refl)) as (v1 & post1 & E1 & HR1 & M1 & C1).
        rewrite E1. cbn [bind]. simpl in Hn. assert (n = 0) as -> by lia. simpl. exists v1, post1. splits; auto.
      * destruct (pop_back_shifted dbg v x p pre post HR) as (v1 & E1 & HR1 & M1).
        rewrite E1. cbn [bind]. simpl in Hn. assert (n = 0) as -> by lia. simpl.
        eexists; eexists; splits; try reflexivity; eauto. discriminate.
    + destruct (pop_back_vr dbg v x (y :: l') pre post HR ltac:(left; discriminate)) as (v1 & post1 & E1 & HR1 & M1 & C1).
      rewrite E1. cbn [bind].
      destruct (IH (y :: l') ltac:(simpl in *; lia) v1 pre post1 HR1) as (v2 & post2 & E2 & HR2 & M2 & C2).
      rewrite E2. exists v2, post2. splits; auto; congruence.
Qed.

Lemma insert_vr dbg v l pre post i x :
  vr v l pre post -> length l < vmax v ->
  exists v' pre' post', insert zero W dbg v i x = Ok v' /\
    vr v' (insert_at i x l) pre' post' /\ vmax v' = vmax v /\ (clean pre post -> clean pre' post').
Proof.
  intros HR Hlt. pose proof (vr_size _ _ _ _ HR) as Hs. unfold insert, insert_at. rewrite Hs.
  destruct (Nat.ltb_spec (length l) (vmax v)); [|lia]. rewrite sassert_true. cbn [bind].
  destruct (Nat.eqb_spec i 0) as [->|Hi].
  - simpl. rewrite push_front_emplace by lia. apply emplace_front_vr; auto.
  - destruct (Nat.leb_spec (vt v) (vh v + i)) as [Hge|Hin].
    + destruct (push_back_vr dbg v l pre post x HR Hlt) as (v' & pre' & post' & E & _ & HR' & M & C).
      exists v', pre', post'. pose proof (vr_h _ _ _ _ HR). pose proof (vr_t _ _ _ _ HR).
      rewrite firstn_all2, skipn_all2 by lia. auto.
    + destruct (make_room dbg v l pre post HR Hlt) as (v1 & pre1 & post1 & E1 & HR1 & Hp & Hm1 & Hc).
      rewrite E1. cbn [bind]. pose proof (vr_max _ _ _ _ HR1) as Hm.
      assert (i < length l) as Hil by (pose proof (vr_h _ _ _ _ HR); pose proof (vr_t _ _ _ _ HR); lia).
      destruct HR1 as [S H1 T E B].
      destruct (Nat.ltb_spec (vt v1) (vmax v1)); [|lia]. rewrite sassert_true. cbn [bind].
      destruct post1 as [|p post1]; [simpl in Hp; lia|]. simpl in Hm.
      set (l1 := firstn i l) in *. set (l2 := skipn i l) in *.
      assert (l = l1 ++ l2) as El by (symmetry; apply firstn_skipn).
      assert (length l1 = i) as L1 by (unfold l1; rewrite firstn_length; lia).
      assert (length l = i + length l2) as L2 by (rewrite El, app_length; lia).
      assert (vst v1 = (pre1 ++ l1) ++ l2 ++ p :: post1) as S' by (rewrite S, El, <- !app_assoc; reflexivity).
      rewrite S', H1, T. replace (length pre1 + length l - (length pre1 + i)) with (length l2) by lia.
      unfold memmove. rewrite !app_length. simpl length.
      destruct (Nat.leb_spec (length pre1 + i + 1 + length l2) (length pre1 + length l1 + (length l2 + Datatypes.S (length post1)))); [|lia].
      destruct (Nat.leb_spec (length pre1 + i + length l2) (length pre1 + length l1 + (length l2 + Datatypes.S (length post1)))); [|lia].
      cbn [andb bind].
      rewrite (skipn_app_exact (pre1 ++ l1)) by (rewrite app_length; lia).
      rewrite (firstn_app_exact l2) by reflexivity.
      assert (exists y, firstn (length pre1 + i + 1) ((pre1 ++ l1) ++ l2 ++ p :: post1) = (pre1 ++ l1) ++ [y]) as (y & ->).
      { destruct l2 as [|y l2']; [simpl in L2; lia|]. exists y.
        change ((y :: l2') ++ p :: post1) with ([y] ++ l2' ++ p :: post1). rewrite app_assoc. apply firstn_app_exact.
        rewrite !app_length. simpl. lia. }
      assert (skipn (length pre1 + i + 1 + length l2) ((pre1 ++ l1) ++ l2 ++ p :: post1) = post1) as ->.
      { change (p :: post1) with ([p] ++ post1). rewrite !app_assoc. apply skipn_app_exact. rewrite !app_length. simpl. lia. }
      unfold memset0. rewrite !app_length. simpl length.
      destruct (Nat.leb_spec (length pre1 + i + 1) (length pre1 + length l1 + 1 + (length l2 + length post1))); [|lia]. cbn [bind].
      rewrite <- (app_assoc (pre1 ++ l1)).
      rewrite (firstn_app_exact (pre1 ++ l1)) by (rewrite app_length; lia).
      assert (skipn (length pre1 + i + 1) ((pre1 ++ l1) ++ [y] ++ l2 ++ post1) = l2 ++ post1) as ->.
      { rewrite app_assoc. apply skipn_app_exact. rewrite !app_length. simpl. lia. }
      cbn [repeat]. cbn [app].
      rewrite (wr_app (pre1 ++ l1)) by (rewrite app_length; lia). cbn [bind].
      eexists; exists pre1, post1. splits; [reflexivity| | |].
      * constructor; simpl; auto.
        -- rewrite <- !app_assoc. reflexivity.
        -- rewrite app_length. simpl. lia.
        -- intros X; destruct l1; discriminate.
        -- rewrite S', !app_length in B. rewrite !app_length in *. simpl in *. rewrite ?app_length. lia.
      * unfold vmax in *. simpl. rewrite <- Hm1, S', !app_length. simpl. rewrite app_length. lia.
      * intros Hcl. destruct (Hc Hcl) as [C1 C2]. split; auto. now inversion C2.
Qed.

(** remove with a physical index inside the window. *)
Lemma remove_vr dbg v l1 x l2 pre post i :
  vr v (l1 ++ x :: l2) pre post -> i = length pre + length l1 -> (l1 = [] \/ post <> []) ->
  exists v' pre' post', remove zero moved dbg v i = Ok (x, v') /\
    vr v' (l1 ++ l2) pre' post' /\ vmax v' = vmax v /\ (clean pre post -> clean pre' post').
Proof.
  intros HR Hi Hp. pose proof HR as [S H T E B].
  pose proof (vr_max _ _ _ _ HR) as Hm. unfold remove.
  destruct (Nat.eqb_spec i (vh v)) as [E1|E1].
  - assert (l1 = []) as -> by (destruct l1; simpl in *; [auto|lia]).
    exact (pop_front_vr dbg v x l2 pre post HR).
  - rewrite app_length in *. simpl in T, Hm.
    destruct (Nat.eqb_spec i (vt v)); [lia|]. destruct (Nat.ltb_spec (vh v) i); [|lia].
    destruct (Nat.ltb_spec i (vt v)); [|lia]. cbn [andb].
    destruct l1 as [|y l1]; [simpl in *; lia|]. destruct Hp as [Hp|Hp]; [discriminate|].
    destruct post as [|p post]; [congruence|].
    assert (vst v = (pre ++ y :: l1) ++ x :: l2 ++ p :: post) as S' by (rewrite S; rewrite <- !app_assoc; reflexivity).
    rewrite S', rd_app by (rewrite app_length; exact Hi). cbn [bind].
    rewrite wr_app by (rewrite app_length; exact Hi). cbn [bind].
    unfold memmove. rewrite !app_length. simpl length. rewrite app_length. simpl length. simpl in *.
    match goal with |- context [if ?a && ?b then _ else _] =>
      assert (a = true) as -> by (apply Nat.leb_le; lia); assert (b = true) as -> by (apply Nat.leb_le; lia) end.
    cbn [andb bind].
    rewrite (firstn_app_exact (pre ++ y :: l1)) by (rewrite app_length; simpl; lia).
    assert (firstn (vt v - i) (skipn (i + 1) ((pre ++ y :: l1) ++ moved x :: l2 ++ p :: post)) = l2 ++ [p]) as ->.
    { change (moved x :: l2 ++ p :: post) with ([moved x] ++ l2 ++ p :: post). rewrite app_assoc.
      rewrite skipn_app_exact by (rewrite !app_length; simpl; lia).
      change (p :: post) with ([p] ++ post). rewrite app_assoc. apply firstn_app_exact. rewrite !app_length. simpl. lia. }
    assert (skipn (i + (vt v - i)) ((pre ++ y :: l1) ++ moved x :: l2 ++ p :: post) = p :: post) as ->.
    { change (moved x :: l2 ++ p :: post) with ([moved x] ++ l2 ++ p :: post). rewrite !app_assoc.
      apply skipn_app_exact. rewrite !app_length. simpl. lia. }
    destruct (Nat.eqb_spec (vt v - 1) (vh v)); [lia|].
    eexists; exists pre, (p :: p :: post). splits; [reflexivity| | |].
    + constructor; simpl.
      * rewrite <- !app_assoc. reflexivity.
      * exact H.
      * rewrite app_length. lia.
      * discriminate.
      * rewrite S', !app_length in B. rewrite !app_length. simpl in *. rewrite app_length in *. simpl in *. lia.
    + unfold vmax in *. simpl. rewrite S', !app_length. simpl. rewrite !app_length. simpl. lia.
    + intros [C1 C2]. split; auto. inversion C2; subst. auto.
Qed.

(** Out of bounds read when the storage is used up to its end. *)
Lemma remove_at_end dbg v l1 x l2 pre i :
  vr v (l1 ++ x :: l2) pre [] -> l1 <> [] -> i = length pre + length l1 -> remove zero moved dbg v i = UB.
Proof.
  intros [S H T E B] Hl Hi. unfold remove. rewrite app_length in *. simpl in T.
  assert (1 <= length l1) by (destruct l1; simpl; [congruence|lia]).
  destruct (Nat.eqb_spec i (vh v)); [lia|].
  destruct (Nat.eqb_spec i (vt v)); [lia|]. destruct (Nat.ltb_spec (vh v) i); [|lia].
  destruct (Nat.ltb_spec i (vt v)); [|lia]. cbn [andb].
  assert (vst v = (pre ++ l1) ++ x :: l2) as S' by (rewrite S, app_nil_r; rewrite <- !app_assoc; reflexivity).
  rewrite S', rd_app by (rewrite app_length; exact Hi). cbn [bind].
  rewrite wr_app by (rewrite app_length; exact Hi). cbn [bind].
  unfold memmove. rewrite !app_length. simpl length.
  match goal with |- context [if ?a && ?b then _ else _] => assert (b = false) as -> by (apply Nat.leb_gt; lia) end.
  rewrite andb_false_r. reflexivity.
Qed.

(** ** Iteration *)

Lemma wrap_small x : (0 <= x < 2 ^ W)%Z -> wrapW W x = x.
Proof. intros. unfold wrapW. now apply Z.mod_small. Qed.

Lemma iterate_fwd : forall (l pre post : list A) fuel (b e : Z),
  (Z.of_nat (length (pre ++ l ++ post)) < 2 ^ W)%Z -> length l <= fuel ->
  b = Z.of_nat (length pre) -> e = Z.of_nat (length pre + length l) ->
  iterate W fuel 1 (pre ++ l ++ post) b e = Ok l.
Proof.
  induction l as [|x l IH]; intros pre post fuel b e HB Hf -> ->.
  - destruct fuel; simpl; rewrite Nat.add_0_r, Z.eqb_refl; reflexivity.
  - destruct fuel as [|fuel]; [simpl in Hf; lia|]. cbn [iterate].
    simpl length in *. destruct (Z.eqb_spec (Z.of_nat (length pre)) (Z.of_nat (length pre + Datatypes.S (length l)))); [lia|].
    rewrite !app_length in HB. simpl in HB. rewrite app_length in HB.
    unfold deref_it. destruct (Z.leb_spec 0 (Z.of_nat (length pre))); [|lia].
    destruct (Z.ltb_spec (Z.of_nat (length pre)) (Z.of_nat (length (pre ++ (x :: l) ++ post))));
      [|rewrite !app_length in *; simpl in *; lia].
    cbn [andb]. rewrite Nat2Z.id. simpl app. rewrite rd_app by reflexivity. cbn [bind].
    rewrite wrap_small by lia.
    change (pre ++ x :: l ++ post) with (pre ++ [x] ++ l ++ post). rewrite app_assoc.
    rewrite IH with (b := (Z.of_nat (length pre) + 1)%Z); [reflexivity| |lia| |].
    + rewrite !app_length. simpl. lia.
    + rewrite app_length. simpl. lia.
    + rewrite app_length. simpl. lia.
Qed.

Lemma iterate_bwd : forall (l pre post : list A) fuel (b e : Z),
  (Z.of_nat (length (pre ++ l ++ post)) < 2 ^ W)%Z -> length l <= fuel ->
  b = wrapW W (Z.of_nat (length pre + length l) - 1) -> e = wrapW W (Z.of_nat (length pre) - 1) ->
  iterate W fuel (-1) (pre ++ l ++ post) b e = Ok (rev l).
Proof.
  induction l as [|x l IH] using rev_ind; intros pre post fuel b e HB Hf -> ->.
  - destruct fuel; simpl; rewrite Nat.add_0_r, Z.eqb_refl; reflexivity.
  - rewrite !app_length in *. simpl in *. destruct fuel as [|fuel]; [lia|]. cbn [iterate].
    rewrite (wrap_small (Z.of_nat (length pre + (length l + 1)) - 1)) by lia.
    destruct (Z.eqb_spec (Z.of_nat (length pre + (length l + 1)) - 1) (wrapW W (Z.of_nat (length pre) - 1))) as [E|_].
    { exfalso. destruct (Nat.eq_dec (length pre) 0) as [E0|N0].
      - rewrite E0 in *. unfold wrapW in E. simpl in E.
        rewrite <- (Z.mod_add (-1) 1) in E by lia. rewrite Z.mod_small in E by lia. lia.
      - rewrite wrap_small in E by lia. lia. }
    unfold deref_it. destruct (Z.leb_spec 0 (Z.of_nat (length pre + (length l + 1)) - 1)); [|lia].
    destruct (Z.ltb_spec (Z.of_nat (length pre + (length l + 1)) - 1) (Z.of_nat (length (pre ++ (l ++ [x]) ++ post))));
      [|rewrite !app_length in *; simpl in *; lia].
    cbn [andb]. replace (Z.to_nat (Z.of_nat (length pre + (length l + 1)) - 1)) with (length (pre ++ l)) by (rewrite app_length; lia).
    assert (pre ++ (l ++ [x]) ++ post = (pre ++ l) ++ x :: post) as -> by (rewrite <- !app_assoc; reflexivity).
    rewrite rd_app by reflexivity. cbn [bind].
    rewrite <- app_assoc. rewrite IH with (post := x :: post); [|rewrite !app_length; simpl; lia|lia| |reflexivity].
    + rewrite rev_app_distr. reflexivity.
    + f_equal. lia.
Qed.

Lemma iter_vr v l pre post : vr v l pre post ->
  iterate W (vmax v + 1) 1 (vst v) (vbegin W v) (vend W v) = Ok l.
Proof.
  intros HR. pose proof (vr_max _ _ _ _ HR) as Hm. destruct HR as [S H T E B]. unfold vmax in *.
  unfold vbegin, vend. rewrite !wrap_small by lia. rewrite S. apply iterate_fwd; rewrite <- ?S; lia.
Qed.

Lemma riter_vr v l pre post : vr v l pre post ->
  iterate W (vmax v + 1) (-1) (vst v) (vrbegin W v) (vrend W v) = Ok (rev l).
Proof.
  intros HR. pose proof (vr_max _ _ _ _ HR) as Hm. destruct HR as [S H T E B]. unfold vmax in *.
  unfold vrbegin, vrend. destruct (Nat.eqb_spec (vt v) (vh v)) as [E1|E1].
  - assert (l = []) as -> by (destruct l; simpl in *; [auto|lia]). rewrite E1.
    destruct (length (vst v) + 1); cbn [iterate]; rewrite Z.eqb_refl; reflexivity.
  - rewrite S. apply iterate_bwd; rewrite <- ?S; try lia; f_equal; lia.
Qed.

Lemma vr_holds v l pre post : vr v l pre post -> vholds W v l.
Proof. intros HR. split; [eapply vr_size; eauto|eapply iter_vr; eauto]. Qed.

Lemma vr_holds_unique v l pre post l' : vr v l pre post -> vholds W v l' -> l' = l.
Proof. intros HR [_ H]. rewrite (iter_vr _ _ _ _ HR) in H. congruence. Qed.

(** ** One guarded step *)

(** Calls that may leave a reference behind: clear() with a shifted window. *)
Definition tidy (off n : nat) (op : vop A) : Prop := match op with VClear => off = 0 \/ n = 0 | _ => True end.

Lemma last_snoc (l : list A) x d : last (l ++ [x]) d = x.
Proof. induction l as [|y l IH]; simpl; auto. destruct (l ++ [x]) eqn:E; [destruct l; discriminate|auto]. Qed.

Lemma vstep_ok dbg v l pre post op :
  vr v l pre post -> vguard W (length l) (vmax v) (length pre) op ->
  exists v' pre' post', vstep zero moved W dbg v op = Ok (fst (seq_step zero (vmax v) l op), v') /\
    vr v' (snd (seq_step zero (vmax v) l op)) pre' post' /\ vmax v' = seq_cap (vmax v) op /\
    (clean pre post -> tidy (length pre) (length l) op -> clean pre' post').
Proof.
  intros HR Hg. pose proof (vr_size _ _ _ _ HR) as Hs. pose proof (vr_max _ _ _ _ HR) as Hm.
  destruct op; simpl in Hg; cbn [vstep seq_step seq_cap tidy fst snd].
  - destruct (push_back_vr dbg v l pre post x HR Hg) as (v' & pre' & post' & E & _ & HR' & M & C).
    rewrite E. cbn [bind]. exists v', pre', post'. auto.
  - destruct (push_back_vr dbg v l pre post x HR Hg) as (v' & pre' & post' & _ & E & HR' & M & C).
    rewrite E. cbn [bind]. exists v', pre', post'. auto.
  - rewrite push_front_emplace by lia.
    destruct (emplace_front_vr v l pre post x HR Hg) as (v' & pre' & post' & E & HR' & M & C).
    rewrite E. cbn [bind]. exists v', pre', post'. auto.
  - destruct (emplace_front_vr v l pre post x HR Hg) as (v' & pre' & post' & E & HR' & M & C).
    rewrite E. cbn [bind]. exists v', pre', post'. auto.
  - destruct (list_snoc l) as (l' & x & ->); [destruct l; simpl in *; [lia|discriminate]|].
    rewrite app_length in Hg. simpl in Hg.
    destruct (pop_back_vr dbg v x l' pre post HR) as (v' & post' & E & HR' & M & C).
    { destruct Hg as [Hg|[_ Hg]]; [left; destruct l'; simpl in *; [lia|discriminate]|right; destruct pre; simpl in *; [auto|lia]]. }
    rewrite E. cbn [bind]. rewrite last_snoc, removelast_last. exists v', pre, post'. auto.
  - destruct l as [|x l]; [simpl in Hg; lia|].
    destruct (pop_front_vr dbg v x l pre post HR) as (v' & pre' & post' & E & HR' & M & C).
    rewrite E. cbn [bind]. exists v', pre', post'. auto.
  - destruct (insert_vr dbg v l pre post i x HR Hg) as (v' & pre' & post' & E & HR' & M & C).
    rewrite E. cbn [bind]. exists v', pre', post'. auto.
  - destruct Hg as (Hi & Hp & Hc). assert (pre = []) as -> by (destruct pre; [auto|discriminate]).
    destruct (nth_split l zero Hi) as (l1 & l2 & El & L1). set (x := nth i l zero) in *.
    assert (remove_at i l = l1 ++ l2) as ->.
    { unfold remove_at. rewrite El, firstn_app_exact by lia. f_equal.
      change (x :: l2) with ([x] ++ l2). rewrite app_assoc. apply skipn_app_exact. rewrite app_length. simpl. lia. }
    rewrite El in HR.
    destruct (remove_vr dbg v l1 x l2 [] post i HR) as (v' & pre' & post' & E & HR' & M & C); [simpl; lia| |].
    { destruct Hc as [->|Hc]; [left; destruct l1; simpl in *; [auto|lia]|right].
      destruct post; [simpl in *; lia|discriminate]. }
    rewrite E. cbn [bind]. exists v', pre', post'. auto.
  - unfold clear. rewrite Hs. destruct (clear_vr dbg l v pre post HR) as (v' & post' & E & HR' & M & C).
    rewrite E. cbn [bind]. exists v', [], post'. splits; auto. intros Hcl [Ht|Ht].
    + apply C; auto. destruct pre; [auto|discriminate].
    + apply C; auto. apply (vr_e _ _ _ _ HR). destruct l; [auto|discriminate].
  - exists (fill v x), [], []. splits; auto.
    + constructor; simpl; auto; rewrite ?app_nil_r, ?repeat_length; auto. apply (vr_w _ _ _ _ HR).
    + unfold vmax. simpl. rewrite repeat_length. reflexivity.
    + intros; split; constructor.
  - exists (assign v l0), [], []. splits; auto.
    + constructor; simpl; auto. now rewrite app_nil_r.
    + intros; split; constructor.
  - destruct (nth_split l zero Hg) as (l1 & l2 & El & L1). set (x := nth i l zero) in *.
    unfold vget. pose proof (vr_h _ _ _ _ HR) as H. pose proof (vr_t _ _ _ _ HR) as T.
    destruct (Nat.ltb_spec (vh v + i) (vt v)); [|lia]. rewrite sassert_true. cbn [bind].
    rewrite (vr_st _ _ _ _ HR), El, <- (app_assoc l1), app_assoc. cbn [app]. rewrite rd_app by (rewrite app_length; lia). cbn [bind].
    rewrite <- El. exists v, pre, post. auto.
  - destruct Hg as [Hg Hp]. assert (pre = []) as -> by (destruct pre; [auto|discriminate]).
    destruct (nth_split l zero Hg) as (l1 & l2 & El & L1). set (x := nth i l zero) in *.
    unfold vat. rewrite (vr_st _ _ _ _ HR), El. cbn [app]. rewrite <- (app_assoc l1). cbn [app].
    rewrite rd_app by lia. cbn [bind]. rewrite <- El. exists v, [], post. auto.
  - destruct Hg as [Hg Hp]. assert (pre = []) as -> by (destruct pre; [auto|discriminate]).
    destruct l as [|x l]; [simpl in Hg; lia|].
    unfold vfront. rewrite (vr_st _ _ _ _ HR). unfold rd. simpl. exists v, [], post. auto.
  - destruct (list_snoc l) as (l' & x & ->); [destruct l; simpl in *; [lia|discriminate]|].
    unfold vback. pose proof (vr_t _ _ _ _ HR) as T. rewrite app_length in *. simpl in *.
    destruct (Nat.ltb_spec 0 (vt v)); [|lia].
    rewrite (vr_st _ _ _ _ HR), <- (app_assoc l'), app_assoc. cbn [app]. rewrite rd_app by (rewrite app_length; lia). cbn [bind].
    rewrite last_snoc. exists v, pre, post. auto.
  - destruct l as [|x l]; [simpl in Hg; lia|].
    unfold peek_front. rewrite Hs. simpl length. change (0 <? S (length l)) with true. rewrite sassert_true. cbn [bind].
    rewrite (vr_st _ _ _ _ HR). cbn [app]. rewrite rd_app by (apply (vr_h _ _ _ _ HR)). cbn [bind]. exists v, pre, post. auto.
  - destruct (list_snoc l) as (l' & x & ->); [destruct l; simpl in *; [lia|discriminate]|].
    unfold peek_back. pose proof (vr_t _ _ _ _ HR) as T. rewrite Hs. rewrite app_length in *. simpl in *.
    destruct (Nat.ltb_spec 0 (length l' + 1)); [|lia]. rewrite sassert_true. cbn [bind].
    destruct (Nat.ltb_spec 0 (vt v)); [|lia].
    rewrite (vr_st _ _ _ _ HR), <- (app_assoc l'), app_assoc. cbn [app]. rewrite rd_app by (rewrite app_length; lia). cbn [bind].
    rewrite last_snoc. exists v, pre, post. auto.
  - rewrite Hs. exists v, pre, post. auto.
  - unfold vempty. rewrite Hs. exists v, pre, post. auto.
  - unfold vfull. rewrite Hs. exists v, pre, post. auto.
  - exists v, pre, post. auto.
  - rewrite (iter_vr _ _ _ _ HR). cbn [bind]. exists v, pre, post. auto.
  - rewrite (riter_vr _ _ _ _ HR). cbn [bind]. exists v, pre, post. auto.
Qed.

Lemma vmade_vr v cap l : vmade zero W v cap l -> exists post, vr v l [] post /\ vmax v = cap /\
  ((exists n, v = vec_new zero n) \/ (exists n x, v = vec_fill_new n x) \/ (exists k, v = vec_list k) -> clean [] post).
Proof.
  intros H; inversion H; subst.
  - exists (repeat zero cap). splits.
    + constructor; simpl; rewrite ?repeat_length; auto.
    + unfold vmax; simpl. apply repeat_length.
    + intros _; split; [constructor|apply Forall_repeat_null].
  - exists []. splits.
    + constructor; simpl; rewrite ?app_nil_r, ?repeat_length; auto.
    + unfold vmax; simpl. apply repeat_length.
    + intros _; split; constructor.
  - exists []. splits.
    + constructor; simpl; rewrite ?app_nil_r; auto.
    + reflexivity.
    + intros _; split; constructor.
  - exists (skipn k store). splits.
    + constructor; simpl; auto; [now rewrite firstn_skipn|]. rewrite firstn_length. lia.
    + reflexivity.
    + intros [(n & E)|[(n & x & E)|(k' & E)]].
      * unfold vec_external, vec_new in E. inversion E; subst. simpl. split; [constructor|apply Forall_repeat_null].
      * unfold vec_external, vec_fill_new in E. inversion E; subst.
        rewrite skipn_all2 by (rewrite repeat_length; lia). split; constructor.
      * unfold vec_external, vec_list in E. inversion E; subst.
        rewrite skipn_all. split; constructor.
Qed.

Lemma vhist_vr dbg : forall ops v l pre post xs v',
  vr v l pre post -> vhist zero moved W dbg v ops xs v' ->
  exists pre' post', vr v' (snd (seq_run zero (vmax v) l ops)) pre' post' /\ xs = fst (seq_run zero (vmax v) l ops).
Proof.
  induction ops as [|op ops IH]; intros v l pre post xs v' HR Hh.
  - inversion Hh; subst. simpl. eauto.
  - inversion Hh as [|v1 op1 x1 v2 ops1 xs1 v3 Hg Hst Hrest]; subst.
    rewrite (vr_size _ _ _ _ HR) in Hg. unfold offset in Hg. rewrite (vr_h _ _ _ _ HR) in Hg.
    destruct (vstep_ok dbg v l pre post op HR Hg) as (v4 & pre2 & post2 & E2 & HR2 & M2 & _).
    rewrite E2 in Hst. inversion Hst; subst.
    cbn [seq_run]. destruct (seq_step zero (vmax v) l op) as [x1 l1]. cbn [fst snd] in *.
    destruct (IH v2 l1 pre2 post2 xs1 v' HR2 Hrest) as (pre3 & post3 & HR3 & E3).
    rewrite M2 in *. destruct (seq_run zero (seq_cap (vmax v) op) l1 ops) as [xs2 l2]. cbn [fst snd] in *. subst. eauto.
Qed.

(** ** Any step that returns *)

Lemma insert_vr_release v l i x : vr v l [] [] ->
  forall v', insert zero W false v i x = Ok v' -> v' = v.
Proof.
  intros HR v'. pose proof (vr_size _ _ _ _ HR) as Hs. pose proof (vr_max _ _ _ _ HR) as Hm.
  assert (HF : forall c, sassert false c = Ok tt) by (intros []; reflexivity).
  unfold insert. rewrite HF. cbn [bind]. simpl in Hm.
  destruct (Nat.eqb_spec i 0) as [->|Hi]; [rewrite (push_front_full false v l x HR); discriminate|].
  destruct (Nat.leb_spec (vt v) (vh v + i)) as [Hge|Hin].
  - destruct (push_back_full false v l HR) as [_ E]. rewrite E. congruence.
  - pose proof (vr_h _ _ _ _ HR) as H. simpl in H. rewrite H. simpl. rewrite andb_false_r. cbn [bind]. rewrite HF. cbn [bind]. unfold memmove.
    pose proof (vr_t _ _ _ _ HR) as T. simpl in T. unfold vmax in Hm.
    match goal with |- context [if ?a && ?b then _ else _] => assert (a = false) as -> by (apply Nat.leb_gt; lia) end.
    discriminate.
Qed.

Lemma insert_full_debug v l i x : vr v l [] [] -> insert zero W true v i x = Halt.
Proof.
  intros HR. pose proof (vr_size _ _ _ _ HR) as Hs. pose proof (vr_max _ _ _ _ HR) as Hm. simpl in Hm.
  unfold insert. rewrite Hs. destruct (Nat.ltb_spec (length l) (vmax v)); [lia|]. reflexivity.
Qed.

Lemma pop_back_empty dbg v post : vr v [] [] post ->
  pop_back moved dbg v = if dbg then Halt else match post with [] => UB | p :: post' => Ok (p, mkVec (moved p :: post') 0 0) end.
Proof.
  intros HR. pose proof (vr_size _ _ _ _ HR) as Hs. destruct HR as [S H T E B]. simpl in *.
  unfold pop_back. rewrite Hs. simpl. destruct dbg; [reflexivity|]. simpl. rewrite T. simpl. rewrite S, H. destruct post; reflexivity.
Qed.

Definition vtidy' (pre l : list A) (op : vop A) : Prop :=
  match op with
  | VClear => pre = [] \/ l = []
  | VPopBack => pre = [] \/ 2 <= length l
  | VRemove i => pre = [] \/ 2 <= length l \/ i = length pre
  | _ => True
  end.

Lemma full_or_room v l pre post : vr v l pre post -> length l < vmax v \/ (pre = [] /\ post = []).
Proof. intros HR. rewrite (vr_max _ _ _ _ HR). destruct pre, post; simpl; auto; left; lia. Qed.

Lemma pop_back_any dbg v l pre post x v' :
  vr v l pre post -> pop_back moved dbg v = Ok (x, v') ->
  exists l' pre' post', vr v' l' pre' post' /\ (clean pre post -> (pre = [] \/ 2 <= length l) -> clean pre' post').
Proof.
  intros HR Hst. destruct l as [|y l0] eqn:El.
  - assert (pre = []) as -> by (apply (vr_e _ _ _ _ HR); reflexivity).
    rewrite (pop_back_empty dbg v post HR) in Hst. destruct dbg; [discriminate|].
    destruct post as [|p post]; [discriminate|]. inversion Hst; subst.
    exists [], [], (moved x :: post). split.
    + pose proof (vr_w _ _ _ _ HR) as B. rewrite (vr_st _ _ _ _ HR) in B. constructor; simpl in *; auto.
    + intros [C1 C2] _. inversion C2; subst. split; auto.
  - assert (l <> []) as Hne by (rewrite El; discriminate). rewrite <- El in *.
    destruct (list_snoc l Hne) as (l1 & z & E1). rewrite E1 in *.
    destruct l1 as [|w l1]; [destruct pre as [|p pre]|].
    + destruct (pop_back_vr dbg v z [] [] post HR (or_intror eq_refl)) as (v1 & post1 & E2 & HR1 & M1 & C1).
      rewrite E2 in Hst. inversion Hst; subst. eexists _, _, _. split; eauto.
    + destruct (pop_back_shifted dbg v z p pre post HR) as (v1 & E2 & HR1 & M1).
      rewrite E2 in Hst. inversion Hst; subst. eexists _, _, _. split; eauto.
      intros _ [X|X]; [discriminate|simpl in X; lia].
    + destruct (pop_back_vr dbg v z (w :: l1) pre post HR ltac:(left; discriminate)) as (v1 & post1 & E2 & HR1 & M1 & C1).
      rewrite E2 in Hst. inversion Hst; subst. eexists _, _, _. split; eauto.
Qed.

Lemma pop_front_any dbg v l pre post x v' :
  vr v l pre post -> pop_front moved dbg v = Ok (x, v') ->
  exists l' pre' post', vr v' l' pre' post' /\ (clean pre post -> clean pre' post').
Proof.
  intros HR Hst. destruct l as [|y l].
  - assert (pre = []) as -> by (apply (vr_e _ _ _ _ HR); reflexivity).
    pose proof (vr_size _ _ _ _ HR) as Hs. unfold pop_front in Hst. rewrite Hs in Hst. destruct dbg; discriminate.
  - destruct (pop_front_vr dbg v y l pre post HR) as (v1 & pre' & post' & E & HR' & M & C).
    rewrite E in Hst. inversion Hst; subst. eauto.
Qed.

Lemma vstep_any dbg v l pre post op x v' :
  vr v l pre post -> vfits W op ->
  vstep zero moved W dbg v op = Ok (x, v') ->
  exists l' pre' post', vr v' l' pre' post' /\ (clean pre post -> vtidy' pre l op -> clean pre' post').
Proof.
  intros HR HA Hst. pose proof (vr_size _ _ _ _ HR) as Hs. pose proof (vr_max _ _ _ _ HR) as Hm.
  assert (HG : forall (Hg : vguard W (length l) (vmax v) (length pre) op) (Ht : vtidy' pre l op -> tidy (length pre) (length l) op),
    exists l' pre' post', vr v' l' pre' post' /\ (clean pre post -> vtidy' pre l op -> clean pre' post')).
  { intros Hg Ht. destruct (vstep_ok dbg v l pre post op HR Hg) as (v2 & pre2 & post2 & E2 & HR2 & M2 & C2).
    rewrite E2 in Hst. inversion Hst; subst. eexists _, _, _. split; eauto. }
  assert (HV : v' = v -> exists l' pre' post', vr v' l' pre' post' /\ (clean pre post -> vtidy' pre l op -> clean pre' post')).
  { intros ->. exists l, pre, post. auto. }
  assert (HB : forall B (o : outcome B) g, bind o g = Ok (x, v') -> exists b, o = Ok b /\ g b = Ok (x, v')).
  { intros B o g H. destruct o; simpl in H; try discriminate. eauto. }
  destruct op; cbn [vstep] in Hst;
    try (apply HV; first [apply HB in Hst as (? & _ & Hst); congruence | congruence]);
    try (destruct (full_or_room v l pre post HR) as [Hr|[-> ->]]; [now apply HG|]).
  - destruct (push_back_full dbg v l HR) as [_ E]. rewrite E in Hst. destruct dbg; [discriminate|]. simpl in Hst.
    apply HV. congruence.
  - destruct (push_back_full dbg v l HR) as [E' E]. rewrite <- E', E in Hst. destruct dbg; [discriminate|]. simpl in Hst.
    apply HV. congruence.
  - rewrite (push_front_full dbg v l x0 HR) in Hst. destruct dbg; discriminate.
  - rewrite (emplace_front_full v l x0 HR) in Hst. discriminate.
  - destruct (HB _ _ _ Hst) as ([y v1] & E & Hst'). inversion Hst'; subst. eapply pop_back_any; eauto.
  - destruct (HB _ _ _ Hst) as ([y v1] & E & Hst'). inversion Hst'; subst.
    destruct (pop_front_any _ _ _ _ _ _ _ HR E) as (l' & pre' & post' & HR' & C). eexists _, _, _; eauto.
  - destruct (HB _ _ _ Hst) as (v1 & E & Hst'). inversion Hst'; subst. destruct dbg.
    + rewrite (insert_full_debug v l i x0 HR) in E. discriminate.
    + apply HV. eapply insert_vr_release; eauto.
  - destruct (HB _ _ _ Hst) as ([y v1] & E & Hst'). inversion Hst'; subst. clear HG HV Hst' Hst.
    pose proof (vr_h _ _ _ _ HR) as H. pose proof (vr_t _ _ _ _ HR) as T.
    destruct (Nat.eq_dec i (vh v)) as [E1|E1].
    { unfold remove in E. rewrite E1, Nat.eqb_refl in E.
      destruct (pop_front_any _ _ _ _ _ _ _ HR E) as (l' & pre' & post' & HR' & C). eexists _, _, _; eauto. }
    destruct (Nat.eq_dec i (vt v)) as [E2|E2].
    { unfold remove in E. destruct (Nat.eqb_spec i (vh v)); [lia|]. rewrite E2, Nat.eqb_refl in E.
      destruct (pop_back_any _ _ _ _ _ _ _ HR E) as (l' & pre' & post' & HR' & C). eexists _, _, _; split; eauto.
      simpl. intros Hc Ht. apply C; auto. destruct Ht as [Ht|[Ht|Ht]]; auto. lia. }
    destruct (le_lt_dec (vh v) i) as [L1|L1]; [destruct (le_lt_dec (vt v) i) as [L2|L2]|].
    + unfold remove in E. destruct (Nat.eqb_spec i (vh v)); [lia|]. destruct (Nat.eqb_spec i (vt v)); [lia|].
      destruct (Nat.ltb_spec i (vt v)); [lia|]. rewrite andb_false_r in E. destruct dbg; [discriminate|]. inversion E; subst.
      exists l, pre, post. auto.
    + assert (i - length pre < length l) as Hi by lia.
      destruct (nth_split l zero Hi) as (l1 & l2 & El & L). set (z := nth (i - length pre) l zero) in *. clearbody z. rewrite El in HR.
      destruct post as [|p post].
      * rewrite (remove_at_end dbg v l1 z l2 pre i HR) in E; [discriminate| |lia].
        destruct l1; simpl in *; [lia|discriminate].
      * destruct (remove_vr dbg v l1 z l2 pre (p :: post) i HR) as (v2 & pre' & post' & E' & HR' & M & C); [lia|right; discriminate|].
        rewrite E' in E. inversion E; subst. eexists _, _, _; eauto.
    + unfold remove in E. destruct (Nat.eqb_spec i (vh v)); [lia|]. destruct (Nat.eqb_spec i (vt v)); [lia|].
      destruct (Nat.ltb_spec (vh v) i); [lia|]. cbn [andb] in E. destruct dbg; [discriminate|]. inversion E; subst.
      exists l, pre, post. auto.
  - apply HG; [exact I|]. simpl. intros [->| ->]; auto.
  - apply HG; [exact I|]. simpl. auto.
  - apply HG; [exact HA|]. simpl. auto.
Qed.

End Proofs.

Section Facts.
Context {A : Type}.
Variable zero : A.
Variable moved : A -> A.
Variable W : Z.

Lemma reachable_vr v : vreachable zero moved W v -> exists l pre post, vr W v l pre post.
Proof.
  intros (v0 & cap & l & ops & xs & Hm & Hx).
  destruct (vmade_vr zero W (fun _ => True) I v0 cap l Hm) as (post & HR & _ & _).
  assert (exists l pre post, vr W v0 l pre post) as H0 by eauto. clear Hm HR. induction Hx as [|dbg v op x v1 ops xs v2 Hf Hs Hx IH]; auto.
  apply IH. destruct H0 as (l0 & pre0 & post0 & HR).
  destruct (vstep_any zero moved W (fun _ => True) I (fun _ => I) dbg v l0 pre0 post0 op x v1 HR Hf Hs) as (l' & pre' & post' & HR' & _). eauto.
Qed.

Lemma vrun_exec dbg : forall ops v xs v', Forall (vfits W) ops -> vrun zero moved W dbg v ops = Ok (xs, v') ->
  vexec zero moved W v ops xs v'.
Proof.
  induction ops as [|op ops IH]; intros v xs v' HF Hr; simpl in Hr.
  - inversion Hr; subst. constructor.
  - inversion HF; subst. destruct (vstep zero moved W dbg v op) as [[x v1]| | | |] eqn:E; simpl in Hr; try discriminate.
    destruct (vrun zero moved W dbg v1 ops) as [[xs1 v2]| | | |] eqn:E2; simpl in Hr; try discriminate.
    inversion Hr; subst. econstructor; eauto.
Qed.

Lemma vrun_reachable dbg v0 cap l ops xs v : vmade zero W v0 cap l -> Forall (vfits W) ops ->
  vrun zero moved W dbg v0 ops = Ok (xs, v) -> vreachable zero moved W v.
Proof. intros Hm HF Hr. exists v0, cap, l, ops, xs. split; auto. eapply vrun_exec; eauto. Qed.

Lemma reachable_holds v : vreachable zero moved W v -> exists l, vholds W v l.
Proof. intros H. destruct (reachable_vr v H) as (l & pre & post & HR). exists l. eapply vr_holds; eauto. Qed.

Lemma reachable_rep v l : vreachable zero moved W v -> vholds W v l ->
  exists pre post, vr W v l pre post /\ offset v = length pre /\ vmax v = length pre + length l + length post.
Proof.
  intros H Hh. destruct (reachable_vr v H) as (l' & pre & post & HR).
  rewrite (vr_holds_unique W v l' pre post l HR Hh). exists pre, post. splits; auto.
  - apply (vr_h _ _ _ _ _ HR).
  - apply (vr_max W v l' pre post HR).
Qed.

Lemma history_thm dbg v0 cap l0 ops xs v :
  vmade zero W v0 cap l0 -> vhist zero moved W dbg v0 ops xs v ->
  xs = fst (seq_run zero cap l0 ops) /\ vholds W v (snd (seq_run zero cap l0 ops)).
Proof.
  intros Hm Hh. destruct (vmade_vr zero W (fun _ => True) I v0 cap l0 Hm) as (post & HR & Hc & _).
  destruct (vhist_vr zero moved W (fun _ => True) I (fun _ => I) dbg ops v0 l0 [] post xs v HR Hh) as (pre' & post' & HR' & E).
  rewrite Hc in *. split; auto. eapply vr_holds; eauto.
Qed.

Lemma guarded_thm dbg v l op :
  vreachable zero moved W v -> vholds W v l -> vguard W (length l) (vmax v) (offset v) op ->
  exists v', vstep zero moved W dbg v op = Ok (fst (seq_step zero (vmax v) l op), v') /\
    vholds W v' (snd (seq_step zero (vmax v) l op)) /\ vmax v' = seq_cap (vmax v) op.
Proof.
  intros H Hh Hg. destruct (reachable_rep v l H Hh) as (pre & post & HR & Ho & Hm). rewrite Ho in Hg.
  destruct (vstep_ok zero moved W (fun _ => True) I (fun _ => I) dbg v l pre post op HR Hg) as (v' & pre' & post' & E & HR' & M & _).
  exists v'. splits; auto. eapply vr_holds; eauto.
Qed.

Lemma pop_back_thm dbg v l x :
  vreachable zero moved W v -> vholds W v (l ++ [x]) -> l <> [] \/ offset v = 0 ->
  exists v', vstep zero moved W dbg v VPopBack = Ok (VVal x, v') /\ vholds W v' l.
Proof.
  intros H Hh Hl. destruct (guarded_thm dbg v (l ++ [x]) VPopBack H Hh) as (v' & E & Hv & _).
  - simpl. rewrite app_length. simpl. destruct Hl as [Hl|Hl]; [destruct l; [congruence|simpl; lia]|].
    destruct l; simpl; [right|left]; lia.
  - simpl in E, Hv. rewrite last_snoc in E. rewrite removelast_last in Hv. eauto.
Qed.

Lemma pop_back_shifted_thm dbg v x :
  vreachable zero moved W v -> vholds W v [x] -> 1 <= offset v ->
  exists v' y, vstep zero moved W dbg v VPopBack = Ok (VVal y, v') /\ vstep zero moved W dbg v (VAt 0) = Ok (VVal y, v) /\
    vholds W v' [].
Proof.
  intros H Hh Ho. destruct (reachable_rep v [x] H Hh) as (pre & post & HR & Hp & Hm).
  destruct pre as [|p pre]; [simpl in *; lia|].
  destruct (pop_back_shifted moved W dbg v x p pre post HR) as (v' & E & HR' & M).
  exists v', p. cbn [vstep]. rewrite E. cbn [bind]. splits; auto.
  - unfold vat. rewrite (vr_st _ _ _ _ _ HR). reflexivity.
  - eapply vr_holds; eauto.
Qed.

Lemma remove_thm dbg v l i :
  vreachable zero moved W v -> vholds W v l -> i < length l -> i = 0 \/ offset v + length l < vmax v ->
  exists v', vstep zero moved W dbg v (VRemove (offset v + i)) = Ok (VVal (nth i l zero), v') /\ vholds W v' (remove_at i l) /\
    vmax v' = vmax v.
Proof.
  intros H Hh Hi Hr. destruct (reachable_rep v l H Hh) as (pre & post & HR & Hp & Hm).
  destruct (nth_split l zero Hi) as (l1 & l2 & El & L1). set (x := nth i l zero) in *. clearbody x.
  assert (remove_at i l = l1 ++ l2) as ->.
  { unfold remove_at. rewrite El, firstn_app_exact by lia. f_equal.
    change (x :: l2) with ([x] ++ l2). rewrite app_assoc. apply skipn_app_exact. rewrite app_length. simpl. lia. }
  rewrite Hp in *. assert (HR2 := HR). rewrite El in HR2.
  destruct (remove_vr zero moved W (fun _ => True) (fun _ => I) dbg v l1 x l2 pre post (length pre + i) HR2) as (v' & pre' & post' & E & HR' & M & _).
  - lia.
  - destruct Hr as [->|Hr]; [left; destruct l1; simpl in *; [auto|lia]|right].
    destruct post; [simpl in *; lia|discriminate].
  - exists v'. cbn [vstep]. rewrite E. cbn [bind]. splits; auto. eapply vr_holds; eauto.
Qed.

Lemma remove_end_thm dbg v l i :
  vreachable zero moved W v -> vholds W v l -> 0 < i < length l -> offset v + length l = vmax v ->
  vstep zero moved W dbg v (VRemove (offset v + i)) = UB.
Proof.
  intros H Hh Hi Hr. destruct (reachable_rep v l H Hh) as (pre & post & HR & Hp & Hm).
  destruct (nth_split l zero (proj2 Hi)) as (l1 & l2 & El & L1). set (x := nth i l zero) in *. clearbody x.
  assert (post = []) as -> by (destruct post; [auto|simpl in *; lia]). rewrite El in HR.
  cbn [vstep]. rewrite (remove_at_end zero moved W dbg v l1 x l2 pre (offset v + i) HR); [reflexivity| |lia].
  destruct l1; simpl in *; [lia|discriminate].
Qed.

Lemma accessors_thm dbg v l i :
  vreachable zero moved W v -> vholds W v l -> i < length l ->
  vstep zero moved W dbg v (VGet i) = Ok (VVal (nth i l zero), v) /\
  vstep zero moved W dbg v VPeekFront = Ok (VVal (nth 0 l zero), v) /\
  vstep zero moved W dbg v VPeekBack = Ok (VVal (nth (length l - 1) l zero), v) /\
  vstep zero moved W dbg v VBack = Ok (VVal (nth (length l - 1) l zero), v) /\
  (offset v = 0 -> vstep zero moved W dbg v (VAt i) = Ok (VVal (nth i l zero), v) /\
                   vstep zero moved W dbg v VFront = Ok (VVal (nth 0 l zero), v)).
Proof.
  intros H Hh Hi. destruct (reachable_rep v l H Hh) as (pre & post & HR & Hp & Hm).
  assert (HL : last l zero = nth (length l - 1) l zero).
  { destruct (list_snoc l) as (l' & x & ->); [destruct l; simpl in *; [lia|discriminate]|].
    rewrite last_snoc, app_length. simpl. rewrite app_nth2 by lia. replace (length l' + 1 - 1 - length l') with 0 by lia. reflexivity. }
  assert (HH : hd zero l = nth 0 l zero) by (destruct l; reflexivity).
  assert (HG : forall op, vguard W (length l) (vmax v) (length pre) op ->
     match op with VGet _ | VAt _ | VFront | VBack | VPeekFront | VPeekBack => True | _ => False end ->
     vstep zero moved W dbg v op = Ok (fst (seq_step zero (vmax v) l op), v)).
  { intros op Hg Ho. destruct (vstep_ok zero moved W (fun _ => True) I (fun _ => I) dbg v l pre post op HR Hg) as (v' & pre' & post' & E & _).
    rewrite E. f_equal. f_equal.
    assert (HB : forall B C (o : outcome B) (g : B -> outcome C) x, bind o g = Ok x -> exists b, o = Ok b /\ g b = Ok x).
    { intros B C o g y Hb. destruct o; simpl in Hb; try discriminate. eauto. }
    destruct op; try contradiction; cbn [vstep] in E; destruct (HB _ _ _ _ _ E) as (b & _ & E'); congruence. }
  splits.
  - apply (HG (VGet i)); simpl; auto.
  - rewrite <- HH. apply (HG VPeekFront); simpl; auto; lia.
  - rewrite <- HL. apply (HG VPeekBack); simpl; auto; lia.
  - rewrite <- HL. apply (HG VBack); simpl; auto; lia.
  - intros Ho. rewrite Ho in Hp. split.
    + apply (HG (VAt i)); simpl; auto.
    + rewrite <- HH. apply (HG VFront); simpl; auto; lia.
Qed.

Lemma physical_thm dbg v l i :
  vreachable zero moved W v -> vholds W v l -> offset v <= i < offset v + length l ->
  vstep zero moved W dbg v (VAt i) = Ok (VVal (nth (i - offset v) l zero), v).
Proof.
  intros H Hh Hi. destruct (reachable_rep v l H Hh) as (pre & post & HR & Hp & Hm). cbn [vstep]. unfold vat.
  rewrite (vr_st _ _ _ _ _ HR), Hp in *. assert (i - length pre < length l) as Hi' by lia.
  destruct (nth_split l zero Hi') as (l1 & l2 & El & L1). set (x := nth (i - length pre) l zero) in *. clearbody x.
  rewrite El, <- (app_assoc l1), app_assoc. cbn [app]. rewrite rd_app by (rewrite app_length; lia). reflexivity.
Qed.

Lemma checked_thm v l op :
  vreachable zero moved W v -> vholds W v l -> vchecked op -> ~ vlegal (length l) (vmax v) op ->
  vstep zero moved W true v op = Halt.
Proof.
  intros H Hh Hc Hl. destruct (reachable_rep v l H Hh) as (pre & post & HR & Hp & Hm).
  pose proof (vr_size W v l pre post HR) as Hs. pose proof (vr_h _ _ _ _ _ HR) as Hh'. pose proof (vr_t _ _ _ _ _ HR) as Ht'.
  assert (Hfull : ~ length l < vmax v -> pre = [] /\ post = []).
  { intros Hn. destruct pre, post; simpl in *; auto; exfalso; lia. }
  assert (He : ~ 1 <= length l -> l = [] /\ pre = []).
  { intros Hn. assert (l = []) by (destruct l; simpl in *; [auto|lia]). split; auto. now apply (vr_e _ _ _ _ _ HR). }
  destruct op; simpl in Hc, Hl; try contradiction; cbn [vstep].
  - destruct (Hfull Hl) as [-> ->]. destruct (push_back_full zero W true v l HR) as [_ E]. rewrite E. reflexivity.
  - destruct (Hfull Hl) as [-> ->]. destruct (push_back_full zero W true v l HR) as [E' E]. rewrite <- E', E. reflexivity.
  - destruct (Hfull Hl) as [-> ->]. rewrite (push_front_full zero W true v l x HR). reflexivity.
  - destruct (He Hl) as [-> ->]. rewrite (pop_back_empty moved W true v post HR). reflexivity.
  - destruct (He Hl) as [-> ->]. unfold pop_front. rewrite Hs. reflexivity.
  - destruct (Hfull Hl) as [-> ->]. rewrite (insert_full_debug zero W v l i x HR). reflexivity.
  - unfold vget. destruct (Nat.ltb_spec (vh v + i) (vt v)); [lia|]. reflexivity.
  - destruct (He Hl) as [-> ->]. unfold peek_front. rewrite Hs. reflexivity.
  - destruct (He Hl) as [-> ->]. unfold peek_back. rewrite Hs. reflexivity.
Qed.

Lemma vexec_snoc v0 ops xs v dbg op x v' :
  vexec zero moved W v0 ops xs v -> vfits W op -> vstep zero moved W dbg v op = Ok (x, v') ->
  vexec zero moved W v0 (ops ++ [op]) (xs ++ [x]) v'.
Proof.
  intros Hx Hf Hs. induction Hx as [|dbg0 v op0 x0 v1 ops xs v2 Hf0 Hs0 Hx IH]; simpl.
  - econstructor; eauto. constructor.
  - econstructor; eauto.
Qed.

Lemma reachable_step dbg v op x v' :
  vreachable zero moved W v -> vfits W op -> vstep zero moved W dbg v op = Ok (x, v') -> vreachable zero moved W v'.
Proof.
  intros (v0 & cap & l & ops & xs & Hm & Hx) Hf Hs. exists v0, cap, l, (ops ++ [op]), (xs ++ [x]). split; auto.
  eapply vexec_snoc; eauto.
Qed.

Lemma classic_legal n cap (op : vop A) : vlegal n cap op \/ ~ vlegal n cap op.
Proof.
  destruct op; simpl; auto;
  match goal with |- (?a < ?b) \/ _ => destruct (lt_dec a b); auto | |- (?a <= ?b) \/ _ => destruct (le_dec a b); auto end.
Qed.

Lemma rd_in {B} (s : list B) i : i < length s -> exists y, rd s i = Ok y.
Proof. intros H. unfold rd. destruct (nth_error s i) eqn:E; eauto. apply nth_error_None in E. lia. Qed.

Lemma HPB_aux v l : vreachable zero moved W v -> vholds W v l ->
  (l = [] /\ pop_back moved true v = Halt) \/ exists x v', pop_back moved true v = Ok (x, v').
Proof.
  intros H Hh. destruct (reachable_rep v l H Hh) as (pre & post & HR & Hp & Hm).
  destruct l as [|y l].
  - left. split; auto. assert (pre = []) as -> by (apply (vr_e _ _ _ _ _ HR); reflexivity).
    apply (pop_back_empty moved W true v post HR).
  - right. destruct (list_snoc (y :: l)) as (l1 & z & E1); [discriminate|]. rewrite E1 in *.
    destruct l1 as [|w l1]; [destruct pre as [|p pre]|].
    + destruct (pop_back_vr moved W (fun _ => True) (fun _ => I) true v z [] [] post HR (or_intror eq_refl)) as (v1 & post1 & E2 & _). eauto.
    + destruct (pop_back_shifted moved W true v z p pre post HR) as (v1 & E2 & _). eauto.
    + destruct (pop_back_vr moved W (fun _ => True) (fun _ => I) true v z (w :: l1) pre post HR ltac:(left; discriminate)) as (v1 & post1 & E2 & _). eauto.
Qed.

(** Never UB in a debug build, apart from the calls listed. *)
Lemma debug_safe_thm v l op :
  vreachable zero moved W v -> vholds W v l -> vfits W op ->
  match op with
  | VEmplaceFront _ => length l < vmax v
  | VRemove i => offset v + length l < vmax v \/ i <= offset v \/ offset v + length l <= i
  | VAt i => i < vmax v
  | VFront | VBack => 1 <= vmax v
  | _ => True
  end ->
  vstep zero moved W true v op = Halt \/ exists x v', vstep zero moved W true v op = Ok (x, v') /\ vreachable zero moved W v' .
Proof.
  intros H Hh Hf Hg. destruct (reachable_rep v l H Hh) as (pre & post & HR & Hp & Hm).
  assert (HR2 : forall x v', vstep zero moved W true v op = Ok (x, v') ->
     vstep zero moved W true v op = Halt \/ exists x v', vstep zero moved W true v op = Ok (x, v') /\ vreachable zero moved W v').
  { intros x v' E. right. exists x, v'. split; auto. eapply reachable_step; eauto. }
  assert (HG : vguard W (length l) (vmax v) (offset v) op ->
     vstep zero moved W true v op = Halt \/ exists x v', vstep zero moved W true v op = Ok (x, v') /\ vreachable zero moved W v').
  { intros Hgd. destruct (guarded_thm true v l op H Hh Hgd) as (v' & E & _). eauto. }
  assert (HC : vchecked op -> vlegal (length l) (vmax v) op \/ vstep zero moved W true v op = Halt).
  { intros Hc. destruct (classic_legal (length l) (vmax v) op) as [Hl|Hl]; auto. right. eapply checked_thm; eauto. }
  assert (HPB : (l = [] /\ pop_back moved true v = Halt) \/ exists x v', pop_back moved true v = Ok (x, v')).
  { destruct (HPB_aux v l H Hh); auto. }
  destruct op; simpl in HC, HG; cbn [vfits] in Hf; simpl in Hg;
    try (destruct (HC I) as [Hl|Hl]; [|left; exact Hl]); try (apply HG; auto; fail).
  - destruct HPB as [[-> E]|(x & v' & E)]; [left; cbn [vstep]; rewrite E; reflexivity|].
    eapply HR2. cbn [vstep]. rewrite E. reflexivity.
  - pose proof (vr_h _ _ _ _ _ HR) as Hh'. pose proof (vr_t _ _ _ _ _ HR) as Ht'.
    destruct (Nat.eq_dec i (vh v)) as [E1|E1].
    { destruct l as [|y l].
      - left. cbn [vstep]. unfold remove. rewrite E1, Nat.eqb_refl. unfold pop_front.
        rewrite (vr_size W v _ _ _ HR). reflexivity.
      - destruct (remove_thm true v (y :: l) 0 H Hh) as (v' & E & _); [simpl; lia|auto|].
        rewrite Nat.add_0_r in E. unfold offset in E. rewrite <- E1 in E. eauto. }
    destruct (Nat.eq_dec i (vt v)) as [E2|E2].
    { assert (forall o, pop_back moved true v = o -> remove zero moved true v i = o) as Hrem.
      { intros o E. unfold remove. destruct (Nat.eqb_spec i (vh v)); [lia|]. rewrite E2, Nat.eqb_refl. exact E. }
      destruct HPB as [[_ E]|(x & v' & E)]; apply Hrem in E; [left; cbn [vstep]; rewrite E; reflexivity|].
      eapply HR2. cbn [vstep]. rewrite E. reflexivity. }
    destruct (le_lt_dec (vh v) i) as [L1|L1]; [destruct (le_lt_dec (vt v) i) as [L2|L2]|].
    + left. cbn [vstep]. unfold remove. destruct (Nat.eqb_spec i (vh v)); [lia|]. destruct (Nat.eqb_spec i (vt v)); [lia|].
      destruct (Nat.ltb_spec i (vt v)); [lia|]. rewrite andb_false_r. reflexivity.
    + unfold offset in *. destruct (remove_thm true v l (i - vh v) H Hh) as (v' & E & _); [lia| |].
      { unfold offset. right. destruct Hg as [Hg|[Hg|Hg]]; lia. }
      unfold offset in E. replace (vh v + (i - vh v)) with i in E by lia. eauto.
    + left. cbn [vstep]. unfold remove. destruct (Nat.eqb_spec i (vh v)); [lia|]. destruct (Nat.eqb_spec i (vt v)); [lia|].
      destruct (Nat.ltb_spec (vh v) i); [lia|]. reflexivity.
  - destruct (rd_in (vst v) i Hg) as (y & E). eapply HR2. cbn [vstep]. unfold vat. rewrite E. reflexivity.
  - destruct (rd_in (vst v) 0 Hg) as (y & E). eapply HR2. cbn [vstep]. unfold vfront. rewrite E. reflexivity.
  - destruct (rd_in (vst v) (if 0 <? vt v then vt v - 1 else 0)) as (y & E).
    { pose proof (vr_h _ _ _ _ _ HR) as Hh'. pose proof (vr_t _ _ _ _ _ HR) as Ht'. unfold vmax in *.
      destruct (Nat.ltb_spec 0 (vt v)); lia. }
    eapply HR2. cbn [vstep]. unfold vback. rewrite E. reflexivity.
Qed.

(** ** Stale cells *)
Variable null : A -> Prop.
Hypothesis null_zero : null zero.
Hypothesis null_moved : forall x, null (moved x).

Lemma clean_no_stale v l pre post : vr W v l pre post -> (clean null pre post <-> no_stale null v).
Proof.
  intros HR. pose proof (vr_size W v l pre post HR) as Hs. pose proof (vr_h _ _ _ _ _ HR) as Hh.
  unfold no_stale, offset. rewrite Hs, Hh, (vr_st _ _ _ _ _ HR). split.
  - intros [C1 C2] k y E [Hk|Hk].
    + rewrite nth_error_app1 in E by lia. rewrite Forall_forall in C1. apply C1. eapply nth_error_In; eauto.
    + rewrite nth_error_app2, nth_error_app2 in E by lia. rewrite Forall_forall in C2. apply C2. eapply nth_error_In; eauto.
  - intros Hn. split; apply Forall_forall; intros y Hy; apply In_nth_error in Hy as (k & E).
    + apply (Hn k); [|left; apply nth_error_Some; congruence]. rewrite nth_error_app1; auto. apply nth_error_Some. congruence.
    + apply (Hn (length pre + length l + k)); [|lia]. rewrite nth_error_app2, nth_error_app2 by lia.
      replace (length pre + length l + k - length pre - length l) with k by lia. exact E.
Qed.

Lemma made_no_stale n x k : (Z.of_nat n < 2 ^ W)%Z -> (Z.of_nat (length k) < 2 ^ W)%Z ->
  no_stale null (vec_new zero n) /\ no_stale null (vec_fill_new n x) /\ no_stale null (vec_list k).
Proof.
  intros Hn Hk.
  destruct (vmade_vr zero W null null_zero _ _ _ (made_new zero W n Hn)) as (p1 & R1 & _ & C1).
  destruct (vmade_vr zero W null null_zero _ _ _ (made_fill zero W n x Hn)) as (p2 & R2 & _ & C2).
  destruct (vmade_vr zero W null null_zero _ _ _ (made_list zero W k Hk)) as (p3 & R3 & _ & C3).
  splits; [apply (clean_no_stale _ _ _ _ R1), C1|apply (clean_no_stale _ _ _ _ R2), C2|apply (clean_no_stale _ _ _ _ R3), C3]; eauto.
Qed.

Lemma tidy_thm dbg v0 cap l ops v :
  vmade zero W v0 cap l -> no_stale null v0 -> vexec_tidy zero moved W dbg v0 ops v -> no_stale null v.
Proof.
  intros Hm Hn Hx. destruct (vmade_vr zero W null null_zero v0 cap l Hm) as (post & HR & _ & _).
  assert (exists l pre post, vr W v0 l pre post) as H0 by eauto. clear Hm HR.
  induction Hx as [v|v op x v1 ops v2 Hf Ht Hs Hx IH]; [exact Hn|].
  destruct H0 as (l0 & pre0 & post0 & HR).
  destruct (vstep_any zero moved W null null_zero null_moved dbg v l0 pre0 post0 op x v1 HR Hf Hs) as (l' & pre' & post' & HR' & C).
  apply IH; eauto. apply (clean_no_stale _ _ _ _ HR'). apply C.
  - now apply (clean_no_stale _ _ _ _ HR).
  - unfold vtidy, offset in Ht. rewrite (vr_size W v _ _ _ HR), (vr_h _ _ _ _ _ HR) in Ht.
    destruct op; simpl in *; auto.
    + destruct Ht as [Ht|Ht]; [left|right; lia]. destruct pre0; [auto|discriminate].
    + destruct Ht as [Ht|[Ht|Ht]]; [left|right;left; lia|right; right; lia]. destruct pre0; [auto|discriminate].
    + destruct Ht as [Ht|Ht]; [left|right]; [destruct pre0|destruct l0]; auto; discriminate.
Qed.

(** ** Iteration *)
Lemma iter_thm dbg v l : vreachable zero moved W v -> vholds W v l ->
  vstep zero moved W dbg v VIter = Ok (VList l, v) /\ vstep zero moved W dbg v VRevIter = Ok (VList (rev l), v).
Proof.
  intros H Hh. destruct (reachable_rep v l H Hh) as (pre & post & HR & Hp & Hm). cbn [vstep].
  rewrite (iter_vr W v l pre post HR), (riter_vr W v l pre post HR). split; reflexivity.
Qed.

Lemma arr_iter_thm (store : list A) fuel : (Z.of_nat (length store) < 2 ^ W)%Z -> length store <= fuel ->
  iterate W fuel 1 store arr_begin (arr_end W store) = Ok store /\
  iterate W fuel (-1) store (arr_rbegin W store) (arr_rend W) = Ok (rev store).
Proof.
  intros HB Hf. split.
  - pose proof (iterate_fwd W store [] [] fuel (arr_begin) (arr_end W store)) as L. cbn [app] in L. rewrite app_nil_r in L.
    apply L; auto. unfold arr_end. rewrite wrap_small by lia. reflexivity.
  - pose proof (iterate_bwd W store [] [] fuel (arr_rbegin W store) (arr_rend W)) as L. cbn [app] in L. rewrite app_nil_r in L.
    apply L; auto.
Qed.

Lemma arr_crev_thm (store : list A) fuel : iterate W fuel (-1) store (arr_crbegin W store) (arr_crend W store) = Ok [].
Proof. unfold arr_crbegin, arr_crend. destruct fuel; cbn [iterate]; rewrite Z.eqb_refl; reflexivity. Qed.

End Facts.
