(** Proofs for PcopyModel. *)
From Coq Require Import List Arith ZArith Lia Bool.
From Verif Require Import Base VectorModel VectorSpec VectorProofs PoolModel PoolSpec PoolProofs PcopyModel PcopySpec.
Import ListNotations.

Section Copy.
Variable W : Z.
Variable L : nat.
Notation mv := (fun _ : sptr => @None nat) (only parsing).

Lemma upd_same {A} (l : list A) i x : i < length l -> nth_error (upd l i x) i = Some x.
Proof. intros H. rewrite nth_error_upd, Nat.eqb_refl. destruct (Nat.ltb_spec i (length l)); [reflexivity|lia]. Qed.
Lemma upd_other {A} (l : list A) i j x : i <> j -> nth_error (upd l i x) j = nth_error l j.
Proof. intros H. rewrite nth_error_upd. destruct (Nat.eqb_spec i j); [lia|reflexivity]. Qed.
Lemma nth_lt {A} (l : list A) i x : nth_error l i = Some x -> i < length l.
Proof. intros H. apply nth_error_Some. congruence. Qed.

Lemma holds_vr h i b pre l post : holds W h i b pre l post ->
  exists a, objat h i = Ok a /\ live h a = Some (b, pre ++ l ++ post) /\ vr W (pv (pool_of a (pre ++ l ++ post))) l pre post /\
    nth_error (hobj h) i = Some (Some a) /\ oblk a = Some b /\ omax a = length (pre ++ l ++ post).
Proof.
  intros (a & Ha & Hb & Hc & H1 & H2 & H3 & H4 & H5). exists a. unfold objat, live. rewrite Ha, Hb, Hc.
  splits; auto. constructor; simpl; auto.
Qed.

(** Copying *)
Lemma copy_thm dbg fuel h i b pre l post : holds W h i b pre l post ->
  exists h', qstep W L dbg fuel h (QCopy i) = Ok (QObj (length (hobj h)), h') /\
    holds W h' i b pre l post /\ holds W h' (length (hobj h)) b pre l post /\ i <> length (hobj h) /\ hblk h' = hblk h /\ href h' = href h.
Proof.
  intros (a & Ha & Hb & Hc & H1 & H2 & H3 & H4 & H5). unfold qstep, objat. rewrite Ha. cbn [bind]. eexists. split; [reflexivity|].
  pose proof (nth_lt _ _ _ Ha). splits; simpl; auto; try lia.
  - exists a. simpl. rewrite nth_error_app1 by assumption. splits; auto.
  - eexists. simpl. rewrite nth_error_app2, Nat.sub_diag by lia. simpl. splits; eauto.
Qed.

(** A call on one of two pools that leaves the storage as [pre' ++ l' ++ post'] *)
Lemma put_self h i b a p pre' l' post' refs : nth_error (hobj h) i = Some (Some a) -> oblk a = Some b -> b < length (hblk h) ->
  vr W (pv p) l' pre' post' -> omax a = length (vst (pv p)) ->
  holds W (put h i b (obj_of a p) (vst (pv p)) refs) i b pre' l' post'.
Proof.
  intros Ha Hb Hlt [S H T E B] M. exists (obj_of a p). unfold put. simpl. rewrite !upd_same by (eauto using nth_lt). rewrite S in *.
  splits; auto.
Qed.
Lemma put_other h i j b a a' c refs pre l post : i <> j -> nth_error (hobj h) j = Some (Some a') -> oblk a' = Some b -> b < length (hblk h) ->
  oh a' = length pre -> ot a' = length pre + length l -> (l = [] -> pre = []) -> omax a' = length c ->
  (Z.of_nat (length c) < 2 ^ W)%Z -> c = pre ++ l ++ post ->
  holds W (put h i b a c refs) j b pre l post.
Proof.
  intros N Ha Hb Hlt H1 H2 H3 H4 H5 ->. exists a'. unfold put. simpl. rewrite upd_other, upd_same by assumption. splits; auto.
Qed.

Lemma depopulate_store dbg p x l pre post : vr W (pv p) (x :: l) pre post ->
  exists p', depopulate dbg p = Ok (x, p') /\ vst (pv p') = pre ++ None :: l ++ post /\
    vr W (pv p') l (if l then [] else pre ++ [None]) (if l then pre ++ None :: post else post).
Proof.
  intros HR. pose proof (vr_size W _ _ _ _ HR) as Hs. destruct HR as [S H T E B]. simpl length in *.
  unfold depopulate, vempty. rewrite Hs. cbn [Nat.eqb negb]. rewrite sassert_true. cbn [bind].
  unfold pop_front. rewrite Hs. cbn [Nat.ltb Nat.leb]. rewrite sassert_true. cbn [bind]. rewrite S, H, T.
  cbn [app]. 
  assert (D : (length pre + Datatypes.S (length l) =? length pre + 1) = match l with [] => true | _ => false end).
  { destruct l; simpl; [apply Nat.eqb_eq; lia|apply Nat.eqb_neq; lia]. }
  rewrite D. rewrite rd_app by reflexivity. cbn [bind]. destruct l as [|y l].
  - cbn [bind app]. rewrite wr_app by reflexivity. cbn [bind]. eexists. split; [reflexivity|]. split; [reflexivity|].
    constructor; simpl; auto. rewrite S, !app_length in B. simpl in B. rewrite app_length. simpl. lia.
  - cbn [bind]. rewrite wr_app by reflexivity. cbn [bind]. eexists. split; [reflexivity|]. split; [reflexivity|].
    constructor; simpl; auto.
    + rewrite <- !app_assoc. reflexivity.
    + rewrite app_length. simpl. lia.
    + rewrite app_length. simpl. lia.
    + discriminate.
    + rewrite S, !app_length in B. rewrite !app_length. simpl in *. rewrite app_length in *. lia.
Qed.

Lemma depopulate_twin dbg fuel h i j x l : twins W h i j (x :: l) ->
  exists h', qstep W L dbg fuel h (QCall j PDepopulate) = Ok (QRes (PPtr x), h') /\ pooled W h' j l /\ pooled W h' i (None :: l).
Proof.
  intros (N & b & pre & post & (ai & Hai & Hbi & Hci & I1 & I2 & I3 & I4 & I5) & Hj).
  destruct (holds_vr h j b pre (x :: l) post Hj) as (a & Ea & Lv & HR & Ha & Hb & Hm).
  unfold qstep, qcall. rewrite Ea. cbn [bind]. rewrite Lv. unfold pstep. cbn [ppool prefs].
  destruct (depopulate_store dbg (pool_of a (pre ++ (x :: l) ++ post)) x l pre post HR) as (p' & E & Sp & HR').
  rewrite E. cbn [bind]. eexists. split; [reflexivity|]. cbn [ppool].
  assert (LEN : length (vst (pv p')) = length (pre ++ (x :: l) ++ post)) by (rewrite Sp, !app_length; simpl; rewrite app_length; reflexivity).
  split.
  - eexists b, _, _. apply put_self with (a := a); eauto using nth_lt. rewrite LEN. exact Hm.
  - exists b, pre, post. apply put_other with (a' := ai); auto.
    + eauto using nth_lt.
    + discriminate.
    + rewrite LEN. exact I4.
    + rewrite LEN. exact I5.
Qed.
(** Populating *)
Lemma populate_store dbg p x z l pre post : vr W (pv p) l pre (z :: post) ->
  exists p', populate W dbg p x = Ok p' /\ vst (pv p') = pre ++ l ++ x :: post /\ vr W (pv p') (l ++ [x]) pre post.
Proof.
  intros HR. pose proof (vr_size W _ _ _ _ HR) as Hs. pose proof (vr_max W _ _ _ _ HR) as Hm. pose proof HR as [S H T E B].
  simpl in Hm.
  assert (C0 : (vsize (pv p) =? vmax (pv p)) = false) by (apply Nat.eqb_neq; rewrite Hs, Hm; lia).
  assert (C1 : (vmax (pv p) <=? vt (pv p)) = false) by (apply Nat.leb_gt; rewrite Hm, T; lia).
  assert (C2 : (vt (pv p) <? vmax (pv p)) = true) by (apply Nat.ltb_lt; rewrite Hm, T; lia).
  unfold populate, vfull. unfold sptr in *. rewrite C0. cbn [negb]. rewrite sassert_true. cbn [bind].
  unfold emplace_back. unfold sptr in *. rewrite C1. cbn [andb bind]. rewrite C2, sassert_true. cbn [bind].
  rewrite S, app_assoc, wr_app by (rewrite app_length; lia). cbn [bind]. eexists. split; [reflexivity|]. simpl.
  split; [rewrite <- app_assoc; reflexivity|]. constructor; simpl; auto.
  - rewrite <- !app_assoc. reflexivity.
  - rewrite app_length. simpl. lia.
  - destruct l; discriminate.
  - rewrite S, !app_length in B. rewrite !app_length. simpl in *. lia.
Qed.
Lemma populate_one dbg fuel h j i b pre l z post x : i <> j ->
  holds W h i b pre l (z :: post) -> holds W h j b pre l (z :: post) ->
  exists h', qstep W L dbg fuel h (QCall j (PPopulate x)) = Ok (QRes PUnit, h') /\
    holds W h' i b pre l (x :: post) /\ holds W h' j b pre (l ++ [x]) post /\
    length (hobj h') = length (hobj h).
Proof.
  intros N (ai & Hai & Hbi & Hci & I1 & I2 & I3 & I4 & I5) Hj.
  destruct (holds_vr h j b pre l (z :: post) Hj) as (a & Ea & Lv & HR & Ha & Hb & Hm).
  unfold qstep, qcall. rewrite Ea. cbn [bind]. rewrite Lv. unfold pstep. cbn [ppool prefs].
  destruct (populate_store dbg (pool_of a (pre ++ l ++ z :: post)) x z l pre post HR) as (p' & E & Sp & HR').
  rewrite E. cbn [bind]. eexists. split; [reflexivity|]. cbn [ppool].
  assert (LEN : length (vst (pv p')) = length (pre ++ l ++ z :: post)) by (rewrite Sp, !app_length; reflexivity).
  splits.
  - apply put_other with (a' := ai); auto.
    + eauto using nth_lt.
    + rewrite LEN. exact I4.
    + rewrite LEN. exact I5.
  - apply put_self with (a := a); eauto using nth_lt. rewrite LEN. exact Hm.
  - simpl. apply upd_length.
Qed.
(** Pool i shows l while pool j, in the same storage, shows one more *)
Lemma populate_over dbg fuel h i j b pre l x post y : i <> j ->
  holds W h i b pre l (x :: post) -> holds W h j b pre (l ++ [x]) post ->
  exists h', qstep W L dbg fuel h (QCall i (PPopulate y)) = Ok (QRes PUnit, h') /\
    holds W h' i b pre (l ++ [y]) post /\ holds W h' j b pre (l ++ [y]) post.
Proof.
  intros N Hi (aj & Haj & Hbj & Hcj & I1 & I2 & I3 & I4 & I5).
  destruct (holds_vr h i b pre l (x :: post) Hi) as (a & Ea & Lv & HR & Ha & Hb & Hm).
  unfold qstep, qcall. rewrite Ea. cbn [bind]. rewrite Lv. unfold pstep. cbn [ppool prefs].
  destruct (populate_store dbg (pool_of a (pre ++ l ++ x :: post)) y x l pre post HR) as (p' & E & Sp & HR').
  rewrite E. cbn [bind]. eexists. split; [reflexivity|]. cbn [ppool].
  assert (LEN : length (vst (pv p')) = length (pre ++ (l ++ [x]) ++ post)) by (rewrite Sp, !app_length; simpl; lia).
  split.
  - apply put_self with (a := a); eauto using nth_lt. rewrite LEN, Hm, !app_length. simpl. lia.
  - apply put_other with (a' := aj); auto.
    + eauto using nth_lt.
    + rewrite app_length in *. simpl in *. exact I2.
    + destruct l; discriminate.
    + rewrite LEN. exact I4.
    + rewrite LEN. exact I5.
    + rewrite Sp, <- !app_assoc. reflexivity.
Qed.
Lemma populate_twins dbg fuel h i j b pre l z post x y : i <> j ->
  holds W h i b pre l (z :: post) -> holds W h j b pre l (z :: post) ->
  exists h1 h2, qstep W L dbg fuel h (QCall j (PPopulate x)) = Ok (QRes PUnit, h1) /\ pooled W h1 j (l ++ [x]) /\ pooled W h1 i l /\
    qstep W L dbg fuel h1 (QCall i (PPopulate y)) = Ok (QRes PUnit, h2) /\ pooled W h2 i (l ++ [y]) /\ pooled W h2 j (l ++ [y]).
Proof.
  intros N Hi Hj. destruct (populate_one dbg fuel h j i b pre l z post x N Hi Hj) as (h1 & E1 & A1 & B1 & _).
  destruct (populate_over dbg fuel h1 i j b pre l x post y N A1 B1) as (h2 & E2 & A2 & B2).
  exists h1, h2. splits; auto; do 3 eexists; eassumption.
Qed.

(** Destroying *)
Lemma destroy_store : forall k p l pre post i, vr W (pv p) l pre post -> length l <= k ->
  exists p', destroy_loop false k p i = Ok p' /\
    vst (pv p') = pre ++ (repeat None ((length l - i + 1) / 2) ++ skipn ((length l - i + 1) / 2) l) ++ post.
Proof.
  induction k as [|k IH]; intros p l pre post i HR Hk; cbn [destroy_loop]; unfold pool_size; rewrite (vr_size W _ _ _ _ HR).
  - destruct l; [|simpl in Hk; lia]. simpl length. destruct (Nat.ltb_spec i 0); [lia|]. exists p. split; [reflexivity|].
    rewrite (vr_st _ _ _ _ _ HR). reflexivity.
  - destruct (Nat.ltb_spec i (length l)) as [Hi|Hi].
    + destruct l as [|x l]; [simpl in Hi; lia|].
      destruct (depopulate_store false p x l pre post HR) as (p1 & E & Sp & HR1). rewrite E. cbn [bind].
      destruct (IH p1 l _ _ (i + 1) HR1 ltac:(simpl in Hk; lia)) as (p2 & E2 & S2). exists p2. split; [exact E2|]. rewrite S2.
      assert (M : (length (x :: l) - i + 1) / 2 = Datatypes.S ((length l - (i + 1) + 1) / 2)).
      { simpl length in *. destruct (Nat.eq_dec i (length l)) as [->|Ni].
        - replace (length l - (length l + 1) + 1) with 1 by lia. replace (Datatypes.S (length l) - length l + 1) with 2 by lia. reflexivity.
        - replace (Datatypes.S (length l) - i + 1) with ((length l - (i + 1) + 1) + 1 * 2) by lia. rewrite Nat.div_add by lia. lia. }
      rewrite M. cbn [repeat skipn]. destruct l as [|y l].
      * assert (i = 0) as -> by (simpl in Hi; lia). reflexivity.
      * rewrite <- !app_assoc. reflexivity.
    + exists p. split; [reflexivity|]. replace (length l - i + 1) with 1 by lia. rewrite (vr_st _ _ _ _ _ HR). reflexivity.
Qed.
Lemma half_le n : (n + 1) / 2 <= n.
Proof. destruct n; [simpl; lia|]. apply Nat.div_le_upper_bound; lia. Qed.
Lemma destroy_copy fuel h i b pre l post : holds W h i b pre l post ->
  exists h', qrun W L false fuel h [QCopy i; QDestroy (length (hobj h))] = Ok ([QObj (length (hobj h)); QUnit], h') /\
    pooled W h' i (repeat None ((length l + 1) / 2) ++ skipn ((length l + 1) / 2) l).
Proof.
  intros Hi. pose proof Hi as (ai & Hai & Hbi & Hci & I1 & I2 & I3 & I4 & I5).
  assert (Lt : i < length (hobj h)) by eauto using nth_lt.
  cbn [qrun]. unfold qstep at 1, objat. rewrite Hai. cbn [bind]. unfold qstep, qdestroy, objat. cbn [hobj].
  rewrite nth_error_app2, Nat.sub_diag by lia. cbn [nth_error bind]. unfold live. cbn [oblk hblk]. rewrite Hbi, Hci.
  cbn [oh ot oown].
  set (a := mkObj (Some b) false (omax ai) (oh ai) (ot ai) (olook ai)).
  assert (HR : vr W (pv (pool_of a (pre ++ l ++ post))) l pre post) by (constructor; simpl; auto).
  unfold pool_destroy, pool_size. rewrite (vr_size W _ _ _ _ HR).
  destruct (destroy_store (length l) (pool_of a (pre ++ l ++ post)) l pre post 0 HR (le_n _)) as (p' & E & Sp).
  rewrite E. cbn [bind]. rewrite Nat.sub_0_r in Sp.
  assert (forall c, sassert false c = Ok tt) as HF by (intros []; reflexivity). rewrite HF. cbn [bind].
  eexists. split; [reflexivity|]. exists b, pre, post. exists ai. cbn [hobj hblk]. unfold sptr in *.
  assert (LEN : length (repeat None ((length l + 1) / 2) ++ skipn ((length l + 1) / 2) l) = length l).
  { rewrite app_length, repeat_length, skipn_length. pose proof (half_le (length l)). lia. }
  assert (LEN2 : length (pre ++ (repeat None ((length l + 1) / 2) ++ skipn ((length l + 1) / 2) l) ++ post) = length (pre ++ l ++ post)).
  { rewrite (app_length pre), (app_length _ post), LEN, !app_length. reflexivity. }
  rewrite upd_other, nth_error_app1 by lia. rewrite upd_same by (eauto using nth_lt). rewrite Sp, LEN, LEN2. splits; auto.
  intros X. apply I3. destruct l; [reflexivity|]. rewrite X in LEN. discriminate.
Qed.
Lemma dangling fuel h i b pre l post : holds W h i b pre l post -> owner h i true -> l <> [] ->
  qrun W L false fuel h [QCopy i; QDestroy i; QCall (length (hobj h)) PDepopulate] = UB /\
  qrun W L false fuel h [QCopy i; QDestroy i; QDestroy (length (hobj h))] = UB.
Proof.
  intros Hi (a0 & Ha0 & O) Hl. pose proof Hi as (ai & Hai & Hbi & Hci & I1 & I2 & I3 & I4 & I5).
  rewrite Hai in Ha0. injection Ha0 as <-.
  assert (Lt : i < length (hobj h)) by eauto using nth_lt.
  assert (HR : vr W (pv (pool_of ai (pre ++ l ++ post))) l pre post) by (constructor; simpl; auto).
  destruct (destroy_store (length l) (pool_of ai (pre ++ l ++ post)) l pre post 0 HR (le_n _)) as (p' & E & Sp).
  assert (forall c, sassert false c = Ok tt) as HF by (intros []; reflexivity).
  assert (D : length pre + length l - length pre =? 0 = false).
  { apply Nat.eqb_neq. destruct l; [congruence|simpl; lia]. }
  assert (ST : exists h2, qrun W L false fuel h [QCopy i; QDestroy i] = Ok ([QObj (length (hobj h)); QUnit], h2) /\
    nth_error (hobj h2) (length (hobj h)) = Some (Some (mkObj (Some b) false (omax ai) (oh ai) (ot ai) (olook ai))) /\
    exists c, nth_error (hblk h2) b = Some (true, c)).
  { cbn [qrun]. unfold qstep at 1, objat. rewrite Hai. cbn [bind]. unfold qstep, qdestroy, objat. cbn [hobj].
    rewrite nth_error_app1 by lia. rewrite Hai. cbn [bind]. unfold live. cbn [hblk]. rewrite Hbi, Hci.
    unfold pool_destroy, pool_size. rewrite (vr_size W _ _ _ _ HR). rewrite E. cbn [bind]. rewrite HF. cbn [bind].
    eexists. split; [reflexivity|]. cbn [hobj hblk]. rewrite upd_other by lia. rewrite nth_error_app2, Nat.sub_diag by lia. split; [reflexivity|].
    rewrite O. eexists. apply upd_same. eauto using nth_lt. }
  destruct ST as (h2 & R & Ob & c & Bl).
  assert (SEQ : forall op, qrun W L false fuel h [QCopy i; QDestroy i; op] = ('(x, h3) <- qstep W L false fuel h2 op ;; Ok ([QObj (length (hobj h)); QUnit; x], h3))).
  { intros op. cbn [qrun] in *. destruct (qstep W L false fuel h (QCopy i)) as [[x1 h1]| | | |]; try discriminate. cbn [bind] in *.
    destruct (qstep W L false fuel h1 (QDestroy i)) as [[x2 h2']| | | |]; try discriminate. cbn [bind] in *. injection R as -> -> ->.
    destruct (qstep W L false fuel h2 op) as [[x3 h3]| | | |]; reflexivity. }
  rewrite !SEQ. split.
  - unfold qstep, qcall, objat. rewrite Ob. cbn [bind]. unfold live. cbn [oblk]. rewrite Bl. unfold dead_call. rewrite HF. reflexivity.
  - unfold qstep, qdestroy, objat. rewrite Ob. cbn [bind]. unfold live. cbn [oblk oh ot]. rewrite Bl, I1, I2, D. reflexivity.
Qed.

(** Assigning *)
Lemma move_assign dbg fuel h i j b1 b2 pre1 l1 post1 pre2 l2 post2 :
  i <> j -> b1 <> b2 -> holds W h i b1 pre1 l1 post1 -> holds W h j b2 pre2 l2 post2 ->
  exists h', qstep W L dbg fuel h (QMoveAssign i j) = Ok (QUnit, h') /\ holds W h' i b2 pre2 l2 post2 /\
    nth_error (hblk h') b1 = Some (false, pre1 ++ l1 ++ post1) /\
    ((forall k a, nth_error (hobj h) k = Some (Some a) -> oblk a = Some b1 -> k = i) -> abandoned h' b1) /\
    (l2 <> [] -> qstep W L dbg fuel h' (QDestroy j) = UB /\ qstep W L false fuel h' (QCall j PDepopulate) = UB).
Proof.
  intros N Nb (ai & Hai & Hbi & Hci & I1 & I2 & I3 & I4 & I5) (aj & Haj & Hbj & Hcj & J1 & J2 & J3 & J4 & J5).
  unfold qstep at 1, objat. rewrite Hai, Haj. cbn [bind]. destruct (Nat.eqb_spec i j); [lia|]. eexists. split; [reflexivity|].
  assert (Li : i < length (hobj h)) by eauto using nth_lt. assert (Lj : j < length (hobj h)) by eauto using nth_lt.
  set (h' := mkPH _ _ _).
  assert (Oi : nth_error (hobj h') i = Some (Some aj)) by (simpl; apply upd_same; rewrite upd_length; exact Li).
  assert (Oj : nth_error (hobj h') j = Some (Some (mkObj None (oown aj) (omax aj) (oh aj) (ot aj) (olook aj)))).
  { simpl. rewrite upd_other by lia. apply upd_same. exact Lj. }
  splits.
  - exists aj. splits; auto.
  - exact Hci.
  - intros U k a Hk Hb. destruct (Nat.eq_dec k i) as [->|Nk]; [rewrite Oi in Hk; congruence|].
    destruct (Nat.eq_dec k j) as [->|Nj]; [rewrite Oj in Hk; injection Hk as <-; discriminate|].
    apply Nk, (U k a); [|exact Hb]. simpl in Hk. rewrite !upd_other in Hk by lia. exact Hk.
  - intros Hl. assert (D : ot aj - oh aj =? 0 = false).
    { apply Nat.eqb_neq. destruct l2; [congruence|simpl in *; lia]. }
    split.
    + unfold qstep, qdestroy, objat. rewrite Oj. cbn [bind]. unfold live. cbn [oblk oh ot]. rewrite D. reflexivity.
    + unfold qstep, qcall, objat. rewrite Oj. cbn [bind]. unfold live. cbn [oblk]. unfold dead_call.
      assert (forall c, sassert false c = Ok tt) as HF by (intros []; reflexivity). rewrite HF. reflexivity.
Qed.
Lemma copy_assign dbg fuel h i j b1 b2 pre1 l1 post1 pre2 l2 post2 :
  i <> j -> b1 <> b2 -> holds W h i b1 pre1 l1 post1 -> holds W h j b2 pre2 l2 post2 ->
  exists h', qstep W L dbg fuel h (QCopyAssign i j) = Ok (QUnit, h') /\ twins W h' i j l2 /\
    nth_error (hblk h') b1 = Some (false, pre1 ++ l1 ++ post1) /\
    ((forall k a, nth_error (hobj h) k = Some (Some a) -> oblk a = Some b1 -> k = i) -> abandoned h' b1).
Proof.
  intros N Nb (ai & Hai & Hbi & Hci & I1 & I2 & I3 & I4 & I5) (aj & Haj & Hbj & Hcj & J1 & J2 & J3 & J4 & J5).
  unfold qstep, objat. rewrite Hai, Haj. cbn [bind]. destruct (Nat.eqb_spec i j); [lia|]. eexists. split; [reflexivity|].
  assert (Li : i < length (hobj h)) by eauto using nth_lt.
  set (h' := mkPH _ _ _).
  assert (Oi : nth_error (hobj h') i = Some (Some (mkObj (oblk aj) false (omax aj) (oh aj) (ot aj) (olook aj)))) by (simpl; apply upd_same; exact Li).
  assert (Oj : nth_error (hobj h') j = Some (Some aj)) by (simpl; rewrite upd_other by lia; exact Haj).
  splits.
  - split; [exact N|]. exists b2, pre2, post2. split; [eexists|exists aj]; (split; [eassumption|]); simpl; splits; auto.
  - exact Hci.
  - intros U k a Hk Hb. destruct (Nat.eq_dec k i) as [->|Nk]; [rewrite Oi in Hk; injection Hk as <-; simpl in Hb; congruence|].
    apply Nk, (U k a); [|exact Hb]. simpl in Hk. rewrite upd_other in Hk by lia. exact Hk.
Qed.

(** Acquiring *)
Lemma vget_cell dbg (v : vec sptr) i x : vget dbg v i = Ok x -> In x (vst v).
Proof.
  unfold vget. destruct (sassert dbg (vh v + i <? vt v)) as [[]| | | |]; try discriminate. cbn [bind]. unfold rd.
  destruct (nth_error (vst v) (vh v + i)) eqn:E; [|discriminate]. intros X; injection X as ->. eauto using nth_error_In.
Qed.
Lemma scan_back_unused dbg w : forall fuel i x j, scan_back L dbg fuel w i = Ok (Some x, j) -> use_count w x = 1 /\ In x (vst (pv (ppool w))).
Proof.
  induction fuel as [|fuel IH]; intros i x j; cbn [scan_back]; destruct (i <? pool_size (ppool w)); try discriminate.
  destruct (vget dbg (pv (ppool w)) i) as [y| | | |] eqn:E; try discriminate. cbn [bind].
  destruct (Nat.eqb_spec (use_count w y) 1); [|apply IH]. intros X; injection X as <- <-. eauto using vget_cell.
Qed.
Lemma scan_front_unused dbg w : forall k i x, scan_front dbg k w i = Ok (Some x) -> use_count w x = 1 /\ In x (vst (pv (ppool w))).
Proof.
  induction k as [|k IH]; intros i x; cbn [scan_front]; [discriminate|].
  destruct (vget dbg (pv (ppool w)) i) as [y| | | |] eqn:E; try discriminate. cbn [bind].
  destruct (Nat.eqb_spec (use_count w y) 1); [|apply IH]. intros X; injection X as <-. eauto using vget_cell.
Qed.
Lemma acquire_unused dbg fuel w o p : acquire L dbg fuel w = Ok (Some o, p) ->
  count_occ sptr_dec (vst (pv (ppool w))) (Some o) = 1 /\ ~ In o (prefs w).
Proof.
  unfold acquire. destruct (sassert dbg (is_fully_populated (ppool w))) as [[]| | | |]; try discriminate. cbn [bind].
  assert (K : use_count w (Some o) = 1 /\ In (Some o) (vst (pv (ppool w))) -> count_occ sptr_dec (vst (pv (ppool w))) (Some o) = 1 /\ ~ In o (prefs w)).
  { intros [U I]. cbn [use_count] in U. apply (count_occ_In sptr_dec) in I. split; [lia|]. apply (count_occ_not_In Nat.eq_dec). lia. }
  destruct (scan_back L dbg fuel w (plook (ppool w))) as [[[x|] j]| | | |] eqn:E; try discriminate; cbn [bind].
  - intros X. injection X as -> _. eauto using scan_back_unused.
  - destruct (scan_front dbg (min (plook (ppool w)) (pool_size (ppool w))) w 0) as [[x|]| | | |] eqn:F; try discriminate; cbn [bind].
    intros X. injection X as -> _. eauto using scan_front_unused.
Qed.
Lemma count_one (c : list sptr) x : count_occ sptr_dec c x = 1 -> exists k, nth_error c k = Some x /\ forall k', nth_error c k' = Some x -> k' = k.
Proof.
  induction c as [|y c IH]; cbn [count_occ]; [discriminate|]. destruct (sptr_dec y x) as [->|N]; intros E.
  - exists 0. split; [reflexivity|]. intros [|k'] H; [reflexivity|]. exfalso. cbn [nth_error] in H. apply nth_error_In in H. apply (count_occ_In sptr_dec) in H. lia.
  - destruct (IH E) as (k & H & U). exists (S k). split; [exact H|]. intros [|k'] H'; [injection H' as ->; contradiction|]. f_equal. apply U. exact H'.
Qed.
Lemma elsewhere_in b bs b' q k o : b' <> b -> nth_error bs b' = Some q -> nth_error (snd q) k = Some (Some o) -> In o (elsewhere b bs).
Proof.
  intros N B K. unfold elsewhere. apply in_flat_map. exists q. split.
  - apply in_or_app. destruct (Nat.lt_ge_cases b' b) as [H|H].
    + left. apply nth_error_In with b'. rewrite nth_error_firstn. destruct (Nat.ltb_spec b' b); [exact B|lia].
    + right. apply nth_error_In with (b' - S b). rewrite nth_error_skipn. replace (S b + (b' - S b)) with b' by lia. exact B.
  - apply in_flat_map. exists (Some o). split; [eapply nth_error_In; exact K|left; reflexivity].
Qed.
Lemma exclusive_copies dbg fuel h i o h' :
  qstep W L dbg fuel h (QCall i PAcquire) = Ok (QRes (PPtr (Some o)), h') -> ~ In o (href h) /\ In o (href h') /\
  exists b k, (exists c, nth_error (hblk h) b = Some (false, c) /\ nth_error c k = Some (Some o)) /\
    forall b' q k', nth_error (hblk h) b' = Some q -> nth_error (snd q) k' = Some (Some o) -> b' = b /\ k' = k.
Proof.
  unfold qstep, qcall. destruct (objat h i) as [a| | | |]; try discriminate. cbn [bind].
  destruct (live h a) as [[b c]|] eqn:Lv.
  - unfold pstep. destruct (acquire L dbg fuel (mkPW (pool_of a c) (href h ++ elsewhere b (hblk h)))) as [[x p]| | | |] eqn:E; try discriminate.
    cbn [bind]. intros X. injection X as -> <-. apply acquire_unused in E. cbn [prefs ppool pool_of pv vst] in E. destruct E as [C E].
    split; [intros I; apply E; apply in_or_app; left; exact I|]. split; [left; reflexivity|].
    assert (nth_error (hblk h) b = Some (false, c)) as B. { unfold live in Lv. destruct (oblk a) as [b0|]; [|discriminate]. destruct (nth_error (hblk h) b0) as [[[|] c0]|] eqn:H; try discriminate. injection Lv as -> ->. exact H. }
    apply count_one in C. destruct C as (k & K & U). exists b, k. split; [exists c; auto|]. intros b' q k' Hq Hk.
    destruct (Nat.eq_dec b' b) as [->|N]; [|exfalso; apply E; apply in_or_app; right; eapply elsewhere_in; eauto].
    rewrite B in Hq. injection Hq as <-. auto.
  - unfold dead_call. destruct (sassert dbg (ot a - oh a =? omax a)) as [[]| | | |]; try discriminate. cbn [bind].
    destruct (ot a - oh a =? 0); discriminate.
Qed.
End Copy.
