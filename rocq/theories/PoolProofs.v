(** Proofs about Pool. *)
From Coq Require Import List Arith ZArith Lia Bool.
From Verif Require Import Base VectorModel VectorSpec VectorProofs PoolModel PoolSpec.
Import ListNotations.

Section Proofs.
Variable W : Z.
Variable L : nat.

Notation mv := (fun _ : sptr => @None nat).
Definition isnull (p : sptr) : Prop := p = None.

Definition prep (w : pworld) (l pre post : list sptr) : Prop :=
  vr W (pv (ppool w)) l pre post /\ clean isnull pre post.

Lemma count_null l o : Forall isnull l -> count_occ sptr_dec l (Some o) = 0.
Proof. induction 1 as [|x l H _ IH]; simpl; auto. rewrite H. destruct (sptr_dec None (Some o)); [discriminate|auto]. Qed.

Lemma use_count_rep w l pre post p : prep w l pre post ->
  (use_count w p =? 1) = free_in l (prefs w) p.
Proof.
  intros [HR [C1 C2]]. destruct p as [o|]; [|reflexivity]. unfold use_count, free_in. rewrite (vr_st _ _ _ _ _ HR), !count_occ_app.
  rewrite (count_null pre o C1), (count_null post o C2). f_equal. lia.
Qed.

Lemma vget_rep dbg w l pre post i x : prep w l pre post -> nth_error l i = Some x -> vget dbg (pv (ppool w)) i = Ok x.
Proof.
  intros [HR _] E. destruct (nth_error_split l i E) as (l1 & l2 & El & L1).
  unfold vget. pose proof (vr_h _ _ _ _ _ HR) as H. pose proof (vr_t _ _ _ _ _ HR) as T.
  assert (i < length l) by (apply nth_error_Some; congruence).
  destruct (Nat.ltb_spec (vh (pv (ppool w)) + i) (vt (pv (ppool w)))); [|lia]. cbn [sassert bind].
  rewrite (vr_st _ _ _ _ _ HR), El, <- (app_assoc l1), app_assoc. cbn [app]. rewrite rd_app; [reflexivity|]. rewrite app_length. lia.
Qed.

(** The first free pointer of a list, with its position. *)
Fixpoint ffree (l : list sptr) (refs : list nat) (k : list sptr) (i : nat) : option (sptr * nat) :=
  match k with
  | [] => None
  | x :: k' => if free_in l refs x then Some (x, i) else ffree l refs k' (i + 1)
  end.

Lemma ffree_find l refs k i : option_map fst (ffree l refs k i) = find (free_in l refs) k.
Proof. revert i. induction k as [|x k IH]; intros i; simpl; auto. destruct (free_in l refs x); auto. Qed.

Lemma skipn_cons_nth {B} (l : list B) i x : nth_error l i = Some x -> skipn i l = x :: skipn (i + 1) l.
Proof.
  revert i. induction l as [|y l IH]; intros [|i] H; simpl in *; try discriminate; [congruence|]. rewrite (IH i H). reflexivity.
Qed.

Lemma scan_back_ok dbg w l pre post : prep w l pre post -> length l < L -> forall fuel i, length l <= fuel + i ->
  scan_back L dbg fuel w i =
  match ffree l (prefs w) (skipn i l) i with Some (x, j) => Ok (Some x, j) | None => Ok (None, max i (length l)) end.
Proof.
  intros HR HL. assert (Hs : pool_size (ppool w) = length l) by (apply (vr_size W _ _ _ _ (proj1 HR))).
  induction fuel as [|fuel IH]; intros i Hf; cbn [scan_back]; rewrite Hs.
  - destruct (Nat.ltb_spec i (length l)); [lia|]. rewrite skipn_all2 by lia. cbn [ffree]. rewrite Nat.max_l by lia. reflexivity.
  - destruct (Nat.ltb_spec i (length l)) as [Hi|Hi].
    + destruct (nth_error l i) as [x|] eqn:E; [|apply nth_error_None in E; lia].
      rewrite (vget_rep dbg w l pre post i x HR E). cbn [bind]. rewrite (skipn_cons_nth l i x E). cbn [ffree].
      rewrite (use_count_rep w l pre post x HR). destruct (free_in l (prefs w) x); auto.
      rewrite Nat.mod_small by lia. rewrite IH by lia.
      destruct (ffree l (prefs w) (skipn (i + 1) l) (i + 1)) as [[y j]|]; auto. rewrite !Nat.max_r by lia. reflexivity.
    + rewrite skipn_all2 by lia. cbn [ffree]. rewrite Nat.max_l by lia. reflexivity.
Qed.

Lemma scan_front_ok dbg w l pre post : prep w l pre post -> forall k i, i + k <= length l ->
  scan_front dbg k w i = Ok (find (free_in l (prefs w)) (firstn k (skipn i l))).
Proof.
  intros HR. induction k as [|k IH]; intros i Hk; cbn [scan_front].
  - reflexivity.
  - destruct (nth_error l i) as [x|] eqn:E; [|apply nth_error_None in E; lia].
    rewrite (vget_rep dbg w l pre post i x HR E). cbn [bind]. rewrite (skipn_cons_nth l i x E). cbn [firstn find].
    rewrite (use_count_rep w l pre post x HR). destruct (free_in l (prefs w) x); auto. apply IH. lia.
Qed.

Lemma find_app' {B} (f : B -> bool) a b : find f (a ++ b) = match find f a with Some x => Some x | None => find f b end.
Proof. induction a as [|x a IH]; simpl; auto. destruct (f x); auto. Qed.

Lemma find_null_free l refs k : find (free_in l refs) k <> Some None.
Proof. intros H. apply find_some in H as [_ H]. discriminate. Qed.

Lemma acquire_exact dbg w l pre post fuel : prep w l pre post -> length l < L -> length l <= fuel ->
  (dbg = false \/ length l = vmax (pv (ppool w))) ->
  exists j, acquire L dbg fuel w =
    Ok (match find (free_in l (prefs w)) (skipn (plook (ppool w)) l ++ firstn (plook (ppool w)) l) with Some x => x | None => None end,
        mkPool (pv (ppool w)) j).
Proof.
  intros HR HL Hf Hd. pose proof (vr_size W _ _ _ _ (proj1 HR)) as Hs. unfold acquire, is_fully_populated, vfull. rewrite Hs.
  assert (sassert dbg (length l =? vmax (pv (ppool w))) = Ok tt) as ->.
  { unfold sassert. destruct Hd as [->|E]; [destruct (_ =? _); reflexivity|]. rewrite E, Nat.eqb_refl. reflexivity. }
  cbn [bind]. rewrite (scan_back_ok dbg w l pre post HR HL) by lia.
  rewrite find_app'. pose proof (ffree_find l (prefs w) (skipn (plook (ppool w)) l) (plook (ppool w))) as Hff.
  destruct (ffree l (prefs w) (skipn (plook (ppool w)) l) (plook (ppool w))) as [[x j]|]; cbn [bind].
  - simpl in Hff. rewrite <- Hff. exists j. reflexivity.
  - simpl in Hff. rewrite <- Hff. rewrite (scan_front_ok dbg w l pre post HR) by (unfold pool_size; rewrite Hs; lia).
    cbn [bind skipn]. exists 0. f_equal. f_equal. unfold pool_size. rewrite Hs.
    destruct (Nat.le_ge_cases (plook (ppool w)) (length l)).
    + rewrite Nat.min_l by lia. reflexivity.
    + rewrite Nat.min_r by lia. rewrite firstn_all, (firstn_all2 l) by lia. reflexivity.
Qed.

(** Any successful acquire, whatever the size. *)
Lemma scan_back_sound dbg w l pre post : prep w l pre post -> forall fuel i x j,
  scan_back L dbg fuel w i = Ok (Some x, j) -> In x l /\ free_in l (prefs w) x = true.
Proof.
  intros HR. assert (Hs : pool_size (ppool w) = length l) by (apply (vr_size W _ _ _ _ (proj1 HR))).
  induction fuel as [|fuel IH]; intros i x j H; cbn [scan_back] in H; rewrite Hs in H.
  - destruct (i <? length l); discriminate.
  - destruct (Nat.ltb_spec i (length l)) as [Hi|Hi]; [|discriminate].
    destruct (nth_error l i) as [y|] eqn:E; [|apply nth_error_None in E; lia].
    rewrite (vget_rep dbg w l pre post i y HR E) in H. cbn [bind] in H. rewrite (use_count_rep w l pre post y HR) in H.
    destruct (free_in l (prefs w) y) eqn:F; [|eauto]. inversion H; subst. split; auto. eapply nth_error_In; eauto.
Qed.

Lemma acquire_sound dbg w l pre post fuel o p : prep w l pre post -> acquire L dbg fuel w = Ok (Some o, p) ->
  In (Some o) l /\ free_in l (prefs w) (Some o) = true.
Proof.
  intros HR H. unfold acquire in H. destruct (sassert dbg (is_fully_populated (ppool w))); cbn [bind] in H; try discriminate.
  destruct (scan_back L dbg fuel w (plook (ppool w))) as [[r i]| | | |] eqn:E; cbn [bind] in H; try discriminate.
  pose proof (vr_size W _ _ _ _ (proj1 HR)) as Hs.
  destruct r as [x|].
  - inversion H; subst. eapply scan_back_sound; eauto.
  - rewrite (scan_front_ok dbg w l pre post HR) in H by (unfold pool_size; rewrite Hs; lia). cbn [bind skipn] in H.
    inversion H as [[H1 H2]]. destruct (find (free_in l (prefs w)) (firstn (Nat.min (plook (ppool w)) (pool_size (ppool w))) l)) as [x|] eqn:F; [|discriminate].
    subst. apply find_some in F as [F1 F2]. split; auto. rewrite <- (firstn_skipn (Nat.min (plook (ppool w)) (pool_size (ppool w))) l).
    apply in_or_app. auto.
Qed.

Lemma acquire_pool dbg w fuel r p : acquire L dbg fuel w = Ok (r, p) -> pv p = pv (ppool w).
Proof.
  unfold acquire. destruct (sassert dbg (is_fully_populated (ppool w))); cbn [bind]; try discriminate.
  destruct (scan_back L dbg fuel w (plook (ppool w))) as [[[x|] i]| | | |]; cbn [bind]; try discriminate.
  - intros H; inversion H; reflexivity.
  - destruct (scan_front dbg (Nat.min (plook (ppool w)) (pool_size (ppool w))) w 0); cbn [bind]; try discriminate.
    intros H; inversion H; reflexivity.
Qed.

(** ** Invariant *)
Lemma populate_rep dbg w l pre post o p : prep w l pre post -> populate W dbg (ppool w) o = Ok p ->
  exists l' pre' post', vr W (pv p) l' pre' post' /\ clean isnull pre' post' /\
    l' = if length l <? vmax (pv (ppool w)) then l ++ [o] else l.
Proof.
  intros [HR HC] H. unfold populate in H. destruct (sassert dbg (negb (vfull (pv (ppool w))))); cbn [bind] in H; try discriminate.
  destruct (emplace_back None W dbg (pv (ppool w)) o) as [v| | | |] eqn:E; cbn [bind] in H; try discriminate. inversion H; subst. simpl.
  destruct (Nat.ltb_spec (length l) (vmax (pv (ppool w)))) as [Hlt|Hge].
  - destruct (push_back_vr None W isnull eq_refl dbg (pv (ppool w)) l pre post o HR Hlt) as (v' & pre' & post' & _ & E' & HR' & _ & HC').
    rewrite E in E'. inversion E'; subst. exists (l ++ [o]), pre', post'. auto.
  - pose proof (vr_max W _ _ _ _ HR). assert (pre = [] /\ post = []) as [-> ->] by (destruct pre, post; simpl in *; auto; lia).
    destruct (push_back_full None W dbg (pv (ppool w)) l HR) as [E1 E2]. rewrite <- E1, E2 in E. destruct dbg; [discriminate|].
    inversion E; subst. exists l, [], []. auto.
Qed.

Lemma depopulate_rep dbg p l pre post o p' : vr W (pv p) l pre post -> clean isnull pre post -> depopulate dbg p = Ok (o, p') ->
  exists l' pre' post', l = o :: l' /\ vr W (pv p') l' pre' post' /\ clean isnull pre' post'.
Proof.
  intros HR HC H. unfold depopulate in H. pose proof (vr_size W _ _ _ _ HR) as Hs.
  destruct l as [|x l].
  - unfold vempty in H. rewrite Hs in H. simpl in H. unfold pop_front in H. rewrite Hs in H. destruct dbg; discriminate.
  - destruct (pop_front_vr mv W isnull (fun _ => eq_refl) dbg (pv p) x l pre post HR) as (v' & pre' & post' & E & HR' & _ & HC').
    rewrite E in H. unfold vempty in H. rewrite Hs in H. simpl in H. inversion H; subst. exists l, pre', post'. auto.
Qed.

Lemma pstep_rep dbg fuel w op x w' l pre post : prep w l pre post -> pstep W L dbg fuel w op = Ok (x, w') ->
  exists l' pre' post', prep w' l' pre' post'.
Proof.
  intros HR H. destruct op; cbn [pstep] in H.
  - destruct (populate W dbg (ppool w) o) as [p| | | |] eqn:E; cbn [bind] in H; try discriminate. inversion H; subst.
    destruct (populate_rep dbg w l pre post o p HR E) as (l' & pre' & post' & R & C & _). exists l', pre', post'. split; auto.
  - destruct (depopulate dbg (ppool w)) as [[o p]| | | |] eqn:E; cbn [bind] in H; try discriminate. inversion H; subst.
    destruct (depopulate_rep dbg (ppool w) l pre post o p (proj1 HR) (proj2 HR) E) as (l' & pre' & post' & _ & R & C).
    exists l', pre', post'. split; auto.
  - destruct (acquire L dbg fuel w) as [[o p]| | | |] eqn:E; cbn [bind] in H; try discriminate. inversion H; subst.
    apply acquire_pool in E. exists l, pre, post. unfold prep. simpl. rewrite E. exact HR.
  - inversion H; subst. eauto.
  - inversion H; subst. eauto.
  - inversion H; subst. exists l, pre, post. exact HR.
  - inversion H; subst. exists l, pre, post. exact HR.
Qed.

Lemma pexec_rep w ops xs w' : pexec W L w ops xs w' -> (exists l pre post, prep w l pre post) -> exists l pre post, prep w' l pre post.
Proof.
  induction 1 as [w|dbg fuel w ops xs w1 op x w2 _ IH Hs]; auto. intros H. destruct (IH H) as (l & pre & post & HR).
  eapply pstep_rep; eauto.
Qed.

Lemma new_rep n : (Z.of_nat n < 2 ^ W)%Z -> prep (mkPW (pool_new n) []) [] [] (repeat None n).
Proof.
  intros H. split; simpl.
  - constructor; simpl; auto. now rewrite repeat_length.
  - split; [constructor|]. apply Forall_forall. intros x Hx. apply repeat_spec in Hx. exact Hx.
Qed.

Lemma reach_rep w l : preachable W L w -> pshows W w l -> exists pre post, prep w l pre post.
Proof.
  intros (n & ops & xs & Hn & Hx) Hl. destruct (pexec_rep _ _ _ _ Hx) as (l' & pre & post & HR).
  { do 3 eexists. apply new_rep; auto. }
  assert (l = l') as -> by (eapply (vr_holds_unique W); [apply (proj1 HR)|exact Hl]). eauto.
Qed.

Lemma reach_shows w : preachable W L w -> exists l, pshows W w l.
Proof.
  intros (n & ops & xs & Hn & Hx). destruct (pexec_rep _ _ _ _ Hx) as (l & pre & post & HR).
  { do 3 eexists. apply new_rep; auto. }
  exists l. eapply vr_holds. apply (proj1 HR).
Qed.

(** ** Outstanding references *)
Lemma drop_one_count o p l : count_occ Nat.eq_dec (drop_one p l) o = if p =? o then count_occ Nat.eq_dec l o - 1 else count_occ Nat.eq_dec l o.
Proof.
  induction l as [|x l IH]; simpl; [now destruct (p =? o)|].
  destruct (Nat.eqb_spec x p) as [->|N].
  - destruct (Nat.eq_dec p o) as [->|M]; [rewrite Nat.eqb_refl; lia|]. destruct (Nat.eqb_spec p o); congruence.
  - simpl. destruct (Nat.eq_dec x o) as [->|M]; rewrite IH.
    + destruct (Nat.eqb_spec p o); [congruence|]. reflexivity.
    + reflexivity.
Qed.

Lemma outstanding_app o ops1 ops2 xs1 xs2 n : length ops1 = length xs1 ->
  outstanding o (ops1 ++ ops2) (xs1 ++ xs2) n = outstanding o ops2 xs2 (outstanding o ops1 xs1 n).
Proof.
  revert xs1 n. induction ops1 as [|a ops1 IH]; intros [|x xs1] n H; try discriminate; auto.
  simpl in H. assert (length ops1 = length xs1) by lia.
  destruct a; simpl; try (apply IH; auto); destruct x as [|[q|]| |]; simpl; apply IH; auto.
Qed.

Lemma pexec_length w ops xs w' : pexec W L w ops xs w' -> length ops = length xs.
Proof. induction 1; auto. rewrite !app_length, IHpexec. reflexivity. Qed.

Lemma outstanding_refs o w ops xs w' : pexec W L w ops xs w' ->
  outstanding o ops xs (count_occ Nat.eq_dec (prefs w) o) = count_occ Nat.eq_dec (prefs w') o.
Proof.
  induction 1 as [w|dbg fuel w ops xs w1 op x w2 Hx IH Hs]; auto.
  rewrite outstanding_app by (eapply pexec_length; eauto). rewrite IH.
  assert (Hc : forall p, count_occ Nat.eq_dec (p :: prefs w1) o = if p =? o then count_occ Nat.eq_dec (prefs w1) o + 1 else count_occ Nat.eq_dec (prefs w1) o).
  { intros p. simpl. destruct (Nat.eq_dec p o) as [->|N]; [rewrite Nat.eqb_refl; lia|]. destruct (Nat.eqb_spec p o); congruence. }
  destruct op; cbn [pstep] in Hs.
  - destruct (populate W dbg (ppool w1) o0); cbn [bind] in Hs; try discriminate. inversion Hs; subst. reflexivity.
  - destruct (depopulate dbg (ppool w1)) as [[[p|] q]| | | |]; cbn [bind] in Hs; try discriminate; inversion Hs; subst; cbn [prefs outstanding]; [now rewrite Hc|reflexivity].
  - destruct (acquire L dbg fuel w1) as [[[p|] q]| | | |]; cbn [bind] in Hs; try discriminate; inversion Hs; subst; cbn [prefs outstanding]; [now rewrite Hc|reflexivity].
  - inversion Hs; subst. reflexivity.
  - inversion Hs; subst. reflexivity.
  - inversion Hs; subst. cbn [prefs outstanding]. now rewrite Hc.
  - inversion Hs; subst. cbn [prefs outstanding]. now rewrite drop_one_count.
Qed.

(** ** Theorems *)
Lemma exclusive n ops xs w dbg fuel o w' : (Z.of_nat n < 2 ^ W)%Z ->
  pexec W L (mkPW (pool_new n) []) ops xs w -> pstep W L dbg fuel w PAcquire = Ok (PPtr (Some o), w') ->
  outstanding o ops xs 0 = 0 /\
  (forall l, pshows W w l -> count_occ sptr_dec l (Some o) = 1 /\ pshows W w' l).
Proof.
  intros Hn Hx Hs. assert (preachable W L w) as Hr by (exists n, ops, xs; auto).
  cbn [pstep] in Hs. destruct (acquire L dbg fuel w) as [[r p]| | | |] eqn:E; cbn [bind] in Hs; try discriminate. inversion Hs; subst.
  assert (Hall : forall l, pshows W w l -> count_occ Nat.eq_dec (prefs w) o = 0 /\ count_occ sptr_dec l (Some o) = 1).
  { intros l Hl. destruct (reach_rep w l Hr Hl) as (pre & post & HR).
    destruct (acquire_sound dbg w l pre post fuel o p HR E) as [H1 H2]. apply Nat.eqb_eq in H2.
    apply (count_occ_In sptr_dec) in H1. lia. }
  split.
  - destruct (reach_shows w Hr) as (l & Hl). destruct (Hall l Hl) as [H _].
    pose proof (outstanding_refs o _ _ _ _ Hx) as Ho. simpl in Ho. congruence.
  - intros l Hl. split; [apply Hall; auto|]. unfold pshows in *. simpl. rewrite (acquire_pool _ _ _ _ _ E). exact Hl.
Qed.

Lemma complete dbg w l fuel : preachable W L w -> pshows W w l -> length l < L -> length l <= fuel ->
  dbg = false \/ length l = vmax (pv (ppool w)) ->
  exists r w', pstep W L dbg fuel w PAcquire = Ok (PPtr r, w') /\ pshows W w' l /\
    (r = None <-> forall o, In (Some o) l -> 2 <= count_occ sptr_dec l (Some o) + count_occ Nat.eq_dec (prefs w) o).
Proof.
  intros Hr Hl HL Hf Hd. destruct (reach_rep w l Hr Hl) as (pre & post & HR).
  destruct (acquire_exact dbg w l pre post fuel HR HL Hf Hd) as (j & E). cbn [pstep]. rewrite E. cbn [bind].
  eexists. eexists. split; [reflexivity|]. split; [exact Hl|].
  set (k := skipn (plook (ppool w)) l ++ firstn (plook (ppool w)) l).
  assert (Hk : forall x, In x k <-> In x l).
  { intros x. unfold k. rewrite in_app_iff. rewrite <- (firstn_skipn (plook (ppool w)) l) at 3. rewrite in_app_iff. tauto. }
  destruct (find (free_in l (prefs w)) k) as [x|] eqn:F.
  - apply find_some in F as [F1 F2]. destruct x as [o|]; [|discriminate]. apply Nat.eqb_eq in F2. split; [discriminate|].
    intros H. specialize (H o (proj1 (Hk _) F1)). lia.
  - split; auto. intros _ o Ho. pose proof (find_none _ _ F (Some o) (proj2 (Hk _) Ho)) as H. simpl in H. apply Nat.eqb_neq in H.
    pose proof (proj1 (count_occ_In sptr_dec l (Some o)) Ho). lia.
Qed.

Lemma order dbg w l fuel : preachable W L w -> pshows W w l -> length l < L -> length l <= fuel ->
  dbg = false \/ length l = vmax (pv (ppool w)) ->
  exists w', pstep W L dbg fuel w PAcquire =
    Ok (PPtr (match find (free_in l (prefs w)) (skipn (plook (ppool w)) l ++ firstn (plook (ppool w)) l) with Some x => x | None => None end), w').
Proof.
  intros Hr Hl HL Hf Hd. destruct (reach_rep w l Hr Hl) as (pre & post & HR).
  destruct (acquire_exact dbg w l pre post fuel HR HL Hf Hd) as (j & E). cbn [pstep]. rewrite E. cbn [bind]. eauto.
Qed.

(** Pools too large for the lookup index. *)
Lemma scan_forever dbg w l pre post : prep w l pre post -> 1 <= L -> L <= length l ->
  (forall i x, i < L -> nth_error l i = Some x -> free_in l (prefs w) x = false) ->
  forall fuel i, i < L -> scan_back L dbg fuel w i = Fuel.
Proof.
  intros HR HL1 HL Hb. assert (Hs : pool_size (ppool w) = length l) by (apply (vr_size W _ _ _ _ (proj1 HR))).
  induction fuel as [|fuel IH]; intros i Hi; cbn [scan_back]; rewrite Hs; (destruct (Nat.ltb_spec i (length l)); [|lia]); auto.
  destruct (nth_error l i) as [x|] eqn:E; [|apply nth_error_None in E; lia].
  rewrite (vget_rep dbg w l pre post i x HR E). cbn [bind]. rewrite (use_count_rep w l pre post x HR), (Hb i x Hi E).
  apply IH. apply Nat.mod_upper_bound. lia.
Qed.

(** ** Destruction *)
Lemma destroy_loop_ok dbg : forall k p l pre post i, vr W (pv p) l pre post -> clean isnull pre post -> length l <= k ->
  exists p' pre' post', destroy_loop dbg k p i = Ok p' /\ vr W (pv p') (skipn ((length l - i + 1) / 2) l) pre' post' /\ clean isnull pre' post'.
Proof.
  induction k as [|k IH]; intros p l pre post i HR HC Hk; cbn [destroy_loop]; unfold pool_size; rewrite (vr_size W _ _ _ _ HR).
  - destruct l; [|simpl in Hk; lia]. simpl length. destruct (Nat.ltb_spec i 0); [lia|]. exists p, pre, post. rewrite skipn_nil. auto.
  - destruct (Nat.ltb_spec i (length l)) as [Hi|Hi].
    + destruct l as [|x l]; [simpl in Hi; lia|].
      assert (exists p1, depopulate dbg p = Ok (x, p1)) as (p1 & E).
      { destruct (pop_front_vr mv W isnull (fun _ => eq_refl) dbg (pv p) x l pre post HR) as (v' & pre' & post' & E & _).
        unfold depopulate, vempty. rewrite (vr_size W _ _ _ _ HR). simpl. rewrite E. simpl. eauto. }
      rewrite E. cbn [bind].
      destruct (depopulate_rep dbg p (x :: l) pre post x p1 HR HC E) as (l' & pre' & post' & El & HR' & HC'). inversion El; subst l'.
      destruct (IH p1 l pre' post' (i + 1) HR' HC' ltac:(simpl in Hk; lia)) as (p2 & pre2 & post2 & E2 & HR2 & HC2).
      rewrite E2. exists p2, pre2, post2. splits; auto.
      replace ((length (x :: l) - i + 1) / 2) with (Datatypes.S ((length l - (i + 1) + 1) / 2)); [exact HR2|].
      simpl length in *. destruct (Nat.eq_dec i (length l)) as [->|Ni].
      * replace (length l - (length l + 1) + 1) with 1 by lia. replace (Datatypes.S (length l) - length l + 1) with 2 by lia. reflexivity.
      * replace (Datatypes.S (length l) - i + 1) with ((length l - (i + 1) + 1) + 1 * 2) by lia.
        rewrite Nat.div_add by lia. lia.
    + exists p, pre, post. replace (length l - i + 1) with 1 by lia. simpl. auto.
Qed.

Lemma destroy_exact dbg w l : preachable W L w -> pshows W w l ->
  if length l <=? 1 then exists p, pool_destroy dbg (ppool w) = Ok p /\ vholds W (pv p) [] /\ Forall isnull (vst (pv p))
  else (dbg = true -> pool_destroy dbg (ppool w) = Halt) /\
       (dbg = false -> exists p, pool_destroy dbg (ppool w) = Ok p /\ vholds W (pv p) (skipn ((length l + 1) / 2) l)).
Proof.
  intros Hr Hl. destruct (reach_rep w l Hr Hl) as (pre & post & HR & HC).
  unfold pool_destroy. unfold pool_size. rewrite (vr_size W _ _ _ _ HR).
  destruct (destroy_loop_ok dbg (length l) (ppool w) l pre post 0 HR HC (le_n _)) as (p & pre' & post' & E & HR' & HC').
  rewrite E. cbn [bind]. rewrite Nat.sub_0_r in HR'. unfold vempty. rewrite (vr_size W _ _ _ _ HR').
  destruct (Nat.leb_spec (length l) 1) as [H1|H1].
  - assert (skipn ((length l + 1) / 2) l = []) as E0.
    { destruct l as [|x [|y l]]; simpl in *; auto. lia. }
    rewrite E0 in *. simpl. exists p. splits; auto.
    + eapply vr_holds; eauto.
    + rewrite (vr_st _ _ _ _ _ HR'). simpl. apply Forall_app. exact HC'.
  - assert (1 <= length (skipn ((length l + 1) / 2) l)) as H2.
    { rewrite skipn_length. assert ((length l + 1) / 2 < length l); [|lia]. apply Nat.div_lt_upper_bound; lia. }
    destruct (Nat.eqb_spec (length (skipn ((length l + 1) / 2) l)) 0); [lia|]. split; intros ->; simpl; auto.
    exists p. split; auto. eapply vr_holds; eauto.
Qed.

Lemma evsys_destroy_exact w l : preachable W L w -> pshows W w l ->
  exists p, evsys_store_destroy false (ppool w) = Ok p /\
    vholds W (pv p) (skipn ((length l / 2 + 1) / 2) (skipn ((length l + 1) / 2) l)) /\
  (2 <= length l -> evsys_store_destroy true (ppool w) = Halt).
Proof.
  intros Hr Hl. destruct (reach_rep w l Hr Hl) as (pre & post & HR & HC).
  unfold evsys_store_destroy. unfold pool_size. rewrite (vr_size W _ _ _ _ HR).
  destruct (destroy_loop_ok false (length l) (ppool w) l pre post 0 HR HC (le_n _)) as (p & pre' & post' & E & HR' & HC').
  destruct (destroy_loop_ok true (length l) (ppool w) l pre post 0 HR HC (le_n _)) as (p2 & pre2 & post2 & E2 & HR2 & HC2).
  rewrite E, E2. cbn [bind]. rewrite Nat.sub_0_r in HR', HR2. set (l1 := skipn ((length l + 1) / 2) l) in *.
  assert (forall c, sassert false c = Ok tt) as HF by (intros []; reflexivity). rewrite HF. cbn [bind].
  assert (Hl1 : length l1 = length l / 2).
  { unfold l1. rewrite skipn_length. pose proof (Nat.div_mod (length l) 2 ltac:(lia)). pose proof (Nat.mod_upper_bound (length l) 2 ltac:(lia)).
    assert ((length l + 1) / 2 = length l - length l / 2); [|lia].
    symmetry. apply Nat.div_unique with (r := length l + 1 - 2 * (length l - length l / 2)); lia. }
  unfold pool_destroy, pool_size. rewrite (vr_size W _ _ _ _ HR').
  destruct (destroy_loop_ok false (length l1) p l1 pre' post' 0 HR' HC' (le_n _)) as (p3 & pre3 & post3 & E3 & HR3 & HC3).
  rewrite E3. cbn [bind]. rewrite HF. cbn [bind]. rewrite Nat.sub_0_r, Hl1 in HR3. exists p3. splits; auto.
  - eapply vr_holds; eauto.
  - intros H2. rewrite (vr_size W _ _ _ _ HR2), Hl1.
    destruct (Nat.eqb_spec (length l / 2) 0) as [H0|]; auto. exfalso. pose proof (Nat.div_mod (length l) 2 ltac:(lia)).
    pose proof (Nat.mod_upper_bound (length l) 2 ltac:(lia)). lia.
Qed.

(** A pool fully populated with the objects 0..n-1, each held by a client. *)
Definition busy (n : nat) : pworld := mkPW (mkPool (mkVec (map Some (seq 0 n)) 0 n) 0) (rev (seq 0 n)).

Lemma populate_all (dbg : bool) n : (Z.of_nat n < 2 ^ W)%Z -> forall k, k <= n ->
  pexec W L (mkPW (pool_new n) []) (map (fun o => PPopulate (Some o)) (seq 0 k)) (repeat PUnit k)
    (mkPW (mkPool (mkVec (map Some (seq 0 k) ++ repeat None (n - k)) 0 k) 0) []).
Proof.
  intros Hn. induction k as [|k IH]; intros Hk.
  - simpl. rewrite Nat.sub_0_r. constructor.
  - rewrite seq_S, map_app, Nat.add_0_l. cbn [map]. replace (repeat PUnit (S k)) with (repeat PUnit k ++ [PUnit])
      by (rewrite <- repeat_cons; reflexivity).
    eapply (px_snoc W L dbg 0); [apply IH; lia|]. cbn [pstep ppool]. unfold populate, vfull, vsize, vmax. simpl pv. simpl vst. simpl vh. simpl vt.
    rewrite app_length, map_length, seq_length, repeat_length, Nat.sub_0_r.
    destruct (Nat.eqb_spec k (k + (n - k))); [lia|]. cbn [negb sassert bind].
    unfold emplace_back. simpl vst. simpl vh. simpl vt. unfold vmax. simpl vst. rewrite app_length, map_length, seq_length, repeat_length.
    destruct (Nat.leb_spec (k + (n - k)) k); [lia|]. cbn [andb bind]. simpl vst. simpl vt. simpl vh.
    rewrite app_length, map_length, seq_length, repeat_length.
    destruct (Nat.ltb_spec k (k + (n - k))); [|lia]. cbn [sassert bind].
    replace (n - k) with (S (n - S k)) by lia. cbn [repeat].
    rewrite wr_app by (rewrite map_length, seq_length; reflexivity). cbn [bind]. rewrite (map_app Some), <- app_assoc. cbn [app prefs plook].
    rewrite Nat.add_1_r. reflexivity.
Qed.

Lemma hold_all w : forall k, pexec W L w (map PHold (seq 0 k)) (repeat PUnit k) (mkPW (ppool w) (rev (seq 0 k) ++ prefs w)).
Proof.
  induction k as [|k IH].
  - simpl. destruct w. constructor.
  - rewrite seq_S, map_app, Nat.add_0_l. cbn [map]. replace (repeat PUnit (S k)) with (repeat PUnit k ++ [PUnit])
      by (rewrite <- repeat_cons; reflexivity).
    eapply (px_snoc W L true 0); [apply IH|]. cbn [pstep ppool prefs]. rewrite rev_app_distr. reflexivity.
Qed.

Lemma pexec_app w1 ops1 xs1 w2 ops2 xs2 w3 : pexec W L w1 ops1 xs1 w2 -> pexec W L w2 ops2 xs2 w3 ->
  pexec W L w1 (ops1 ++ ops2) (xs1 ++ xs2) w3.
Proof.
  intros H1 H2. induction H2 as [w|dbg fuel w ops xs w2' op x w3' _ IH Hs]; [now rewrite !app_nil_r|].
  rewrite !app_assoc. eapply px_snoc; eauto.
Qed.

Lemma busy_reachable n : (Z.of_nat n < 2 ^ W)%Z -> preachable W L (busy n) /\ pshows W (busy n) (map Some (seq 0 n)).
Proof.
  intros Hn. split.
  - exists n. do 2 eexists. split; auto. eapply pexec_app; [apply (populate_all true n Hn n (le_n _))|].
    rewrite Nat.sub_diag, app_nil_r. pose proof (hold_all (mkPW (mkPool (mkVec (map Some (seq 0 n)) 0 n) 0) []) n) as H.
    cbn [ppool prefs] in H. rewrite app_nil_r in H. exact H.
  - eapply vr_holds with (pre := []) (post := []). unfold busy. constructor; simpl; auto.
    + now rewrite app_nil_r.
    + now rewrite map_length, seq_length.
    + now rewrite map_length, seq_length.
Qed.

Lemma busy_stuck dbg n fuel : (Z.of_nat n < 2 ^ W)%Z -> 1 <= L -> L <= n ->
  pstep W L dbg fuel (busy n) PAcquire = Fuel.
Proof.
  intros Hn HL1 HL. destruct (busy_reachable n Hn) as [Hr Hl]. destruct (reach_rep _ _ Hr Hl) as (pre & post & HR).
  cbn [pstep]. unfold acquire. assert (is_fully_populated (ppool (busy n)) = true) as ->.
  { unfold busy, is_fully_populated, vfull, vsize, vmax. simpl. rewrite map_length, seq_length, Nat.sub_0_r. apply Nat.eqb_refl. }
  cbn [sassert bind].
  rewrite (scan_forever dbg (busy n) _ pre post HR HL1); [reflexivity| | |simpl; lia].
  - rewrite map_length, seq_length. exact HL.
  - intros i x Hi E. rewrite nth_error_map in E.
    assert (nth_error (seq 0 n) i = Some i) as Es.
    { rewrite (nth_error_nth' (seq 0 n) 0) by (rewrite seq_length; lia). rewrite seq_nth by lia. reflexivity. }
    rewrite Es in E. simpl in E. inversion E; subst. unfold free_in. simpl prefs. apply Nat.eqb_neq.
    assert (1 <= count_occ sptr_dec (map Some (seq 0 n)) (Some i)).
    { apply (count_occ_In sptr_dec). apply in_map, in_seq. lia. }
    assert (1 <= count_occ Nat.eq_dec (rev (seq 0 n)) i).
    { apply (count_occ_In Nat.eq_dec). apply in_rev. rewrite rev_involutive. apply in_seq. lia. }
    lia.
Qed.

End Proofs.
