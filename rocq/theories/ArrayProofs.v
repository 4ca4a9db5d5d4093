(** Proofs about array ownership. *)
From Coq Require Import List Arith Lia Bool.
From Verif Require Import Base ArrayModel ArraySpec.
Import ListNotations.

Section Proofs.
Context {A : Type}.
Variable zero : A.

Definition sh (b : block A) : bool * bool := (bext b, bfreed b).
Definition shape (h : heap A) : list (bool * bool) := map sh (blocks h).
Definition owns (x : option arr) (b : nat) : Prop := exists a, x = Some a /\ aint a = true /\ aptr a = Some b.
Definition own (o : list (option arr)) (i b : nat) : Prop := exists x, nth_error o i = Some x /\ owns x b.

Definition inv (s : list (bool * bool)) (o : list (option arr)) : Prop :=
  (forall i b, own o i b -> nth_error s b = Some (false, false)) /\
  (forall i j b, own o i b -> own o j b -> i = j) /\
  (forall b f, nth_error s b = Some (true, f) -> f = false).
Definition cov (s : list (bool * bool)) (o : list (option arr)) : Prop :=
  forall b, nth_error s b = Some (false, false) -> exists i, own o i b.

Lemma own_upd o i x j b : own (upd o i x) j b <-> (j = i /\ i < length o /\ owns x b) \/ (j <> i /\ own o j b).
Proof.
  unfold own. split.
  - intros (y & E & H). destruct (Nat.eq_dec j i) as [->|N].
    + assert (i < length o) as L. { rewrite <- (upd_length o i x). apply nth_error_Some. congruence. }
      rewrite nth_error_upd_eq in E by exact L. inversion E; subst. auto.
    + rewrite nth_error_upd_neq in E by auto. right. eauto.
  - intros [(-> & L & H)|(N & y & E & H)].
    + exists x. split; auto. now apply nth_error_upd_eq.
    + exists y. split; auto. now rewrite nth_error_upd_neq by auto.
Qed.

Lemma own_app o x j b : own (o ++ [x]) j b <-> own o j b \/ (j = length o /\ owns x b).
Proof.
  unfold own. split.
  - intros (y & E & H). destruct (lt_dec j (length o)) as [L|L].
    + rewrite nth_error_app1 in E by auto. left; eauto.
    + rewrite nth_error_app2 in E by lia. destruct (j - length o) as [|k] eqn:K; simpl in E; [|destruct k; discriminate].
      inversion E; subst. right. split; [lia|auto].
  - intros [(y & E & H)|[-> H]].
    + exists y. split; auto. rewrite nth_error_app1; auto. apply nth_error_Some. congruence.
    + exists x. split; auto. rewrite nth_error_app2, Nat.sub_diag by lia. reflexivity.
Qed.

Lemma owns_mk p n f b : owns (Some (mkArr p n f)) b <-> f = true /\ p = Some b.
Proof.
  unfold owns. split.
  - intros (a & E & H1 & H2). inversion E; subst. auto.
  - intros [-> ->]. eexists; split; [reflexivity|auto].
Qed.

Lemma owns_none b : ~ owns None b.
Proof. intros (a & E & _). discriminate. Qed.

Lemma shape_app h b : shape (add_block h b) = shape h ++ [sh b].
Proof. unfold shape, add_block. simpl. now rewrite map_app. Qed.

Lemma map_upd {B C} (f : B -> C) l i x : map f (upd l i x) = upd (map f l) i (f x).
Proof. revert i. induction l as [|y l IH]; intros [|i]; simpl; auto. now rewrite IH. Qed.

Lemma upd_same {B} (l : list B) i x : nth_error l i = Some x -> upd l i x = l.
Proof. revert i. induction l as [|y l IH]; intros [|i] H; simpl in *; try discriminate; [congruence|]. now rewrite IH. Qed.

Lemma store_shape h p k x h' : store h p k x = Ok h' -> shape h' = shape h /\ objs h' = objs h.
Proof.
  unfold store. destruct p as [b|]; [|discriminate]. destruct (nth_error (blocks h) b) as [[e [|] d]|] eqn:E; try discriminate.
  destruct (wr d k x) as [d'| | | |]; simpl; try discriminate. intros H; inversion H; subst. unfold shape; simpl. split; auto.
  rewrite map_upd. apply upd_same. rewrite nth_error_map, E. reflexivity.
Qed.

Lemma free_ok h p : (forall b, p = Some b -> nth_error (shape h) b = Some (false, false)) ->
  exists h', free h p = Ok h' /\ objs h' = objs h /\
    shape h' = match p with Some b => upd (shape h) b (false, true) | None => shape h end.
Proof.
  intros H. unfold free. destruct p as [b|]; [|eauto]. specialize (H b eq_refl). unfold shape in *. rewrite nth_error_map in H.
  destruct (nth_error (blocks h) b) as [[e f d]|]; simpl in H; [|discriminate]. inversion H; subst. unfold sh in *. simpl in *. subst.
  inversion H; subst. eexists; split; [reflexivity|]. simpl. split; auto. rewrite map_upd. reflexivity.
Qed.

Lemma free_inv h p h' : free h p = Ok h' -> objs h' = objs h /\
    shape h' = match p with Some b => upd (shape h) b (false, true) | None => shape h end /\
    (forall b, p = Some b -> nth_error (shape h) b = Some (false, false)).
Proof.
  unfold free. destruct p as [b|]; [|intros H; inversion H; subst; splits; auto; discriminate].
  unfold shape. destruct (nth_error (blocks h) b) as [[[|] [|] d]|] eqn:E; try discriminate.
  intros H; inversion H; subst. simpl. splits; auto.
  - rewrite map_upd. reflexivity.
  - intros b' X; inversion X; subst. rewrite nth_error_map, E. reflexivity.
Qed.

Lemma obj_ok (h : heap A) i a : obj h i = Ok a <-> nth_error (objs h) i = Some (Some a).
Proof. unfold obj. destruct (nth_error (objs h) i) as [[a'|]|]; split; intros H; congruence. Qed.

Lemma obj_lt (h : heap A) i a : obj h i = Ok a -> i < length (objs h).
Proof. rewrite obj_ok. intros H. apply nth_error_Some. congruence. Qed.

Lemma obj_own (h : heap A) i a : obj h i = Ok a -> forall b, own (objs h) i b <-> (aint a = true /\ aptr a = Some b).
Proof.
  rewrite obj_ok. intros H b. unfold own. rewrite H. split.
  - intros (x & E & a' & E' & H'). inversion E; subst. inversion H1; subst. auto.
  - intros H'. exists (Some a). split; auto. exists a. auto.
Qed.

Lemma own_lt s o i b : inv s o -> own o i b -> b < length s.
Proof. intros (I1 & _) H. apply I1 in H. apply nth_error_Some. congruence. Qed.

(** Effects on (shape, objects). *)
Lemma inv_alloc s o n : inv s o -> inv (s ++ [(false, false)]) (o ++ [Some (mkArr (Some (length s)) n true)]).
Proof.
  intros HI. pose proof HI as (I1 & I2 & I3). red; splits.
  - intros i b H. apply own_app in H as [H|[-> H]].
    + rewrite nth_error_app1; [eauto|eapply own_lt; eauto].
    + apply owns_mk in H as [_ H]. inversion H; subst. rewrite nth_error_app2, Nat.sub_diag; auto.
  - intros i j b H1 H2. apply own_app in H1. apply own_app in H2. rewrite owns_mk in *.
    destruct H1 as [H1|[-> [_ H1]]], H2 as [H2|[-> [_ H2]]]; eauto.
    + inversion H2; subst. apply own_lt with (s := s) in H1; auto; lia.
    + inversion H1; subst. apply own_lt with (s := s) in H2; auto; lia.
  - intros b f H. destruct (lt_dec b (length s)).
    + rewrite nth_error_app1 in H by auto. eauto.
    + rewrite nth_error_app2 in H by lia. destruct (b - length s) as [|k]; simpl in H; [discriminate|destruct k; discriminate].
Qed.

Lemma cov_alloc s o n : inv s o -> cov s o -> cov (s ++ [(false, false)]) (o ++ [Some (mkArr (Some (length s)) n true)]).
Proof.
  intros HI HC b H. destruct (lt_dec b (length s)).
  - rewrite nth_error_app1 in H by auto. destruct (HC b H) as (i & Hi). exists i. apply own_app. auto.
  - exists (length o). apply own_app. right. split; auto. apply owns_mk. split; auto. f_equal.
    assert (b < length (s ++ [(false, false)])) as L by (apply nth_error_Some; congruence). rewrite app_length in L. simpl in L. lia.
Qed.

(** Any rearrangement of ownership among objects without duplication. *)
Lemma inv_objs s o o' (f : nat -> nat) :
  inv s o -> (forall j b, own o' j b -> own o (f j) b) ->
  (forall i j b, own o' i b -> own o' j b -> f i = f j -> i = j) -> inv s o'.
Proof.
  intros (I1 & I2 & I3) H1 H2. red; splits; eauto.
Qed.

Lemma inv_free s o b i : inv s o -> own o i b -> forall o', (forall j c, own o' j c -> own o j c) -> (forall j, ~ own o' j b) ->
  inv (upd s b (false, true)) o'.
Proof.
  intros (I1 & I2 & I3) Hi o' H1 H2. red; splits.
  - intros j c Hc. rewrite nth_error_upd_neq; eauto. intros ->. eapply H2; eauto.
  - eauto.
  - intros c f E. destruct (Nat.eq_dec c b) as [->|N].
    + rewrite nth_error_upd_eq in E; [discriminate|]. apply I1 in Hi. apply nth_error_Some. congruence.
    + rewrite nth_error_upd_neq in E by auto. eauto.
Qed.

Lemma loop_shape p x n : forall k h h',
  (fix loop (k : nat) (h : heap A) : outcome (heap A) :=
     match k with 0 => Ok h | S k' => h1 <- store h p (n - k) x ;; loop k' h1 end) k h = Ok h' ->
  shape h' = shape h /\ objs h' = objs h.
Proof.
  induction k as [|k IH]; intros h h' H.
  - inversion H; auto.
  - destruct (store h p (n - S k) x) as [h1| | | |] eqn:E; simpl in H; try discriminate.
    apply IH in H as [H1 H2]. apply store_shape in E as [E1 E2]. split; congruence.
Qed.

Definition I (h : heap A) : Prop := inv (shape h) (objs h).
Definition C (h : heap A) : Prop := cov (shape h) (objs h).

Lemma length_shape (h : heap A) : length (shape h) = length (blocks h).
Proof. apply map_length. Qed.

Ltac inv_ok H := match type of H with
  | bind ?o _ = Ok _ => let E := fresh "E" in destruct o eqn:E; simpl in H; try discriminate H end.

Lemma step_inv h op x h' :
  I h -> swap_ok h op -> astep zero h op = Ok (x, h') -> I h' /\ (C h -> assign_ok h op -> C h').
Proof.
  intros HI Hsw Hst.
  assert (Hal : forall l n h', add_obj (add_block h (mkBlock false false l)) (mkArr (Some (length (blocks h))) n true) = h' ->
     I h' /\ (C h -> assign_ok h op -> C h')).
  { intros l n h0 <-. unfold I, C. change (objs (add_obj ?g ?a)) with (objs g ++ [Some a]).
    change (shape (add_obj ?g ?a)) with (shape g). rewrite shape_app. simpl objs. rewrite <- length_shape.
    change (sh (mkBlock false false l)) with (false, false). split; [now apply inv_alloc|]. intros HC _. now apply cov_alloc. }
  destruct op; cbn [astep] in Hst.
  - unfold arr_new, malloc in Hst. inversion Hst; subst. eapply Hal; reflexivity.
  - unfold arr_fill_new, malloc in Hst. inversion Hst; subst. eapply Hal; reflexivity.
  - unfold arr_list, malloc in Hst. inversion Hst; subst. eapply Hal; reflexivity.
  - unfold arr_external in Hst. inversion Hst; subst. clear Hst. unfold I, C.
    change (objs (add_obj ?g ?a)) with (objs g ++ [Some a]). change (shape (add_obj ?g ?a)) with (shape g). rewrite shape_app.
    simpl objs. change (sh (mkBlock true false l)) with (true, false). pose proof HI as (I1 & I2 & I3). split.
    + assert (Ho : forall i b, own (objs h ++ [Some (mkArr (Some (length (blocks h))) (length l) false)]) i b -> own (objs h) i b).
      { intros i b H. apply own_app in H as [H|[_ H]]; auto. apply owns_mk in H as [X _]. discriminate. }
      red; splits.
      * intros i b H. apply Ho in H. rewrite nth_error_app1; eauto. eapply own_lt; eauto.
      * eauto.
      * intros b f H. destruct (lt_dec b (length (shape h))).
        -- rewrite nth_error_app1 in H by auto. eauto.
        -- rewrite nth_error_app2 in H by lia. destruct (b - length (shape h)) as [|k]; simpl in H; [congruence|destruct k; discriminate].
    + intros HC _ b H. assert (nth_error (shape h) b = Some (false, false)) as H'.
      { destruct (lt_dec b (length (shape h))); [now rewrite nth_error_app1 in H|].
        rewrite nth_error_app2 in H by lia. destruct (b - length (shape h)) as [|k]; simpl in H; [congruence|destruct k; discriminate]. }
      destruct (HC b H') as (i & Hi). exists i. apply own_app. auto.
  - inv_ok Hst. inversion Hst; subst. unfold I, C.
    change (objs (add_obj ?g ?a)) with (objs g ++ [Some a]). change (shape (add_obj ?g ?a)) with (shape g). split.
    + apply (inv_objs _ (objs h) _ (fun j => j)); auto. intros j b H. apply own_app in H as [H|[_ H]]; auto.
      apply owns_mk in H as [X _]. discriminate.
    + intros HC _ b H. destruct (HC b H) as (j & Hj). exists j. apply own_app. auto.
  - inv_ok Hst. inversion Hst; subst. unfold I, C. destruct a as [p n f]. unfold add_obj, set_obj, shape. simpl. fold (shape h).
    pose proof (obj_own _ _ _ E) as Ho. simpl in Ho. pose proof (obj_lt _ _ _ E) as Hlt.
    assert (HO : forall j b, own (upd (objs h) i (Some (mkArr None n f)) ++ [Some (mkArr p n f)]) j b <->
       (j <> i /\ own (objs h) j b) \/ (j = length (objs h) /\ own (objs h) i b)).
    { intros j b. rewrite own_app, own_upd, !owns_mk, upd_length, Ho. split; intros H; intuition (try congruence; try lia). }
    split.
    + apply (inv_objs _ (objs h) _ (fun j => if j =? length (objs h) then i else j)); auto.
      * intros j b H. apply HO in H as [[N H]|[-> H]]; [|now rewrite Nat.eqb_refl].
        destruct (Nat.eqb_spec j (length (objs h))) as [->|]; auto.
        exfalso. destruct H as (y & Ey & _). assert (length (objs h) < length (objs h)) by (apply nth_error_Some; congruence). lia.
      * intros i1 j1 b H1 H2. apply HO in H1. apply HO in H2.
        destruct (Nat.eqb_spec i1 (length (objs h))), (Nat.eqb_spec j1 (length (objs h))); intuition congruence.
    + intros HC _ b H. destruct (HC b H) as (j & Hj). destruct (Nat.eq_dec j i) as [->|N].
      * exists (length (objs h)). apply HO. auto.
      * exists j. apply HO. auto.
  - inv_ok Hst. inv_ok Hst. destruct (Nat.eqb_spec i j) as [->|N]; inversion Hst; subst; [split; auto|].
    unfold I, C, set_obj, shape. simpl. fold (shape h). split.
    + apply (inv_objs _ (objs h) _ (fun j => j)); auto. intros k b H. apply own_upd in H as [(_ & _ & H)|[_ H]]; auto.
      apply owns_mk in H as [X _]. discriminate.
    + intros HC Ha b H. destruct (HC b H) as (k & Hk). exists k. apply own_upd. right. split; auto. intros ->.
      apply (obj_own _ _ _ E) in Hk as [K1 K2]. simpl in Ha. destruct Ha as [Ha|Ha]; [congruence|].
      apply obj_ok in E. destruct (Ha _ E); congruence.
  - inv_ok Hst. inv_ok Hst. destruct (Nat.eqb_spec i j) as [->|N]; inversion Hst; subst; [split; auto|].
    unfold I, C, set_obj, shape. simpl. fold (shape h).
    pose proof (obj_own _ _ _ E0) as Ho. pose proof (obj_lt _ _ _ E0) as Hlt. pose proof (obj_lt _ _ _ E) as Hlt'.
    assert (HO : forall k b, own (upd (upd (objs h) j (Some (mkArr None (amax a0) (aint a0)))) i (Some (mkArr (aptr a0) (amax a0) (aint a0)))) k b <->
       (k <> i /\ k <> j /\ own (objs h) k b) \/ (k = i /\ own (objs h) j b)).
    { intros k b. rewrite !own_upd, !owns_mk, upd_length, Ho. split; intros H; intuition (try congruence; try lia). }
    split.
    + apply (inv_objs _ (objs h) _ (fun k => if k =? i then j else k)); auto.
      * intros k b H. apply HO in H. destruct (Nat.eqb_spec k i); intuition congruence.
      * intros i1 j1 b H1 H2. apply HO in H1. apply HO in H2. destruct (Nat.eqb_spec i1 i), (Nat.eqb_spec j1 i); intuition congruence.
    + intros HC Ha b H. destruct (HC b H) as (k & Hk). destruct (Nat.eq_dec k j) as [->|Nj].
      * exists i. apply HO. auto.
      * exists k. apply HO. left. splits; auto. intros ->.
        apply (obj_own _ _ _ E) in Hk as [K1 K2]. simpl in Ha. destruct Ha as [Ha|Ha]; [congruence|].
        apply obj_ok in E. destruct (Ha _ E); congruence.
  - inv_ok Hst.
    destruct (if aint a then free h (aptr a) else Ok h) as [h1| | | |] eqn:E1; simpl in Hst; try discriminate.
    unfold arr_destroy in Hst. simpl in Hst. inversion Hst; subst. clear Hst.
    pose proof (obj_own _ _ _ E) as Ho. pose proof (obj_lt _ _ _ E) as Hlt. pose proof HI as (I1 & I2 & I3).
    assert (Hh1 : objs h1 = objs h /\ inv (shape h1) (upd (objs h) i None) /\ (cov (shape h) (objs h) -> cov (shape h1) (upd (objs h) i None))
       /\ length (blocks h1) = length (blocks h)).
    { destruct (aint a) eqn:EI.
      - apply free_inv in E1 as (X1 & X2 & X3). rewrite <- !length_shape. destruct (aptr a) as [b|] eqn:EP.
        + rewrite X2. splits; auto.
          * apply (inv_free _ (objs h) b i); auto.
            -- apply Ho. auto.
            -- intros k c H. apply own_upd in H as [(_ & _ & H)|[_ H]]; auto. now apply owns_none in H.
            -- intros k H. apply own_upd in H as [(_ & _ & H)|[N H]]; [now apply owns_none in H|]. apply N. eapply I2; eauto. apply Ho; auto.
          * intros HC c H. destruct (Nat.eq_dec c b) as [->|Nc].
            { rewrite nth_error_upd_eq in H; [discriminate|]. apply nth_error_Some. rewrite (X3 b eq_refl). discriminate. }
            rewrite nth_error_upd_neq in H by auto. destruct (HC c H) as (k & Hk). exists k. apply own_upd. right. split; auto.
            intros ->. apply Ho in Hk. intuition congruence.
          * apply upd_length.
        + rewrite X2. splits; auto.
          * apply (inv_objs _ (objs h) _ (fun j => j)); auto. intros k c H. apply own_upd in H as [(_ & _ & H)|[_ H]]; auto. now apply owns_none in H.
          * intros HC c H. destruct (HC c H) as (k & Hk). exists k. apply own_upd. right. split; auto. intros ->. apply Ho in Hk. intuition congruence.
      - inversion E1; subst. splits; auto.
        + apply (inv_objs _ (objs h1) _ (fun j => j)); auto. intros k c H. apply own_upd in H as [(_ & _ & H)|[_ H]]; auto. now apply owns_none in H.
        + intros HC c H. destruct (HC c H) as (k & Hk). exists k. apply own_upd. right. split; auto. intros ->. apply Ho in Hk. intuition congruence. }
    destruct Hh1 as (X1 & X2 & X3 & X4). unfold I, C.
    change (shape (set_obj ?g ?k ?y)) with (shape g). rewrite shape_app. unfold set_obj. simpl objs. rewrite X1.
    change (sh (mkBlock false false l)) with (false, false).
    assert (HO : forall k b, own (upd (objs h) i (Some (mkArr (Some (length (blocks h1))) (length l) true))) k b <->
       own (upd (objs h) i None) k b \/ (k = i /\ b = length (shape h1))).
    { intros k b. rewrite !own_upd, owns_mk, length_shape. pose proof (owns_none b). split; intros H'; intuition (try congruence; subst; auto).
       }
    destruct X2 as (J1 & J2 & J3). split.
    + red; splits.
      * intros k b H. apply HO in H as [H|[-> ->]].
        -- pose proof (J1 _ _ H) as H'. rewrite nth_error_app1; auto. apply nth_error_Some. congruence.
        -- rewrite nth_error_app2, Nat.sub_diag; auto.
      * intros k1 k2 b H1 H2. apply HO in H1. apply HO in H2.
        destruct H1 as [H1|[-> H1]], H2 as [H2|[-> H2]]; eauto.
        -- subst b. apply J1 in H1. assert (length (shape h1) < length (shape h1)) by (apply nth_error_Some; congruence). lia.
        -- subst b. apply J1 in H2. assert (length (shape h1) < length (shape h1)) by (apply nth_error_Some; congruence). lia.
      * intros b f H. destruct (lt_dec b (length (shape h1))).
        -- rewrite nth_error_app1 in H by auto. eauto.
        -- rewrite nth_error_app2 in H by lia. destruct (b - length (shape h1)) as [|k]; simpl in H; [congruence|destruct k; discriminate].
    + intros HC _ b H. destruct (lt_dec b (length (shape h1))).
      * rewrite nth_error_app1 in H by auto. destruct (X3 HC b H) as (k & Hk). exists k. apply HO. auto.
      * exists i. apply HO. right. split; auto.
        assert (b < length (shape h1 ++ [(false, false)])) as L by (apply nth_error_Some; congruence). rewrite app_length in L. simpl in L. lia.
  - inv_ok Hst. inv_ok Hst. inversion Hst; subst. clear Hst. unfold I, C, set_obj, shape. simpl. fold (shape h).
    pose proof (obj_own _ _ _ E) as Ho. pose proof (obj_own _ _ _ E0) as Ho0.
    pose proof (obj_lt _ _ _ E) as Hlt. pose proof (obj_lt _ _ _ E0) as Hlt0.
    apply obj_ok in E. apply obj_ok in E0. specialize (Hsw _ _ E E0).
    set (f := fun k => if k =? i then j else if k =? j then i else k).
    assert (HO : forall k b, own (upd (upd (objs h) i (Some (mkArr (aptr a0) (amax a) (aint a)))) j
        (Some (if i =? j then mkArr (aptr a0) (amax a) (aint a) else mkArr (aptr a) (amax a0) (aint a0)))) k b <-> own (objs h) (f k) b).
    { intros k b. rewrite !own_upd, upd_length. unfold f.
      destruct (Nat.eqb_spec i j) as [->|N].
      - assert (a0 = a) as -> by congruence. rewrite owns_mk.
        destruct (Nat.eqb_spec k j) as [->|]; [rewrite Ho|]; intuition (try congruence; try lia).
      - rewrite !owns_mk. destruct (Nat.eqb_spec k i) as [->|Nk]; [rewrite Ho0|destruct (Nat.eqb_spec k j) as [->|Nj]; [rewrite Ho|]];
          intuition (try congruence; try lia). }
    assert (Hf : forall k, f (f k) = k).
    { intros k. unfold f. destruct (Nat.eqb_spec k i); [destruct (Nat.eqb_spec j i); [|rewrite Nat.eqb_refl]; congruence|].
      destruct (Nat.eqb_spec k j); [rewrite Nat.eqb_refl; congruence|]. destruct (Nat.eqb_spec k i); [congruence|].
      destruct (Nat.eqb_spec k j); congruence. }
    split.
    + apply (inv_objs _ (objs h) _ f); auto.
      * intros k b H. now apply HO.
      * intros k1 k2 b _ _ H. rewrite <- (Hf k1), <- (Hf k2). now f_equal.
    + intros HC _ b H. destruct (HC b H) as (k & Hk). exists (f k). apply HO. now rewrite Hf.
  - inv_ok Hst. unfold arr_destroy in Hst.
    destruct (if aint a then free h (aptr a) else Ok h) as [h1| | | |] eqn:E1; simpl in Hst; try discriminate.
    inversion Hst; subst. clear Hst. unfold I, C. change (shape (set_obj ?g ?k ?y)) with (shape g). unfold set_obj. simpl objs.
    pose proof (obj_own _ _ _ E) as Ho. pose proof HI as (I1 & I2 & I3).
    destruct (aint a) eqn:EI.
    + apply free_inv in E1 as (X1 & X2 & X3). rewrite X1. destruct (aptr a) as [b|] eqn:EP.
      * rewrite X2. split.
        -- apply (inv_free _ (objs h) b i); auto.
           ++ apply Ho. auto.
           ++ intros k c H. apply own_upd in H as [(_ & _ & H)|[_ H]]; auto. now apply owns_none in H.
           ++ intros k H. apply own_upd in H as [(_ & _ & H)|[N H]]; [now apply owns_none in H|]. apply N. eapply I2; eauto. apply Ho; auto.
        -- intros HC _ c H. destruct (Nat.eq_dec c b) as [->|Nc].
           { rewrite nth_error_upd_eq in H; [discriminate|]. apply nth_error_Some. rewrite (X3 b eq_refl). discriminate. }
           rewrite nth_error_upd_neq in H by auto. destruct (HC c H) as (k & Hk). exists k. apply own_upd. right. split; auto.
           intros ->. apply Ho in Hk. intuition congruence.
      * rewrite X2. split.
        -- apply (inv_objs _ (objs h) _ (fun j => j)); auto. intros k c H. apply own_upd in H as [(_ & _ & H)|[_ H]]; auto. now apply owns_none in H.
        -- intros HC _ c H. destruct (HC c H) as (k & Hk). exists k. apply own_upd. right. split; auto. intros ->. apply Ho in Hk. intuition congruence.
    + inversion E1; subst. split.
      * apply (inv_objs _ (objs h1) _ (fun j => j)); auto. intros k c H. apply own_upd in H as [(_ & _ & H)|[_ H]]; auto. now apply owns_none in H.
      * intros HC _ c H. destruct (HC c H) as (k & Hk). exists k. apply own_upd. right. split; auto. intros ->. apply Ho in Hk. intuition congruence.
  - inv_ok Hst. inv_ok Hst. inversion Hst; subst. auto.
  - inv_ok Hst. inv_ok Hst. inversion Hst; subst. apply store_shape in E0 as [X1 X2]. unfold I, C. rewrite X1, X2. auto.
  - destruct (obj h i) as [a| | | |] eqn:E; cbn [bind] in Hst; try discriminate.
    match type of Hst with bind ?o _ = _ => destruct o as [h1| | | |] eqn:E0; simpl in Hst; try discriminate end.
    inversion Hst; subst. apply loop_shape in E0 as [X1 X2]. unfold I, C. rewrite X1, X2. auto.
  - inv_ok Hst. inversion Hst; subst. auto.
Qed.

Lemma prog_inv (P : heap A -> aop A -> Prop) h ops h' :
  (forall h op, P h op -> swap_ok h op) -> aprog zero P h ops h' -> I h ->
  I h' /\ ((forall h op, P h op -> assign_ok h op) -> C h -> C h').
Proof.
  intros HP Hp. induction Hp as [h|h op x h1 ops h2 Hop Hs Hp IH]; intros HI; auto.
  destruct (step_inv h op x h1 HI (HP _ _ Hop) Hs) as [HI1 HC1]. destruct (IH HI1) as [HI2 HC2]. split; auto.
Qed.

Lemma I_empty : I empty_heap.
Proof.
  assert (H : forall i b, ~ own [] i b) by (intros i b (x & E & _); destruct i; discriminate).
  unfold I, inv; splits; unfold shape; simpl.
  - intros i b X. now apply H in X.
  - intros i j b X. now apply H in X.
  - intros [|b] f; discriminate.
Qed.

Lemma C_empty : C empty_heap.
Proof. unfold C, cov, shape. simpl. intros [|b] H; discriminate. Qed.

(** No bad free. *)
Lemma progress h ops op :
  aprog zero swap_ok empty_heap ops h -> lifecycle op -> names_live h op ->
  exists x h', astep zero h op = Ok (x, h').
Proof.
  intros Hp Hl Hn. destruct (prog_inv swap_ok _ _ _ (fun _ _ H => H) Hp I_empty) as [HI _]. destruct HI as (I1 & _ & _).
  assert (HL : forall i, live h i -> exists a, obj h i = Ok a) by (intros i (a & E); exists a; now apply obj_ok).
  assert (HF : forall i a, obj h i = Ok a -> aint a = true -> exists h1, free h (aptr a) = Ok h1).
  { intros i a E Ei. destruct (free_ok h (aptr a)) as (h1 & E1 & _); eauto. intros b Eb. apply (I1 i). apply (obj_own _ _ _ E). auto. }
  destruct op; simpl in Hl, Hn; try contradiction; cbn [astep]; try (eexists; eexists; reflexivity).
  - destruct (HL _ Hn) as (a & ->). eexists; eexists; reflexivity.
  - destruct (HL _ Hn) as (a & ->). eexists; eexists; reflexivity.
  - destruct Hn as [H1 H2]. destruct (HL _ H1) as (a & ->), (HL _ H2) as (b & ->). cbn [bind]. destruct (i =? j); eexists; eexists; reflexivity.
  - destruct Hn as [H1 H2]. destruct (HL _ H1) as (a & ->), (HL _ H2) as (b & ->). cbn [bind]. destruct (i =? j); eexists; eexists; reflexivity.
  - destruct (HL _ Hn) as (a & E). rewrite E. cbn [bind]. destruct (aint a) eqn:Ei.
    + destruct (HF _ _ E Ei) as (h1 & ->). cbn [bind]. eexists; eexists; reflexivity.
    + eexists; eexists; reflexivity.
  - destruct Hn as [H1 H2]. destruct (HL _ H1) as (a & ->), (HL _ H2) as (b & ->). eexists; eexists; reflexivity.
  - destruct (HL _ Hn) as (a & E). rewrite E. cbn [bind]. unfold arr_destroy. destruct (aint a) eqn:Ei.
    + destruct (HF _ _ E Ei) as (h1 & ->). eexists; eexists; reflexivity.
    + eexists; eexists; reflexivity.
  - destruct (HL _ Hn) as (a & ->). eexists; eexists; reflexivity.
Qed.

Lemma external_kept h ops k b :
  aprog zero swap_ok empty_heap ops h -> nth_error (blocks h) k = Some b -> bext b = true -> bfreed b = false.
Proof.
  intros Hp E Hb. destruct (prog_inv swap_ok _ _ _ (fun _ _ H => H) Hp I_empty) as [(_ & _ & I3) _].
  apply (I3 k). unfold shape. rewrite nth_error_map, E. simpl. unfold sh. now rewrite Hb.
Qed.

Lemma no_leak h ops k b :
  aprog zero (fun h op => swap_ok h op /\ assign_ok h op) empty_heap ops h -> (forall i, ~ live h i) ->
  nth_error (blocks h) k = Some b -> bext b = false -> bfreed b = true.
Proof.
  intros Hp Hd E Hb.
  destruct (prog_inv _ _ _ _ (fun h op (H : swap_ok h op /\ assign_ok h op) => proj1 H) Hp I_empty) as [_ HC].
  specialize (HC (fun _ _ H => proj2 H) C_empty). destruct (bfreed b) eqn:Ef; auto. exfalso.
  destruct (HC k) as (i & x & Ex & a & -> & _).
  - unfold shape. rewrite nth_error_map, E. simpl. unfold sh. now rewrite Hb, Ef.
  - apply (Hd i). exists a. exact Ex.
Qed.

(** A copy shows what the original shows; both write to the same cells. *)
Lemma copy_aliases h i x h' k :
  astep zero h (ACopy i) = Ok (x, h') -> x = AObj (length (objs h)) /\
  (forall r, astep zero h (AGet i k) = Ok (r, h) -> astep zero h' (AGet (length (objs h)) k) = Ok (r, h')) /\
  (forall y h2, astep zero h' (ASet (length (objs h)) k y) = Ok (AUnit, h2) -> astep zero h2 (AGet i k) = Ok (AVal y, h2)).
Proof.
  cbn [astep]. destruct (obj h i) as [a| | | |] eqn:E; simpl; try discriminate. intros H; inversion H; subst. clear H.
  assert (obj (add_obj h (arr_copy a)) (length (objs h)) = Ok (arr_copy a)) as E1.
  { apply obj_ok. simpl. rewrite nth_error_app2, Nat.sub_diag by lia. reflexivity. }
  assert (obj (add_obj h (arr_copy a)) i = Ok a) as E2.
  { pose proof (obj_lt _ _ _ E). apply obj_ok in E. apply obj_ok. simpl. now rewrite nth_error_app1 by auto. }
  splits; auto.
  - intros r. rewrite E1. cbn [bind]. change (aptr (arr_copy a)) with (aptr a).
    unfold load. change (blocks (add_obj h (arr_copy a))) with (blocks h).
    destruct (aptr a) as [b|]; simpl; [|discriminate].
    destruct (nth_error (blocks h) b) as [[e [|] d]|]; simpl; try discriminate.
    destruct (rd d k); simpl; try discriminate. intros X; inversion X; subst. reflexivity.
  - intros y h2. rewrite E1. cbn [bind]. change (aptr (arr_copy a)) with (aptr a). unfold store.
    change (blocks (add_obj h (arr_copy a))) with (blocks h). destruct (aptr a) as [b|] eqn:EP; simpl; [|discriminate].
    destruct (nth_error (blocks h) b) as [[e [|] d]|] eqn:Eb; simpl; try discriminate.
    unfold wr. destruct (k <? length d) eqn:EK; simpl; try discriminate. intros X; inversion X; subst. clear X.
    apply Nat.ltb_lt in EK. apply obj_ok in E2. simpl in E2. unfold obj. simpl. rewrite E2. cbn [bind]. rewrite EP. unfold load. simpl.
    rewrite nth_error_upd_eq by (apply nth_error_Some; congruence). rewrite (rd_ok _ _ y); [reflexivity|].
    now apply nth_error_upd_eq.
Qed.

End Proofs.
