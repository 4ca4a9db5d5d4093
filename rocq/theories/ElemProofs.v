(** Arrays refine lists as long as they are not copied. *)
From Coq Require Import List Arith Lia Bool.
From Verif Require Import Base ArrayModel ElemSpec ArrayProofs.
Import ListNotations.

Section P.
Context {A : Type}.
Variable zero : A.

Definition rep (B : list (block A)) (x : elems) (a : arr) : Prop :=
  aint a = negb (is_ext x) /\ amax a = size_of x /\
  match x with
  | Here e l => exists b, aptr a = Some b /\ nth_error B b = Some (mkBlock e false l)
  | Gone _ _ => aptr a = None
  end.
Definition orep (B : list (block A)) (x : option (option elems)) (a : option (option arr)) : Prop :=
  match x, a with
  | Some (Some x), Some (Some a) => rep B x a
  | Some None, Some None => True
  | None, None => True
  | _, _ => False
  end.
Definition ptr (o : list (option arr)) (i : nat) : option nat := match nth_error o i with Some (Some a) => aptr a | _ => None end.
Definition R (h : heap A) (s : world) : Prop :=
  (forall i, orep (blocks h) (nth_error s i) (nth_error (objs h) i)) /\
  (forall i j b, ptr (objs h) i = Some b -> ptr (objs h) j = Some b -> i = j).

Lemma orep_length (B : list (block A)) (s : world) o : (forall i, orep B (nth_error s i) (nth_error o i)) -> length o = length s.
Proof.
  revert o. induction s as [|x s IH]; intros [|y o] H; auto; [specialize (H 0); contradiction|specialize (H 0); simpl in H; destruct x; contradiction|].
  simpl. f_equal. apply IH. intros i. exact (H (S i)).
Qed.
Lemma R_length h s : R h s -> length (objs h) = length s. Proof. intros [H _]. eapply orep_length; eauto. Qed.
Lemma R_obj h s i x : R h s -> nth_error s i = Some (Some x) -> exists a, obj h i = Ok a /\ rep (blocks h) x a /\ nth_error (objs h) i = Some (Some a) /\ i < length (objs h).
Proof.
  intros [H _] E. specialize (H i). rewrite E in H. destruct (nth_error (objs h) i) as [[a|]|] eqn:Eo; try contradiction. exists a. unfold obj. rewrite Eo.
  split; auto. split; auto. split; auto. apply nth_error_Some. congruence.
Qed.
Lemma ptr_lt h s i b : R h s -> ptr (objs h) i = Some b -> b < length (blocks h).
Proof.
  intros [H _] E. specialize (H i). unfold ptr in E. destruct (nth_error (objs h) i) as [[a|]|]; try discriminate. destruct (nth_error s i) as [[x|]|]; try contradiction.
  destruct H as (_ & _ & H). destruct x as [e l|e n]; [|congruence]. destruct H as (b' & E1 & E2). assert (b' = b) by congruence. subst. apply nth_error_Some. congruence.
Qed.
(** A list of objects with one replaced or one added *)
Lemma nth_upd_cases {T} (l : list T) i j x : i < length l -> nth_error (upd l i x) j = if i =? j then Some x else nth_error l j.
Proof.
  intros H. rewrite nth_error_upd. destruct (Nat.eqb_spec i j) as [->|]; [|reflexivity]. destruct (Nat.ltb_spec j (length l)); [reflexivity|lia].
Qed.
Lemma nth_app_cases {T} (l : list T) x j : nth_error (l ++ [x]) j = if j =? length l then Some x else nth_error l j.
Proof.
  destruct (Nat.eqb_spec j (length l)) as [->|N]; [rewrite nth_error_app2, Nat.sub_diag by lia; reflexivity|]. destruct (Nat.lt_ge_cases j (length l)) as [H|H]; [now rewrite nth_error_app1|].
  rewrite nth_error_app2 by lia. destruct (j - length l) as [|k] eqn:E; [lia|]. simpl. destruct k; symmetry; apply nth_error_None; lia.
Qed.
Lemma orep_app (B : list (block A)) b x a : orep B x a -> orep (B ++ [b]) x a.
Proof.
  destruct x as [[x|]|], a as [[a|]|]; auto. intros (H1 & H2 & H3). split; auto. split; auto. destruct x; auto. destruct H3 as (c & E1 & E2). exists c. split; auto.
  rewrite nth_error_app1; auto. apply nth_error_Some. congruence.
Qed.

(** A new array *)
Lemma R_new h s e l : R h s -> R (add_obj (add_block h (mkBlock e false l)) (mkArr (Some (length (blocks h))) (length l) (negb e))) (s ++ [Some (Here e l)]).
Proof.
  intros HR. pose proof (R_length _ _ HR) as HL. pose proof HR as [H1 H2]. split; cbn [add_obj add_block blocks objs].
  - intros i. rewrite !nth_app_cases, HL. destruct (i =? length s); [|apply orep_app, H1]. simpl. split; auto. split; auto. exists (length (blocks h)). split; auto.
    rewrite nth_app_cases, Nat.eqb_refl. reflexivity.
  - intros i j b. unfold ptr. rewrite !nth_app_cases. fold (ptr (objs h) i). fold (ptr (objs h) j).
    destruct (Nat.eqb_spec i (length (objs h))), (Nat.eqb_spec j (length (objs h))); cbn [aptr]; intros Ei Ej; try lia.
    + assert (b = length (blocks h)) by congruence. apply (ptr_lt h s) in Ej; auto. lia.
    + assert (b = length (blocks h)) by congruence. apply (ptr_lt h s) in Ei; auto. lia.
    + eauto.
Qed.
(** The objects rearranged: every new object stands for one of the old ones, or for none *)
Lemma R_objs h s (O' : list (option arr)) s' :
  R h s -> (forall i, orep (blocks h) (nth_error s' i) (nth_error O' i)) ->
  (forall i j b, ptr O' i = Some b -> ptr O' j = Some b -> i = j) -> R (mkHeap (blocks h) O') s'.
Proof. intros _ H1 H2. split; auto. Qed.
(** The contents of the storage of one array replaced *)
Lemma R_write h s i e l a b l' : R h s -> nth_error s i = Some (Some (Here e l)) -> nth_error (objs h) i = Some (Some a) -> aptr a = Some b -> length l' = length l ->
  R (mkHeap (upd (blocks h) b (mkBlock e false l')) (objs h)) (upd s i (Some (Here e l'))).
Proof.
  intros HR Es Eo Ea El. pose proof (R_length _ _ HR) as HL. pose proof HR as [H1 H2].
  assert (Hi : i < length s) by (apply nth_error_Some; congruence). pose proof (H1 i) as Hi1. rewrite Es, Eo in Hi1. destruct Hi1 as (A1 & A2 & (b' & E1 & E2)).
  assert (b' = b) by congruence. subst b'. assert (Hb : b < length (blocks h)) by (apply nth_error_Some; congruence).
  split; cbn [blocks objs]; auto. intros j. rewrite (nth_upd_cases s) by auto. destruct (Nat.eqb_spec i j) as [<-|N].
  - rewrite Eo. split; [exact A1|]. split; [simpl in *; congruence|]. exists b. split; auto. apply nth_error_upd_eq; auto.
  - specialize (H1 j). destruct (nth_error s j) as [[x|]|], (nth_error (objs h) j) as [[a'|]|] eqn:Ej; auto. destruct H1 as (B1 & B2 & B3). split; auto. split; auto.
    destruct x as [e' l''|]; auto. destruct B3 as (c & C1 & C2). exists c. split; auto. rewrite nth_upd_cases by auto. destruct (Nat.eqb_spec b c) as [<-|]; auto.
    exfalso. apply N. apply (H2 i j b); unfold ptr; [now rewrite Eo|now rewrite Ej].
Qed.
Lemma load_here h s i e l a k x : R h s -> nth_error s i = Some (Some (Here e l)) -> nth_error (objs h) i = Some (Some a) -> nth_error l k = Some x ->
  load h (aptr a) k = Ok x.
Proof.
  intros [H1 _] Es Eo El. specialize (H1 i). rewrite Es, Eo in H1. destruct H1 as (_ & _ & (b & E1 & E2)). unfold load. rewrite E1, E2. now apply rd_ok.
Qed.
(** fill *)
Lemma upd_nth_repeat {T} (x : T) : forall k (l : list T), k <= length l -> firstn (length l - k) l = repeat x (length l - k) -> k > 0 ->
  firstn (length l - (k - 1)) (upd l (length l - k) x) = repeat x (length l - (k - 1)).
Proof.
  intros k l Hk H Hp. apply nth_error_ext. intros j. rewrite nth_error_firstn. destruct (Nat.ltb_spec j (length l - (k - 1))) as [Hj|Hj].
  - rewrite nth_error_repeat_lt by auto. rewrite nth_upd_cases by lia. destruct (Nat.eqb_spec (length l - k) j) as [|N]; auto.
    assert (E : nth_error (firstn (length l - k) l) j = Some x) by (rewrite H; apply nth_error_repeat_lt; lia). rewrite nth_error_firstn in E.
    destruct (Nat.ltb_spec j (length l - k)); [exact E|discriminate].
  - symmetry. apply nth_error_None. rewrite repeat_length. lia.
Qed.
Lemma fill_loop b e O x : forall k B (l : list A), k <= length l -> nth_error B b = Some (mkBlock e false l) -> firstn (length l - k) l = repeat x (length l - k) ->
  (fix loop (k : nat) (h : heap A) : outcome (heap A) :=
     match k with 0 => Ok h | S k' => h1 <- store h (Some b) (length l - k) x ;; loop k' h1 end) k (mkHeap B O)
  = Ok (mkHeap (upd B b (mkBlock e false (repeat x (length l)))) O).
Proof.
  induction k as [|k IH]; intros B l Hk EB Hf.
  - rewrite Nat.sub_0_r, firstn_all in Hf. rewrite <- Hf. rewrite upd_same by auto. reflexivity.
  - assert (Hs : store (mkHeap B O) (Some b) (length l - S k) x = Ok (mkHeap (upd B b (mkBlock e false (upd l (length l - S k) x))) O)).
    { unfold store. cbn [blocks objs]. rewrite EB. rewrite wr_ok by lia. reflexivity. }
    rewrite Hs. cbn [bind]. assert (Hb : b < length B) by (apply nth_error_Some; congruence).
    set (l' := upd l (length l - S k) x). assert (El : length l' = length l) by apply upd_length.
    specialize (IH (upd B b (mkBlock e false l')) l' ltac:(lia) ltac:(apply nth_error_upd_eq; auto)). rewrite El in IH. rewrite IH.
    + f_equal. f_equal. apply nth_error_ext. intros j. rewrite !nth_error_upd, upd_length. destruct ((b =? j) && (j <? length B)) eqn:E; auto.
    + pose proof (upd_nth_repeat x (S k) l Hk Hf ltac:(lia)) as H. replace (S k - 1) with k in H by lia. exact H.
Qed.

Lemma orep_moved (B : list (block A)) x a : rep B x a -> rep B (moved_from x) (mkArr None (amax a) (aint a)).
Proof. intros (H1 & H2 & _). split; [exact H1|]. split; [exact H2|reflexivity]. Qed.
Lemma ptr_upd o i a j : i < length o -> ptr (upd o i (Some a)) j = if i =? j then aptr a else ptr o j.
Proof. intros H. unfold ptr. rewrite nth_upd_cases by auto. destruct (i =? j); reflexivity. Qed.
Lemma ptr_none o i j : i < length o -> ptr (upd o i None) j = if i =? j then None else ptr o j.
Proof. intros H. unfold ptr. rewrite nth_upd_cases by auto. destruct (i =? j); reflexivity. Qed.
Lemma ptr_app o a j : ptr (o ++ [Some a]) j = if j =? length o then aptr a else ptr o j.
Proof. unfold ptr. rewrite nth_app_cases. destruct (j =? length o); reflexivity. Qed.
(** Freeing the storage of an array that is about to forget it *)
Lemma free_here h s i x a : R h s -> nth_error s i = Some (Some x) -> nth_error (objs h) i = Some (Some a) ->
  exists h1, (if aint a then free h (aptr a) else Ok h) = Ok h1 /\ objs h1 = objs h /\ length (blocks h1) = length (blocks h) /\
    forall j y, j <> i -> orep (blocks h) y (nth_error (objs h) j) -> orep (blocks h1) y (nth_error (objs h) j).
Proof.
  intros HR Es Eo. pose proof HR as [H1 H2]. pose proof (H1 i) as Hi. rewrite Es, Eo in Hi. destruct Hi as (A1 & A2 & A3).
  destruct (aint a) eqn:Ea; [|exists h; auto]. destruct x as [e l|e n].
  - destruct A3 as (b & E1 & E2). rewrite E1. simpl in A1. destruct e; [discriminate|]. unfold free. rewrite E2. eexists. split; [reflexivity|]. cbn [objs blocks].
    split; auto. split; [apply upd_length|]. intros j y N Ho. assert (Hb : b < length (blocks h)) by (apply nth_error_Some; congruence).
    destruct y as [[y|]|], (nth_error (objs h) j) as [[a'|]|] eqn:Ej; auto. destruct Ho as (B1 & B2 & B3). split; auto. split; auto. destruct y as [e' l'|]; auto.
    destruct B3 as (c & C1 & C2). exists c. split; auto. rewrite nth_upd_cases by auto. destruct (Nat.eqb_spec b c) as [<-|]; auto.
    exfalso. apply N. apply (H2 j i b); unfold ptr; [now rewrite Ej|now rewrite Eo].
  - rewrite A3. exists h. split; [reflexivity|]. auto.
Qed.

Lemma step_right h s op x s' : R h s -> lstep zero s op = Some (x, s') -> exists h', astep zero h op = Ok (x, h') /\ R h' s'.
Proof.
  intros HR E. pose proof (R_length _ _ HR) as HL. pose proof HR as [H1 H2].
  destruct op as [n|n v|l|l|i|i|i j|i j|i l|i j|i|i k|i k v|i v|i]; cbn [lstep] in E; try discriminate.
  - inversion E; subst. eexists. cbn [astep arr_new malloc]. rewrite HL. split; [reflexivity|]. pose proof (R_new h s false (repeat zero n) HR) as H. rewrite repeat_length in H. exact H.
  - inversion E; subst. eexists. cbn [astep arr_fill_new malloc]. rewrite HL. split; [reflexivity|]. pose proof (R_new h s false (repeat v n) HR) as H. rewrite repeat_length in H. exact H.
  - inversion E; subst. eexists. cbn [astep arr_list malloc]. rewrite HL. split; [reflexivity|]. exact (R_new h s false l HR).
  - inversion E; subst. eexists. cbn [astep arr_external]. rewrite HL. split; [reflexivity|]. exact (R_new h s true l HR).
  - (* move *) destruct (nth_error s i) as [[y|]|] eqn:Ei; try discriminate. inversion E; subst. destruct (R_obj _ _ _ _ HR Ei) as (a & Eo & Hrep & En & Hi).
    cbn [astep]. rewrite Eo. cbn [bind arr_move]. rewrite HL. eexists. split; [reflexivity|]. unfold add_obj, set_obj. cbn [blocks objs]. apply (R_objs h s); auto.
    + intros j. rewrite !nth_app_cases, !upd_length, HL. destruct (j =? length s); [simpl; destruct Hrep as (B1 & B2 & B3); split; auto|].
      rewrite !nth_upd_cases by lia. destruct (i =? j); [|apply H1]. now apply orep_moved.
    + intros j1 j2 b. rewrite !ptr_app, !upd_length, !ptr_upd by auto. cbn [aptr].
      assert (Pi : ptr (objs h) i = aptr a) by (unfold ptr; now rewrite En).
      destruct (Nat.eqb_spec j1 (length (objs h))), (Nat.eqb_spec j2 (length (objs h))), (Nat.eqb_spec i j1), (Nat.eqb_spec i j2); intros P1 P2; try lia; try congruence; eauto;
        exfalso; [assert (i = j2) by (apply (H2 _ _ b); congruence)|assert (i = j1) by (apply (H2 _ _ b); congruence)]; congruence.
  - (* move assignment *) destruct (nth_error s i) as [[y|]|] eqn:Ei; try discriminate. destruct (nth_error s j) as [[z|]|] eqn:Ej; try discriminate. inversion E; subst.
    destruct (R_obj _ _ _ _ HR Ei) as (a & Eo & Hrep & En & Hi). destruct (R_obj _ _ _ _ HR Ej) as (a2 & Eo2 & Hrep2 & En2 & Hj).
    cbn [astep]. rewrite Eo, Eo2. cbn [bind]. destruct (Nat.eqb_spec i j) as [->|N]; [eexists; split; [reflexivity|exact HR]|]. cbn [arr_move].
    eexists. split; [reflexivity|]. unfold set_obj. cbn [blocks objs]. apply (R_objs h s); auto.
    + intros k. rewrite !(nth_upd_cases (upd _ _ _)) by (rewrite upd_length; lia). destruct (i =? k); [destruct Hrep2 as (B1 & B2 & B3); split; auto|].
      rewrite !nth_upd_cases by lia. destruct (j =? k); [|apply H1]. now apply orep_moved.
    + intros j1 j2 b. rewrite !(ptr_upd (upd _ _ _)) by (rewrite upd_length; auto). rewrite !ptr_upd by auto. cbn [aptr].
      assert (Pj : ptr (objs h) j = aptr a2) by (unfold ptr; now rewrite En2).
      destruct (Nat.eqb_spec i j1), (Nat.eqb_spec i j2), (Nat.eqb_spec j j1), (Nat.eqb_spec j j2); intros P1 P2; try congruence; eauto;
        exfalso; [assert (j = j2) by (apply (H2 _ _ b); congruence)|assert (j = j1) by (apply (H2 _ _ b); congruence)]; congruence.
  - (* assignment of a list *) destruct (nth_error s i) as [[y|]|] eqn:Ei; try discriminate. inversion E; subst. destruct (R_obj _ _ _ _ HR Ei) as (a & Eo & Hrep & En & Hi).
    cbn [astep]. rewrite Eo. cbn [bind]. destruct (free_here h s i y a HR Ei En) as (h1 & E1 & E2 & E3 & E4). rewrite E1. cbn [bind arr_list malloc arr_move arr_destroy free aint aptr].
    eexists. split; [reflexivity|]. unfold set_obj, add_block. cbn [blocks objs]. rewrite E2. split; cbn [blocks objs].
    + intros j. rewrite !nth_upd_cases by lia. destruct (Nat.eqb_spec i j) as [<-|N]; [|apply orep_app, E4; auto]. split; auto. split; auto. exists (length (blocks h1)). split; auto.
      rewrite nth_app_cases, Nat.eqb_refl. reflexivity.
    + intros j1 j2 b. rewrite !ptr_upd by auto. cbn [aptr].
      destruct (Nat.eqb_spec i j1), (Nat.eqb_spec i j2); intros P1 P2; try congruence; eauto; exfalso; (assert (b = length (blocks h)) by congruence);
        [apply (ptr_lt h s) in P2; auto; lia|apply (ptr_lt h s) in P1; auto; lia].
  - (* swap *) destruct (nth_error s i) as [[y|]|] eqn:Ei; try discriminate. destruct (nth_error s j) as [[z|]|] eqn:Ej; try discriminate.
    destruct ((size_of y =? size_of z) && Bool.eqb (is_ext y) (is_ext z)) eqn:Es; [|discriminate]. inversion E; subst. apply andb_true_iff in Es as [Es1 Es2]. apply Nat.eqb_eq in Es1. apply eqb_prop in Es2.
    destruct (R_obj _ _ _ _ HR Ei) as (a & Eo & Hrep & En & Hi). destruct (R_obj _ _ _ _ HR Ej) as (a2 & Eo2 & Hrep2 & En2 & Hj).
    cbn [astep]. rewrite Eo, Eo2. cbn [bind]. eexists. split; [reflexivity|]. unfold set_obj. cbn [blocks objs]. apply (R_objs h s); auto.
    + intros k. rewrite !(nth_upd_cases (upd _ _ _)) by (rewrite upd_length; lia). destruct Hrep as (B1 & B2 & B3), Hrep2 as (C1 & C2 & C3). destruct (Nat.eqb_spec j k) as [<-|N].
      * destruct (Nat.eqb_spec i j) as [<-|N']; simpl; (split; [|split]); cbn [aint amax aptr]; try congruence; auto. assert (a2 = a) by congruence. subst. assert (z = y) by congruence. subst. exact B3.
      * rewrite !nth_upd_cases by lia. destruct (i =? k); [|apply H1]. split; [|split]; cbn [aint amax aptr]; try congruence; auto.
    + intros j1 j2 b. rewrite !(ptr_upd (upd _ _ _)) by (rewrite upd_length; auto). rewrite !ptr_upd by auto. cbn [aptr].
      assert (Pj : ptr (objs h) j = aptr a2) by (unfold ptr; now rewrite En2). assert (Pi : ptr (objs h) i = aptr a) by (unfold ptr; now rewrite En).
      destruct (Nat.eq_dec i j) as [<-|Nij].
      * assert (a2 = a) by congruence. subst a2. rewrite Nat.eqb_refl. cbn [aptr]. destruct (Nat.eqb_spec i j1), (Nat.eqb_spec i j2); intros P1 P2; subst; auto; try (apply (H2 _ _ b); congruence).
      * rewrite (proj2 (Nat.eqb_neq i j) Nij). cbn [aptr].
        pose proof (H2 i j b) as K1. pose proof (H2 i j1 b) as K2. pose proof (H2 i j2 b) as K3. pose proof (H2 j j1 b) as K4. pose proof (H2 j j2 b) as K5. pose proof (H2 j1 j2 b) as K6.
        rewrite Pi, Pj in *. clear - K1 K2 K3 K4 K5 K6 Nij.
        destruct (Nat.eqb_spec j j1), (Nat.eqb_spec j j2), (Nat.eqb_spec i j1), (Nat.eqb_spec i j2); intros P1 P2; try congruence; intuition congruence.
  - (* destruction *) destruct (nth_error s i) as [[y|]|] eqn:Ei; try discriminate. inversion E; subst. destruct (R_obj _ _ _ _ HR Ei) as (a & Eo & Hrep & En & Hi).
    cbn [astep]. rewrite Eo. cbn [bind]. destruct (free_here h s i y a HR Ei En) as (h1 & E1 & E2 & E3 & E4). unfold arr_destroy. rewrite E1. cbn [bind].
    eexists. split; [reflexivity|]. unfold set_obj. rewrite E2. split; cbn [blocks objs].
    + intros j. rewrite !nth_upd_cases by lia. destruct (Nat.eqb_spec i j) as [<-|N]; [simpl; trivial|apply E4; auto].
    + intros j1 j2 b. rewrite !ptr_none by auto. destruct (Nat.eqb_spec i j1), (Nat.eqb_spec i j2); intros P1 P2; try congruence; eauto.
  - (* get *) destruct (nth_error s i) as [[[e l|]|]|] eqn:Ei; try discriminate. destruct (nth_error l k) as [v|] eqn:Ek; [|discriminate]. inversion E; subst.
    destruct (R_obj _ _ _ _ HR Ei) as (a & Eo & Hrep & En & Hi). cbn [astep]. rewrite Eo. cbn [bind]. rewrite (load_here h _ i e l a k v HR Ei En Ek). cbn [bind]. exists h. auto.
  - (* set *) destruct (nth_error s i) as [[[e l|]|]|] eqn:Ei; try discriminate. destruct (Nat.ltb_spec k (length l)) as [Hk|]; [|discriminate]. inversion E; subst.
    destruct (R_obj _ _ _ _ HR Ei) as (a & Eo & Hrep & En & Hi). cbn [astep]. rewrite Eo. cbn [bind]. destruct Hrep as (_ & _ & (b & E1 & E2)). unfold store. rewrite E1, E2, wr_ok by auto.
    cbn [bind]. eexists. split; [reflexivity|]. eapply R_write; eauto. apply upd_length.
  - (* fill *) destruct (nth_error s i) as [[[e l|]|]|] eqn:Ei; try discriminate. inversion E; subst.
    destruct (R_obj _ _ _ _ HR Ei) as (a & Eo & Hrep & En & Hi). cbn [astep]. rewrite Eo. cbn [bind]. destruct Hrep as (_ & Em & (b & E1 & E2)). rewrite E1, Em. cbn [size_of].
    pose proof (fill_loop b e (objs h) v (length l) (blocks h) l (le_n _) E2) as HF. rewrite Nat.sub_diag in HF. specialize (HF eq_refl). destruct h as [B O]. cbn [blocks objs] in *.
    rewrite HF. cbn [bind]. eexists. split; [reflexivity|]. eapply (R_write (mkHeap B O)); eauto. apply repeat_length.
  - (* size *) destruct (nth_error s i) as [[y|]|] eqn:Ei; try discriminate. inversion E; subst.
    destruct (R_obj _ _ _ _ HR Ei) as (a & Eo & Hrep & En & Hi). cbn [astep]. rewrite Eo. cbn [bind]. destruct Hrep as (_ & Em & _). rewrite Em. exists h. auto.
Qed.
Lemma run_right : forall ops h s xs s', R h s -> lrun zero s ops = Some (xs, s') -> exists h', arun zero h ops = Ok (xs, h') /\ R h' s'.
Proof.
  induction ops as [|op ops IH]; intros h s xs s' HR E; cbn [lrun arun] in *.
  - inversion E; subst. exists h. auto.
  - destruct (lstep zero s op) as [[x s1]|] eqn:E1; [|discriminate]. destruct (lrun zero s1 ops) as [[xs1 s2]|] eqn:E2; [|discriminate]. inversion E; subst.
    destruct (step_right _ _ _ _ _ HR E1) as (h1 & -> & HR1). cbn [bind]. destruct (IH _ _ _ _ HR1 E2) as (h2 & -> & HR2). cbn [bind]. exists h2. auto.
Qed.
Lemma R_empty : R empty_heap []. Proof. split; intros [|i]; simpl; auto; discriminate. Qed.
Lemma ends_right h s i e l : R h s -> nth_error s i = Some (Some (Here e l)) ->
  aempty h i = Ok (match l with [] => true | _ => false end) /\
  match l with [] => afront h i = UB /\ aback h i = UB | y :: _ => afront h i = Ok y /\ aback h i = Ok (last l y) end.
Proof.
  intros HR Ei. destruct (R_obj _ _ _ _ HR Ei) as (a & Eo & (_ & Em & (b & E1 & E2)) & En & Hi). unfold aempty, afront, aback. rewrite Eo. cbn [bind]. rewrite Em. cbn [size_of].
  split; [destruct l; reflexivity|]. unfold load. rewrite E1, E2. destruct l as [|y l]; [split; reflexivity|]. split; [reflexivity|]. apply rd_ok. cbn [length Nat.ltb Nat.leb]. rewrite Nat.sub_succ, Nat.sub_0_r.
  clear. revert y. induction l as [|z l IH]; intros y; [reflexivity|]. cbn [nth_error length last]. rewrite IH. f_equal. destruct l; [reflexivity|]. clear. revert a. induction l as [|w l IH]; intros a; [reflexivity|]. exact (IH w).
Qed.
Lemma get_back h s i k v h' : R h s -> astep zero h (AGet i k) = Ok (AVal v, h') -> exists e l, nth_error s i = Some (Some (Here e l)) /\ nth_error l k = Some v.
Proof.
  intros [H1 _] E. specialize (H1 i). cbn [astep] in E. unfold obj in E. destruct (nth_error (objs h) i) as [[a|]|] eqn:Eo; try discriminate. cbn [bind] in E.
  destruct (nth_error s i) as [[[e l|e n]|]|]; try contradiction; destruct H1 as (_ & _ & H).
  - destruct H as (b & E1 & E2). unfold load in E. rewrite E1, E2 in E. exists e, l. split; auto. unfold rd in E. destruct (nth_error l k); [|discriminate]. cbn [bind] in E. congruence.
  - unfold load in E. rewrite H in E. discriminate.
Qed.
Lemma lstep_others (s : world) op x s' k : lstep zero s op = Some (x, s') -> k < length s ->
  match op with
  | AMove i | AListAssign i _ | ADestroy i | ASet i _ _ | AFill i _ => k <> i
  | AMoveAssign i j | ASwap i j => k <> i /\ k <> j
  | _ => True
  end -> nth_error s' k = nth_error s k.
Proof.
  intros E Hk N.
  assert (U : forall i y, k <> i -> nth_error (upd s i y) k = nth_error s k) by (intros i y Ni; apply nth_error_upd_neq; auto).
  destruct op; cbn [lstep] in E; try discriminate;
    repeat match goal with H : match ?t with _ => _ end = Some _ |- _ => destruct t; try discriminate end; inversion E; subst; auto;
    try (rewrite nth_error_app1; [auto|rewrite ?upd_length; auto]; fail); destruct N; try (destruct (_ =? _)); rewrite ?nth_error_upd_neq; auto.
Qed.
End P.
