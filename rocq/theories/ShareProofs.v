(** Objects over shared storage *)
From Coq Require Import List Arith Lia Bool ZArith.
From Verif Require Import Base RingOps RingModel LineModel VectorModel ShareModel ShareSpec.
From Verif Require StreamProofs.
Import ListNotations.

Lemma nth_upd_cases {T} (l : list T) i j x : i < length l -> nth_error (upd l i x) j = if i =? j then Some x else nth_error l j.
Proof.
  intros H. rewrite nth_error_upd. destruct (Nat.eqb_spec i j) as [->|]; [|reflexivity]. destruct (Nat.ltb_spec j (length l)); [reflexivity|lia].
Qed.
Lemma nth_app_cases {T} (l : list T) x j : nth_error (l ++ [x]) j = if j =? length l then Some x else nth_error l j.
Proof.
  destruct (Nat.eqb_spec j (length l)) as [->|N]; [rewrite nth_error_app2, Nat.sub_diag by lia; reflexivity|]. destruct (Nat.lt_ge_cases j (length l)) as [H|H]; [now rewrite nth_error_app1|].
  rewrite nth_error_app2 by lia. destruct (j - length l) as [|k] eqn:E; [lia|]. simpl. destruct k; symmetry; apply nth_error_None; lia.
Qed.
Lemma nth_lt {T} (l : list T) i x : nth_error l i = Some x -> i < length l. Proof. intros E. apply nth_error_Some. congruence. Qed.

Section P.
Context {N H A O R : Type}.
Variable C : cls N H A O R.
Hypothesis Hfix : fixed_size C.

(** Two outcomes that are the same up to a relation of states *)
Definition orelated {X S T} (P : S -> T -> Prop) (a : outcome (X * S)) (b : outcome (X * T)) : Prop :=
  match a, b with
  | Ok (x, s), Ok (y, t) => x = y /\ P s t
  | Halt, Halt | UB, UB | Throw, Throw | Fuel, Fuel => True
  | _, _ => False
  end.
Definition crep (B : list (bool * list A)) (c : cont) (a : sobj H) : Prop :=
  shdr a = hdr_c c /\ smax a = max_c c /\
  match c with Mine _ st => exists b, sblk a = Some b /\ nth_error B b = Some (false, st) | Void _ _ => sblk a = None end.
Definition orep (B : list (bool * list A)) (x : option (option cont)) (a : option (option (sobj H))) : Prop :=
  match x, a with
  | Some (Some c), Some (Some a) => crep B c a
  | Some None, Some None => True
  | None, None => True
  | _, _ => False
  end.
Definition Rel (h : sheap H A) (s : estate) : Prop := forall i, orep (sblks h) (nth_error s i) (nth_error (sobjs h) i).

Lemma Rel_length h s : Rel h s -> length (sobjs h) = length s.
Proof.
  unfold Rel. intros Hr. generalize dependent (sobjs h). induction s as [|x s IH]; intros [|y o] E; auto; [specialize (E 0); contradiction|specialize (E 0); simpl in E; destruct x; contradiction|].
  simpl. f_equal. apply IH. intros i. exact (E (S i)).
Qed.
Lemma orep_app B b x a : orep B x a -> orep (B ++ [b]) x a.
Proof.
  destruct x as [[x|]|], a as [[a|]|]; auto. intros (H1 & H2 & H3). split; auto. split; auto. destruct x; auto. destruct H3 as (c & E1 & E2). exists c. split; auto.
  rewrite nth_error_app1; auto. eapply nth_lt; eauto.
Qed.
Lemma at_cases h s i : Rel h s -> (at_ s i = UB /\ sobjat h i = UB) \/
  exists c a, at_ s i = Ok c /\ sobjat h i = Ok a /\ nth_error s i = Some (Some c) /\ nth_error (sobjs h) i = Some (Some a) /\ crep (sblks h) c a /\ i < length s.
Proof.
  intros Hr. specialize (Hr i). unfold at_, sobjat. destruct (nth_error s i) as [[c|]|] eqn:E1, (nth_error (sobjs h) i) as [[a|]|] eqn:E2; try contradiction; auto.
  right. exists c, a. repeat (split; [reflexivity|]). split; [exact Hr|]. eapply nth_lt; eauto.
Qed.
(** What happens to one block does not matter to objects that do not use it. *)
Lemma orep_upd B b v x a : b < length B -> (forall a', a = Some (Some a') -> sblk a' = Some b -> nth_error B b = Some v) -> orep B x a -> orep (upd B b v) x a.
Proof.
  intros Hb Hn. destruct x as [[x|]|], a as [[a|]|]; auto. intros (H1 & H2 & H3). split; auto. split; auto. destruct x; auto. destruct H3 as (c & E1 & E2). exists c. split; auto.
  rewrite nth_upd_cases by auto. destruct (Nat.eqb_spec b c) as [<-|]; auto. specialize (Hn a eq_refl E1). congruence.
Qed.
Lemma free_block h s i c a : Rel h s -> nth_error s i = Some (Some c) -> nth_error (sobjs h) i = Some (Some a) -> (alone h i \/ forall b, ~ owner h i b) ->
  exists bs, (if sown a then sfree (sblks h) (sblk a) else Ok (sblks h)) = Ok bs /\ length bs = length (sblks h) /\
    forall j, j <> i -> orep bs (nth_error s j) (nth_error (sobjs h) j).
Proof.
  intros Hr Es Eo Hl. pose proof (Hr i) as Hi. rewrite Es, Eo in Hi. destruct (sown a) eqn:Ew; [|exists (sblks h); repeat split; auto].
  destruct Hi as (_ & _ & Hi). destruct c as [hd st|hd n]; [|rewrite Hi; exists (sblks h); repeat split; auto]. destruct Hi as (b & E1 & E2). rewrite E1. unfold sfree. rewrite E2.
  eexists. split; [reflexivity|]. split; [apply upd_length|]. intros j Nj. apply orep_upd; [eapply nth_lt; eauto| |apply Hr]. intros a' Ea Eb. exfalso. destruct Hl as [Hl|Hl].
  - apply Nj. apply (Hl j b); [exists a|exists a']; auto.
  - apply (Hl b). exists a. auto.
Qed.

Lemma step_related h s op : Rel h s -> lawful C h op -> orelated Rel (sstep C h op) (estep C s op).
Proof.
  intros Hr Hl. pose proof (Rel_length _ _ Hr) as HL. destruct op as [n|i|i|i j|i j|i|i op]; cbn [sstep estep].
  - destruct (make C n) as [[[e hd] st]| | | |]; simpl; auto. rewrite HL. split; auto. intros i. cbn [sblks sobjs]. rewrite !nth_app_cases, HL. destruct (i =? length s); [|apply orep_app, Hr].
    simpl. split; auto. split; auto. exists (length (sblks h)). split; auto. now rewrite nth_app_cases, Nat.eqb_refl.
  - destruct (at_cases h s i Hr) as [[-> ->]|(c & a & -> & -> & Es & Eo & Hc & Hi)]; simpl; auto. rewrite HL. split; auto. intros j. cbn [sblks sobjs]. rewrite !nth_app_cases, HL.
    destruct (j =? length s); [|apply Hr]. destruct Hc as (B1 & B2 & B3). split; auto.
  - destruct (at_cases h s i Hr) as [[-> ->]|(c & a & -> & -> & Es & Eo & Hc & Hi)]; simpl; auto. rewrite HL. split; auto. intros j. cbn [sblks sobjs]. rewrite !nth_app_cases, !upd_length, HL.
    destruct (j =? length s); [exact Hc|]. rewrite !nth_upd_cases by lia. destruct (i =? j); [|apply Hr]. destruct Hc as (B1 & B2 & B3). split; auto.
  - destruct (at_cases h s i Hr) as [[-> ->]|(c & a & -> & -> & Es & Eo & Hc & Hi)]; simpl; auto. destruct (at_cases h s j Hr) as [[-> ->]|(c2 & a2 & -> & -> & Es2 & Eo2 & Hc2 & Hj)]; simpl; auto.
    destruct (Nat.eqb_spec i j) as [->|N']; simpl; (split; [reflexivity|]).
    + intros k. rewrite nth_upd_cases by lia. destruct (Nat.eqb_spec j k) as [<-|]; [|apply Hr]. rewrite Eo2. exact Hc2.
    + intros k. cbn [sblks sobjs]. rewrite !nth_upd_cases by lia. destruct (i =? k); [|apply Hr]. destruct Hc2 as (B1 & B2 & B3). split; auto.
  - destruct (at_cases h s i Hr) as [[-> ->]|(c & a & -> & -> & Es & Eo & Hc & Hi)]; simpl; auto. destruct (at_cases h s j Hr) as [[-> ->]|(c2 & a2 & -> & -> & Es2 & Eo2 & Hc2 & Hj)]; simpl; auto.
    destruct (Nat.eqb_spec i j) as [->|N']; simpl; (split; [reflexivity|]); [exact Hr|]. intros k. cbn [sblks sobjs]. rewrite !(nth_upd_cases (upd _ _ _)) by (rewrite upd_length; lia).
    destruct (i =? k); [exact Hc2|]. rewrite !nth_upd_cases by lia. destruct (j =? k); [|apply Hr]. destruct Hc2 as (B1 & B2 & B3). split; auto.
  - destruct (at_cases h s i Hr) as [[-> ->]|(c & a & -> & -> & Es & Eo & Hc & Hi)]; simpl; auto. destruct (free_block h s i c a Hr Es Eo Hl) as (bs & -> & _ & Hb). simpl. split; auto.
    intros j. cbn [sblks sobjs]. rewrite !nth_upd_cases by lia. destruct (Nat.eqb_spec i j) as [<-|]; [simpl; auto|]. apply Hb. auto.
  - unfold scall. destruct (at_cases h s i Hr) as [[-> ->]|(c & a & -> & -> & Es & Eo & Hc & Hi)]; simpl; auto. pose proof Hc as (B1 & B2 & B3).
    destruct (renews C op) eqn:Er.
    + assert (Ec : ecall C c op = ('(r, hd', st') <- call C (hdr_c c) (repeat (blank C) (max_c c)) op ;; Ok (r, Mine hd' st'))) by (unfold ecall; rewrite Er; destruct c; reflexivity).
      rewrite Ec, B1, B2. destruct (call C (hdr_c c) (repeat (blank C) (max_c c)) op) as [[[r hd'] st']| | | |]; simpl; auto.
      destruct (free_block h s i c a Hr Es Eo) as (bs & -> & Hbl & Hb). { destruct Hl as [[Hl _]|[Hl|[_ Hl]]]; [congruence|auto|auto]. }
      simpl. split; auto. intros j. cbn [sblks sobjs]. rewrite !nth_upd_cases by lia. destruct (Nat.eqb_spec i j) as [<-|N']; [|apply orep_app, Hb; auto].
      split; auto. split; auto. exists (length bs). split; auto. now rewrite nth_app_cases, Nat.eqb_refl.
    + unfold slive. destruct c as [hd st|hd n]; cbn [hdr_c max_c] in *; unfold ecall; rewrite Er.
      * destruct B3 as (b & E1 & E2). rewrite E1, E2, B1. destruct (call C hd st op) as [[[r hd'] st']| | | |] eqn:Ecall; simpl; auto. split; auto.
        intros j. cbn [sblks sobjs]. rewrite !nth_upd_cases by lia. assert (Hb : b < length (sblks h)) by (eapply nth_lt; eauto). destruct (Nat.eqb_spec i j) as [<-|N'].
        -- split; auto. split; [simpl; rewrite B2; symmetry; eapply Hfix; eauto|]. exists b. split; auto. rewrite nth_upd_cases, Nat.eqb_refl by auto. reflexivity.
        -- apply orep_upd; auto. intros a' Ea Eb. destruct Hl as [[_ Hl]|[Hl|[Hl _]]]; [|exfalso|congruence].
           { rewrite E2. f_equal. f_equal. symmetry. eapply Hl; eauto. }
           { apply N'. symmetry. apply (Hl j b); [exists a|exists a']; auto. }
      * rewrite B3, B1, B2. destruct (touches C hd n op); simpl; auto. destruct (call C hd (repeat (blank C) n) op) as [[[r hd'] st']| | | |] eqn:Ecall; simpl; auto. split; auto.
        intros j. cbn [sblks sobjs]. rewrite !nth_upd_cases by lia. destruct (Nat.eqb_spec i j) as [<-|N']; [|apply Hr]. split; auto.
Qed.
Lemma run_related : forall ops h s, Rel h s -> lawful_run C h ops -> orelated Rel (srun C h ops) (erun C s ops).
Proof.
  induction ops as [|op ops IH]; intros h s Hr Hl; cbn [srun erun]; [split; auto|]. destruct Hl as [Hl1 Hl2]. pose proof (step_related h s op Hr Hl1) as E.
  destruct (sstep C h op) as [[x h1]| | | |], (estep C s op) as [[y s1]| | | |]; simpl in E; try contradiction; simpl; auto. destruct E as [-> Hr1].
  specialize (IH h1 s1 Hr1 (Hl2 _ _ eq_refl)). destruct (srun C h1 ops) as [[xs h2]| | | |], (erun C s1 ops) as [[ys s2]| | | |]; simpl in IH; try contradiction; simpl; auto. destruct IH as [-> Hr2]. auto.
Qed.
Lemma related_answers {X S T} (P : S -> T -> Prop) (a : outcome (X * S)) (b : outcome (X * T)) : orelated P a b -> answers a = answers b.
Proof. destruct a as [[x s]| | | |], b as [[y t]| | | |]; simpl; try contradiction; auto. intros [-> _]. auto. Qed.
Lemma Rel_nothing : Rel nothing []. Proof. intros [|i]; simpl; auto. Qed.
Lemma lawful_thm ops : lawful_run C nothing ops -> answers (srun C nothing ops) = answers (erun C [] ops).
Proof. intros Hl. eapply related_answers, run_related; eauto. apply Rel_nothing. Qed.

(** Without copies every object is alone. *)
Definition all_alone (h : sheap H A) : Prop := (forall i b, uses h i (Some b) -> b < length (sblks h)) /\ forall i, alone h i.
Lemma uses_app (h : sheap H A) i b (B : list (bool * list A)) a : uses (mkSH B (sobjs h ++ [Some a])) i b -> (i = length (sobjs h) /\ sblk a = b) \/ uses h i b.
Proof.
  intros (a' & E & E2). cbn [sobjs] in E. rewrite nth_app_cases in E. destruct (Nat.eqb_spec i (length (sobjs h))); [left; split; congruence|right; exists a'; auto].
Qed.
Lemma uses_upd (B : list (bool * list A)) (o : list (option (sobj H))) i x j b : uses (mkSH B (upd o i x)) j b -> (j = i /\ exists a, x = Some a /\ sblk a = b) \/ (j <> i /\ uses (mkSH B o) j b).
Proof.
  intros (a & E & E2). cbn [sobjs] in E. rewrite nth_error_upd in E. destruct (Nat.eqb_spec i j) as [<-|N']; cbn [andb] in E.
  - left. split; auto. destruct (Nat.ltb_spec i (length o)) as [|Hge]; [exists a; split; congruence|]. apply nth_lt in E. lia.
  - right. split; auto. exists a. auto.
Qed.
Lemma uses_blocks (B B' : list (bool * list A)) (o : list (option (sobj H))) j b : uses (mkSH B o) j b -> uses (mkSH B' o) j b. Proof. intros (a & E). exists a. auto. Qed.
Lemma free_length bs p bs' (c : bool) : (if c then @sfree A bs p else Ok bs) = Ok bs' -> length bs' = length bs.
Proof.
  destruct c; [|congruence]. unfold sfree. destruct p as [b|]; [|congruence]. destruct (nth_error bs b) as [[[] ?]|]; try discriminate. intros E. assert (bs' = upd bs b (true, l)) by congruence. subst. apply upd_length.
Qed.
Lemma alone_step h op x h' : all_alone h -> no_copy op -> sstep C h op = Ok (x, h') -> all_alone h'.
Proof.
  intros [H1 H2] Hn E. destruct h as [B o]. cbn [sblks sobjs] in *.
  assert (Hobj : forall i a, sobjat (mkSH B o) i = Ok a -> uses (mkSH B o) i (sblk a)).
  { intros i a Ea. unfold sobjat in Ea. cbn [sobjs] in Ea. destruct (nth_error o i) as [[a'|]|] eqn:Ei; try discriminate. exists a. split; [cbn [sobjs]; congruence|auto]. }
  destruct op as [n|i|i|i j|i j|i|i op]; cbn [sstep no_copy] in *; try contradiction.
  - destruct (make C n) as [[[e hd] st]| | | |]; try discriminate. cbn [bind sblks sobjs] in E. assert (h' = mkSH (B ++ [(false, st)]) (o ++ [Some (mkSO (Some (length B)) (negb e) (length st) hd)])) as -> by congruence.
    split; cbn [sblks]; [rewrite app_length; simpl|].
    + intros i b U. apply (uses_app (mkSH B o)) in U as [[_ U]|U]; [simpl in U|apply H1 in U]; try lia. assert (b = length B) by congruence. lia.
    + intros i j b U V. apply (uses_app (mkSH B o)) in U. apply (uses_app (mkSH B o)) in V. cbn [sblk sobjs] in *. destruct U as [[-> U]|U], V as [[-> V]|V]; auto.
      * assert (b = length B) by congruence. apply H1 in V. lia.
      * assert (b = length B) by congruence. apply H1 in U. lia.
      * exact (H2 i j b U V).
  - destruct (sobjat (mkSH B o) i) as [a| | | |] eqn:Ea; try discriminate. cbn [bind sblks sobjs] in E. assert (h' = mkSH B (upd o i (Some (mkSO None (sown a) (smax a) (shdr a))) ++ [Some a])) as -> by congruence.
    pose proof (Hobj _ _ Ea) as Ua.
    assert (K : forall k b, uses (mkSH B (upd o i (Some (mkSO None (sown a) (smax a) (shdr a))) ++ [Some a])) k (Some b) -> (k = length o /\ sblk a = Some b) \/ (k <> i /\ uses (mkSH B o) k (Some b))).
    { intros k b U. apply (uses_app (mkSH B (upd o i _))) in U as [[U1 U2]|U]; [left; cbn [sobjs] in U1; rewrite upd_length in U1; auto|]. apply uses_upd in U as [[_ (a' & E1 & E2)]|U]; [|auto].
      assert (a' = mkSO None (sown a) (smax a) (shdr a)) by congruence. subst. discriminate. }
    split; cbn [sblks].
    + intros k b U. apply K in U as [[_ U]|[_ U]]; [rewrite U in Ua|]; eapply H1; eauto.
    + intros k j b U V. apply K in U. apply K in V. destruct U as [[-> U]|[N1 U]], V as [[-> V]|[N2 V]]; auto.
      * rewrite U in Ua. exfalso. apply N2. exact (H2 i j b Ua V).
      * rewrite V in Ua. exfalso. apply N1. exact (H2 i k b Ua U).
      * exact (H2 k j b U V).
  - destruct (sobjat (mkSH B o) i) as [a0| | | |] eqn:Ea0; try discriminate. destruct (sobjat (mkSH B o) j) as [a| | | |] eqn:Ea; try discriminate. cbn [bind sblks sobjs] in E.
    destruct (Nat.eqb_spec i j) as [->|Nij]; [assert (h' = mkSH B o) as -> by congruence; split; auto|].
    assert (h' = mkSH B (upd (upd o j (Some (mkSO None (sown a) (smax a) (shdr a)))) i (Some a))) as -> by congruence. pose proof (Hobj _ _ Ea) as Ua.
    assert (K : forall k b, uses (mkSH B (upd (upd o j (Some (mkSO None (sown a) (smax a) (shdr a)))) i (Some a))) k (Some b) -> (k = i /\ sblk a = Some b) \/ (k <> i /\ k <> j /\ uses (mkSH B o) k (Some b))).
    { intros k b U. apply uses_upd in U as [[-> (a' & E1 & E2)]|[N1 U]]; [left; split; congruence|]. apply uses_upd in U as [[_ (a' & E1 & E2)]|[N2 U]]; [|auto].
      assert (a' = mkSO None (sown a) (smax a) (shdr a)) by congruence. subst. discriminate. }
    split; cbn [sblks].
    + intros k b U. apply K in U as [[_ U]|(_ & _ & U)]; [rewrite U in Ua|]; eapply H1; eauto.
    + intros k l b U V. apply K in U. apply K in V. destruct U as [[-> U]|(N1 & N2 & U)], V as [[-> V]|(N3 & N4 & V)]; auto.
      * rewrite U in Ua. exfalso. apply N4. exact (H2 j l b Ua V).
      * rewrite V in Ua. exfalso. apply N2. exact (H2 j k b Ua U).
      * exact (H2 k l b U V).
  - destruct (sobjat (mkSH B o) i) as [a| | | |] eqn:Ea; try discriminate. cbn [bind sblks sobjs] in E. destruct (if sown a then sfree B (sblk a) else Ok B) as [bs| | | |] eqn:Ef; try discriminate. cbn [bind] in E.
    assert (h' = mkSH bs (upd o i None)) as -> by congruence. apply free_length in Ef.
    assert (K : forall k b, uses (mkSH bs (upd o i None)) k (Some b) -> uses (mkSH B o) k (Some b)).
    { intros k b U. apply uses_upd in U as [[_ (a' & E1 & _)]|[_ U]]; [discriminate|]. eapply uses_blocks; eauto. }
    split; cbn [sblks]; [intros k b U; rewrite Ef; eauto|]. intros k j b U V. exact (H2 k j b (K _ _ U) (K _ _ V)).
  - unfold scall in E. destruct (sobjat (mkSH B o) i) as [a| | | |] eqn:Ea; try discriminate. cbn [bind sblks sobjs] in E. pose proof (Hobj _ _ Ea) as Ua. destruct (renews C op).
    + destruct (call C (shdr a) (repeat (blank C) (smax a)) op) as [[[r hd] st]| | | |]; try discriminate. cbn [bind] in E. destruct (if sown a then sfree B (sblk a) else Ok B) as [bs| | | |] eqn:Ef; try discriminate.
      cbn [bind] in E. apply free_length in Ef. assert (h' = mkSH (bs ++ [(false, st)]) (upd o i (Some (mkSO (Some (length bs)) true (length st) hd)))) as -> by congruence.
      assert (K : forall k b, uses (mkSH (bs ++ [(false, st)]) (upd o i (Some (mkSO (Some (length bs)) true (length st) hd)))) k (Some b) -> (k = i /\ b = length B) \/ (k <> i /\ uses (mkSH B o) k (Some b))).
      { intros k b U. apply uses_upd in U as [[-> (a' & E1 & E2)]|[N1 U]]; [left; split; auto; assert (a' = mkSO (Some (length bs)) true (length st) hd) by congruence; subst; simpl in E2; congruence|].
        right. split; [exact N1|]. eapply uses_blocks; eauto. }
      split; cbn [sblks].
      * intros k b U. rewrite app_length. simpl. apply K in U as [[_ U]|[_ U]]; [lia|]. apply H1 in U. lia.
      * intros k j b U V. apply K in U. apply K in V. destruct U as [[-> U]|[N1 U]], V as [[-> V]|[N2 V]]; auto; [apply H1 in V; lia|apply H1 in U; lia|exact (H2 k j b U V)].
    + assert (G : forall B' hd, length B' = length B -> all_alone (mkSH B' (upd o i (Some (mkSO (sblk a) (sown a) (smax a) hd))))).
      { intros B' hd EB. assert (K : forall k b, uses (mkSH B' (upd o i (Some (mkSO (sblk a) (sown a) (smax a) hd)))) k (Some b) -> uses (mkSH B o) k (Some b)).
        { intros k b U. apply uses_upd in U as [[-> (a' & E1 & E2)]|[_ U]]; [|eapply uses_blocks; eauto]. assert (a' = mkSO (sblk a) (sown a) (smax a) hd) by congruence. subst. simpl in E2. now rewrite E2 in Ua. }
        split; cbn [sblks]; [intros k b U; rewrite EB; eauto|]. intros k j b U V. exact (H2 k j b (K _ _ U) (K _ _ V)). }
      destruct (slive (mkSH B o) a) as [[b c]|].
      * destruct (call C (shdr a) c op) as [[[r hd] st]| | | |]; try discriminate. cbn [bind sblks sobjs] in E. assert (h' = mkSH (upd B b (false, st)) (upd o i (Some (mkSO (sblk a) (sown a) (smax a) hd)))) as -> by congruence.
        apply G, upd_length.
      * destruct (touches C (shdr a) (smax a) op); try discriminate. destruct (call C (shdr a) (repeat (blank C) (smax a)) op) as [[[r hd] st]| | | |]; try discriminate. cbn [bind] in E.
        assert (h' = mkSH B (upd o i (Some (mkSO (sblk a) (sown a) (smax a) hd)))) as -> by congruence. now apply G.
Qed.
Lemma no_copy_lawful : forall ops h, all_alone h -> Forall no_copy ops -> lawful_run C h ops.
Proof.
  induction ops as [|op ops IH]; intros h Ha Hn; simpl; auto. inversion Hn; subst. split; [|intros x h' E; apply IH; auto; eapply alone_step; eauto].
  destruct op; simpl; auto; [left|right; left]; apply Ha.
Qed.
Lemma alone_nothing : all_alone nothing. Proof. split; intros i; [intros b|intros j b]; intros (a & E & _); destruct i; discriminate. Qed.
Lemma own_thm ops : Forall no_copy ops -> answers (srun C nothing ops) = answers (erun C [] ops).
Proof. intros Hn. apply lawful_thm, no_copy_lawful; auto. apply alone_nothing. Qed.

(** All programs: storages exist and have the size the objects think, owners are unique and their storage is not freed. *)
Definition okobj (B : list (bool * list A)) (a : sobj H) : Prop :=
  match sblk a with Some b => exists f c, nth_error B b = Some (f, c) /\ smax a = length c /\ (sown a = true -> f = false) | None => True end.
Definition Inv (h : sheap H A) : Prop :=
  (forall i a, nth_error (sobjs h) i = Some (Some a) -> okobj (sblks h) a) /\ (forall i j b, owner h i b -> owner h j b -> i = j).
Lemma Inv_nothing : Inv nothing. Proof. split; [intros [|i] a E; discriminate|intros [|i] j b (a & E & _); discriminate]. Qed.
Lemma okobj_app B b a : okobj B a -> okobj (B ++ [b]) a.
Proof. unfold okobj. destruct (sblk a); auto. intros (f & c & E & E2). exists f, c. split; auto. rewrite nth_error_app1; auto. eapply nth_lt; eauto. Qed.
Lemma sobjat_ok (h : sheap H A) i a : sobjat h i = Ok a -> nth_error (sobjs h) i = Some (Some a).
Proof. unfold sobjat. destruct (nth_error (sobjs h) i) as [[a'|]|]; try discriminate. congruence. Qed.
Lemma owner_upd (B : list (bool * list A)) (o : list (option (sobj H))) i x j b : owner (mkSH B (upd o i x)) j b -> (j = i /\ exists a, x = Some a /\ sown a = true /\ sblk a = Some b) \/ (j <> i /\ owner (mkSH B o) j b).
Proof.
  intros (a & E & E2). cbn [sobjs] in E. rewrite nth_error_upd in E. destruct (Nat.eqb_spec i j) as [<-|N']; cbn [andb] in E.
  - left. split; auto. destruct (Nat.ltb_spec i (length o)) as [|Hge]; [exists a; split; [congruence|exact E2]|]. apply nth_lt in E. lia.
  - right. split; auto. exists a. auto.
Qed.
Lemma owner_app (h : sheap H A) i b (B : list (bool * list A)) a : owner (mkSH B (sobjs h ++ [Some a])) i b -> (i = length (sobjs h) /\ sown a = true /\ sblk a = Some b) \/ (i <> length (sobjs h) /\ owner h i b).
Proof.
  intros (a' & E & E2). cbn [sobjs] in E. rewrite nth_app_cases in E. destruct (Nat.eqb_spec i (length (sobjs h))); [left; split; auto; assert (a' = a) by congruence; subst; auto|right; split; auto; exists a'; auto].
Qed.
Lemma obj_upd (o : list (option (sobj H))) i x k a : nth_error (upd o i x) k = Some (Some a) -> (k = i /\ x = Some a) \/ (k <> i /\ nth_error o k = Some (Some a)).
Proof.
  intros E. rewrite nth_error_upd in E. destruct (Nat.eqb_spec i k) as [<-|N']; cbn [andb] in E; [|auto].
  left. split; auto. destruct (Nat.ltb_spec i (length o)) as [|Hge]; [congruence|]. apply nth_lt in E. lia.
Qed.
(** Freeing what an object owns *)
Lemma free_inv B o i a : Inv (mkSH B o) -> nth_error o i = Some (Some a) ->
  exists bs, (if sown a then @sfree A B (sblk a) else Ok B) = Ok bs /\ length bs = length B /\ forall k a', k <> i -> nth_error o k = Some (Some a') -> okobj bs a'.
Proof.
  intros [I1 I2] Eo. cbn [sblks sobjs] in *. destruct (sown a) eqn:Ew; [|exists B; repeat split; eauto]. pose proof (I1 i a Eo) as Ho. unfold okobj in Ho. destruct (sblk a) as [b|] eqn:Eb; [|exists B; simpl; repeat split; eauto].
  destruct Ho as (f & c & E1 & E2 & E3). rewrite (E3 Ew) in E1. unfold sfree. rewrite E1. eexists. split; [reflexivity|]. split; [apply upd_length|]. intros k a' Nk Ek. specialize (I1 k a' Ek).
  unfold okobj in *. destruct (sblk a') as [b'|] eqn:Eb'; auto. destruct I1 as (f' & c' & F1 & F2 & F3). rewrite nth_upd_cases by (eapply nth_lt; eauto). destruct (Nat.eqb_spec b b') as [<-|]; [|exists f', c'; auto].
  exists true, c. split; auto. split; [congruence|]. intros Ew'. exfalso. apply Nk. apply (I2 k i b); [exists a'|exists a]; auto.
Qed.
Lemma Inv_step h op x h' : Inv h -> sstep C h op = Ok (x, h') -> Inv h'.
Proof.
  intros HI E. pose proof HI as [I1 I2]. destruct h as [B o]. cbn [sblks sobjs] in *. destruct op as [n|i|i|i j|i j|i|i op]; cbn [sstep] in E.
  - destruct (make C n) as [[[e hd] st]| | | |]; try discriminate. cbn [bind sblks sobjs] in E. assert (h' = mkSH (B ++ [(false, st)]) (o ++ [Some (mkSO (Some (length B)) (negb e) (length st) hd)])) as -> by congruence.
    assert (Hlt : forall k b, owner (mkSH B o) k b -> b < length B).
    { intros k b (a & E1 & _ & E2). specialize (I1 k a E1). unfold okobj in I1. rewrite E2 in I1. destruct I1 as (f & c & F & _). eapply nth_lt; eauto. }
    split; cbn [sblks sobjs].
    + intros k a Ek. rewrite nth_app_cases in Ek. destruct (k =? length o); [|apply okobj_app; eauto]. assert (a = mkSO (Some (length B)) (negb e) (length st) hd) as -> by congruence.
      exists false, st. rewrite nth_app_cases, Nat.eqb_refl. auto.
    + intros k j b U V. apply (owner_app (mkSH B o)) in U. apply (owner_app (mkSH B o)) in V. cbn [sblk sobjs] in *. destruct U as [(-> & _ & U)|(N1 & U)], V as [(-> & _ & V)|(N2 & V)]; auto.
      * assert (b = length B) by congruence. apply Hlt in V. lia.
      * assert (b = length B) by congruence. apply Hlt in U. lia.
      * eauto.
  - destruct (sobjat (mkSH B o) i) as [a| | | |] eqn:Ea; try discriminate. cbn [bind sblks sobjs] in E. assert (h' = mkSH B (o ++ [Some (mkSO (sblk a) false (smax a) (shdr a))])) as -> by congruence.
    apply sobjat_ok in Ea. cbn [sobjs] in Ea. split; cbn [sblks sobjs].
    + intros k a' Ek. rewrite nth_app_cases in Ek. destruct (k =? length o); [|eauto]. assert (a' = mkSO (sblk a) false (smax a) (shdr a)) as -> by congruence.
      specialize (I1 i a Ea). unfold okobj in *. cbn [sblk smax sown] in *. destruct (sblk a); auto. destruct I1 as (f & c & F1 & F2 & F3). exists f, c. repeat split; auto. discriminate.
    + intros k j b U V. apply (owner_app (mkSH B o)) in U. apply (owner_app (mkSH B o)) in V. cbn [sown] in *. destruct U as [(_ & U & _)|(_ & U)]; [discriminate|]. destruct V as [(_ & V & _)|(_ & V)]; [discriminate|]. eauto.
  - destruct (sobjat (mkSH B o) i) as [a| | | |] eqn:Ea; try discriminate. cbn [bind sblks sobjs] in E. assert (h' = mkSH B (upd o i (Some (mkSO None (sown a) (smax a) (shdr a))) ++ [Some a])) as -> by congruence.
    apply sobjat_ok in Ea. cbn [sobjs] in Ea. split; cbn [sblks sobjs].
    + intros k a' Ek. rewrite nth_app_cases in Ek. destruct (k =? _); [assert (a' = a) as -> by congruence; eauto|]. apply obj_upd in Ek as [[_ Ek]|[_ Ek]]; [|eauto].
      assert (a' = mkSO None (sown a) (smax a) (shdr a)) as -> by congruence. exact Logic.I.
    + assert (K : forall k b, owner (mkSH B (upd o i (Some (mkSO None (sown a) (smax a) (shdr a))) ++ [Some a])) k b -> (k = length o /\ owner (mkSH B o) i b) \/ (k <> i /\ owner (mkSH B o) k b)).
      { intros k b U. apply (owner_app (mkSH B (upd o i _))) in U as [(U1 & U2)|(_ & U)]; [left; cbn [sobjs] in U1; rewrite upd_length in U1; split; auto; exists a; auto|].
        apply owner_upd in U as [(_ & a' & E1 & _ & E2)|[N1 U]]; [|right; auto]. assert (a' = mkSO None (sown a) (smax a) (shdr a)) by congruence. subst. discriminate. }
      intros k j b U V. apply K in U. apply K in V. destruct U as [[-> U]|[N1 U]], V as [[-> V]|[N2 V]]; auto.
      * exfalso. apply N2. eauto.
      * exfalso. apply N1. eauto.
      * eauto.
  - destruct (sobjat (mkSH B o) i) as [a0| | | |] eqn:Ea0; try discriminate. destruct (sobjat (mkSH B o) j) as [a| | | |] eqn:Ea; try discriminate. cbn [bind sblks sobjs] in E.
    destruct (Nat.eqb_spec i j) as [->|Nij]; [assert (h' = mkSH B o) as -> by congruence; exact HI|]. assert (h' = mkSH B (upd o i (Some (mkSO (sblk a) false (smax a) (shdr a))))) as -> by congruence.
    apply sobjat_ok in Ea. cbn [sobjs] in Ea. split; cbn [sblks sobjs].
    + intros k a' Ek. apply obj_upd in Ek as [[_ Ek]|[_ Ek]]; [|eauto]. assert (a' = mkSO (sblk a) false (smax a) (shdr a)) as -> by congruence.
      specialize (I1 j a Ea). unfold okobj in *. cbn [sblk smax sown] in *. destruct (sblk a); auto. destruct I1 as (f & c & F1 & F2 & F3). exists f, c. repeat split; auto. discriminate.
    + intros k l b U V. apply owner_upd in U. apply owner_upd in V. destruct U as [(_ & a' & E1 & E2 & _)|[_ U]]; [assert (a' = mkSO (sblk a) false (smax a) (shdr a)) by congruence; subst; discriminate|].
      destruct V as [(_ & a' & E1 & E2 & _)|[_ V]]; [assert (a' = mkSO (sblk a) false (smax a) (shdr a)) by congruence; subst; discriminate|]. eauto.
  - destruct (sobjat (mkSH B o) i) as [a0| | | |] eqn:Ea0; try discriminate. destruct (sobjat (mkSH B o) j) as [a| | | |] eqn:Ea; try discriminate. cbn [bind sblks sobjs] in E.
    destruct (Nat.eqb_spec i j) as [->|Nij]; [assert (h' = mkSH B o) as -> by congruence; exact HI|].
    assert (h' = mkSH B (upd (upd o j (Some (mkSO None (sown a) (smax a) (shdr a)))) i (Some a))) as -> by congruence. apply sobjat_ok in Ea. cbn [sobjs] in Ea. split; cbn [sblks sobjs].
    + intros k a' Ek. apply obj_upd in Ek as [[_ Ek]|[_ Ek]]; [assert (a' = a) as -> by congruence; eauto|]. apply obj_upd in Ek as [[_ Ek]|[_ Ek]]; [|eauto].
      assert (a' = mkSO None (sown a) (smax a) (shdr a)) as -> by congruence. exact Logic.I.
    + assert (K : forall k b, owner (mkSH B (upd (upd o j (Some (mkSO None (sown a) (smax a) (shdr a)))) i (Some a))) k b -> (k = i /\ owner (mkSH B o) j b) \/ (k <> i /\ k <> j /\ owner (mkSH B o) k b)).
      { intros k b U. apply owner_upd in U as [(-> & a' & E1 & E2)|[N1 U]]; [left; split; auto; exists a; split; auto; assert (a' = a) by congruence; subst; auto|].
        apply owner_upd in U as [(_ & a' & E1 & _ & E2)|[N2 U]]; [|auto]. assert (a' = mkSO None (sown a) (smax a) (shdr a)) by congruence. subst. discriminate. }
      intros k l b U V. apply K in U. apply K in V. destruct U as [[-> U]|(N1 & N2 & U)], V as [[-> V]|(N3 & N4 & V)]; auto.
      * exfalso. apply N4. eauto.
      * exfalso. apply N2. eauto.
      * eauto.
  - destruct (sobjat (mkSH B o) i) as [a| | | |] eqn:Ea; try discriminate. cbn [bind sblks sobjs] in E. apply sobjat_ok in Ea. cbn [sobjs] in Ea.
    destruct (free_inv B o i a HI Ea) as (bs & Ef & _ & Hk). rewrite Ef in E. cbn [bind] in E. assert (h' = mkSH bs (upd o i None)) as -> by congruence. split; cbn [sblks sobjs].
    + intros k a' Ek. apply obj_upd in Ek as [[_ Ek]|[Nk Ek]]; [discriminate|eauto].
    + intros k l b U V. apply owner_upd in U. apply owner_upd in V. destruct U as [(_ & a' & E1 & _)|[_ U]]; [discriminate|]. destruct V as [(_ & a' & E1 & _)|[_ V]]; [discriminate|]. apply (I2 k l b); auto.
  - unfold scall in E. destruct (sobjat (mkSH B o) i) as [a| | | |] eqn:Ea; try discriminate. cbn [bind sblks sobjs] in E. apply sobjat_ok in Ea. cbn [sobjs] in Ea. destruct (renews C op) eqn:Er.
    + destruct (call C (shdr a) (repeat (blank C) (smax a)) op) as [[[r hd] st]| | | |]; try discriminate. cbn [bind] in E. destruct (free_inv B o i a HI Ea) as (bs & Ef & El & Hk). rewrite Ef in E. cbn [bind] in E.
      assert (h' = mkSH (bs ++ [(false, st)]) (upd o i (Some (mkSO (Some (length bs)) true (length st) hd)))) as -> by congruence. split; cbn [sblks sobjs].
      * intros k a' Ek. apply obj_upd in Ek as [[_ Ek]|[Nk Ek]]; [|apply okobj_app; eauto]. assert (a' = mkSO (Some (length bs)) true (length st) hd) as -> by congruence.
        exists false, st. rewrite nth_app_cases, Nat.eqb_refl. auto.
      * assert (K : forall k b, owner (mkSH (bs ++ [(false, st)]) (upd o i (Some (mkSO (Some (length bs)) true (length st) hd)))) k b -> (k = i /\ b = length B) \/ (k <> i /\ owner (mkSH B o) k b /\ b < length B)).
        { intros k b U. apply owner_upd in U as [(-> & a' & E1 & _ & E2)|[N1 U]]; [left; split; auto; assert (a' = mkSO (Some (length bs)) true (length st) hd) by congruence; subst; simpl in E2; congruence|].
          right. split; [exact N1|]. split; [exact U|]. destruct U as (a' & U1 & U2 & U3). specialize (I1 k a' U1). unfold okobj in I1. rewrite U3 in I1. destruct I1 as (f & c & F & _). eapply nth_lt; eauto. }
        intros k l b U V. apply K in U. apply K in V. destruct U as [[-> U]|(N1 & U & U')], V as [[-> V]|(N2 & V & V')]; auto; try lia. exact (I2 k l b U V).
    + assert (G : forall B' hd, (forall b f c, nth_error B b = Some (f, c) -> exists c', nth_error B' b = Some (f, c') /\ length c' = length c) -> Inv (mkSH B' (upd o i (Some (mkSO (sblk a) (sown a) (smax a) hd))))).
      { intros B' hd EB. split; cbn [sblks sobjs].
        - intros k a' Ek. assert (Ho : exists a2, okobj B a2 /\ sblk a2 = sblk a' /\ smax a2 = smax a' /\ sown a2 = sown a').
          { apply obj_upd in Ek as [[_ Ek]|[Nk Ek]]; [|exists a'; eauto]. assert (a' = mkSO (sblk a) (sown a) (smax a) hd) as -> by congruence. exists a. split; eauto. }
          destruct Ho as (a2 & Ho & F1 & F2 & F3). unfold okobj in *. rewrite F1, F2, F3 in Ho. destruct (sblk a'); auto. destruct Ho as (f & c & G1 & G2 & G3). destruct (EB _ _ _ G1) as (c' & G4 & G5).
          exists f, c'. split; auto. split; auto. congruence.
        - assert (K : forall k b, owner (mkSH B' (upd o i (Some (mkSO (sblk a) (sown a) (smax a) hd)))) k b -> owner (mkSH B o) k b).
          { intros k b U. apply owner_upd in U as [(-> & a' & E1 & E2 & E3)|[_ U]]; [|exact U]. assert (a' = mkSO (sblk a) (sown a) (smax a) hd) by congruence. subst. exists a. auto. }
          intros k l b U V. exact (I2 k l b (K _ _ U) (K _ _ V)). }
      unfold slive in E. cbn [sblks] in E. destruct (sblk a) as [b|] eqn:Eb; [destruct (nth_error B b) as [[[] c]|] eqn:EB|].
      * destruct (touches C (shdr a) (smax a) op); try discriminate. destruct (call C (shdr a) (repeat (blank C) (smax a)) op) as [[[r hd] st]| | | |]; try discriminate. cbn [bind] in E.
        assert (h' = mkSH B (upd o i (Some (mkSO (Some b) (sown a) (smax a) hd)))) as -> by congruence. apply G. eauto.
      * destruct (call C (shdr a) c op) as [[[r hd] st]| | | |] eqn:Ec; try discriminate. cbn [bind] in E. assert (h' = mkSH (upd B b (false, st)) (upd o i (Some (mkSO (Some b) (sown a) (smax a) hd)))) as -> by congruence.
        apply G. intros b' f c' F. rewrite nth_upd_cases by (eapply nth_lt; eauto). destruct (Nat.eqb_spec b b') as [<-|]; [|eauto]. exists st. split; [congruence|]. rewrite (Hfix _ _ _ _ _ _ Er Ec). congruence.
      * destruct (touches C (shdr a) (smax a) op); try discriminate. destruct (call C (shdr a) (repeat (blank C) (smax a)) op) as [[[r hd] st]| | | |]; try discriminate. cbn [bind] in E.
        assert (h' = mkSH B (upd o i (Some (mkSO (Some b) (sown a) (smax a) hd)))) as -> by congruence. apply G. eauto.
      * destruct (touches C (shdr a) (smax a) op); try discriminate. destruct (call C (shdr a) (repeat (blank C) (smax a)) op) as [[[r hd] st]| | | |]; try discriminate. cbn [bind] in E.
        assert (h' = mkSH B (upd o i (Some (mkSO None (sown a) (smax a) hd)))) as -> by congruence. apply G. eauto.
Qed.
Lemma Inv_run : forall ops h xs h', Inv h -> srun C h ops = Ok (xs, h') -> Inv h'.
Proof.
  induction ops as [|op ops IH]; intros h xs h' HI E; cbn [srun] in E; [congruence|]. destruct (sstep C h op) as [[x h1]| | | |] eqn:E1; try discriminate. cbn [bind] in E.
  destruct (srun C h1 ops) as [[ys h2]| | | |] eqn:E2; try discriminate. cbn [bind] in E. assert (h' = h2) as -> by congruence. eapply IH; [|eauto]. eapply Inv_step; eauto.
Qed.
Lemma destroy_thm ops xs h i a : srun C nothing ops = Ok (xs, h) -> nth_error (sobjs h) i = Some (Some a) -> exists h', sstep C h (SDestroy i) = Ok (SUnit, h').
Proof.
  intros E Ei. apply (Inv_run _ _ _ _ Inv_nothing) in E. destruct h as [B o]. cbn [sstep]. unfold sobjat. rewrite Ei. cbn [bind sblks sobjs]. destruct (free_inv B o i a E Ei) as (bs & -> & _). cbn [bind]. eauto.
Qed.

(** What one object is to those who call it *)
Definition view (h : sheap H A) (i : nat) : option cont :=
  match nth_error (sobjs h) i with
  | Some (Some a) => match slive h a with Some (_, c) => Some (Mine (shdr a) c) | None => Some (Void (shdr a) (smax a)) end
  | _ => None
  end.
Fixpoint vrun (c : @cont H A) (ops : list O) : outcome (list (sres R)) :=
  match ops with [] => Ok [] | op :: ops => '(r, c') <- ecall C c op ;; xs <- vrun c' ops ;; Ok (SRes r :: xs) end.
Lemma scall_view h i op c : Inv h -> view h i = Some c ->
  match scall C h i op with
  | Ok (x, h') => exists r c', ecall C c op = Ok (r, c') /\ x = SRes r /\ view h' i = Some c'
  | o => answers o = ('(r, _) <- ecall C c op ;; Ok (SRes r))
  end.
Proof.
  intros HI Hv. unfold view in Hv. unfold scall, sobjat. destruct (nth_error (sobjs h) i) as [[a|]|] eqn:Eo; try discriminate. destruct h as [B o]. cbn [bind sblks sobjs] in *.
  pose proof (proj1 HI i a Eo) as Ho. cbn [sblks] in Ho. assert (Hi : i < length o) by (eapply nth_lt; eauto). destruct (renews C op) eqn:Er.
  - assert (Ec : ecall C c op = ('(r, hd', st') <- call C (shdr a) (repeat (blank C) (smax a)) op ;; Ok (r, Mine hd' st'))).
    { unfold ecall. unfold slive in Hv. cbn [sblks] in Hv. unfold okobj in Ho. destruct (sblk a) as [b|]; [|assert (c = Void (shdr a) (smax a)) as -> by congruence; rewrite Er; reflexivity].
      destruct Ho as (f & d & E1 & E2 & E3). rewrite E1 in Hv. destruct f; [assert (c = Void (shdr a) (smax a)) as -> by congruence|assert (c = Mine (shdr a) d) as -> by congruence]; rewrite Er, ?E2; reflexivity. }
    rewrite Ec. destruct (call C (shdr a) (repeat (blank C) (smax a)) op) as [[[r hd] st]| | | |]; cbn [bind answers]; auto. destruct (free_inv B o i a HI Eo) as (bs & -> & El & _). cbn [bind].
    exists r, (Mine hd st). split; auto. split; auto. unfold view, slive. cbn [sobjs sblks]. rewrite nth_upd_cases, Nat.eqb_refl by auto. cbn [sblk shdr]. now rewrite nth_app_cases, Nat.eqb_refl.
  - unfold slive in *. cbn [sblks] in *. unfold okobj in Ho. destruct (sblk a) as [b|] eqn:Eb; [destruct (nth_error B b) as [[[] d]|] eqn:EB|]; cbn [sblks] in *.
    + assert (c = Void (shdr a) (smax a)) as -> by congruence. unfold ecall. rewrite Er. destruct (touches C (shdr a) (smax a) op); [reflexivity|].
      destruct (call C (shdr a) (repeat (blank C) (smax a)) op) as [[[r hd] st]| | | |]; cbn [bind answers]; auto. exists r, (Void hd (smax a)). split; auto. split; auto. unfold view, slive. cbn [sobjs sblks].
      rewrite nth_upd_cases, Nat.eqb_refl by auto. cbn [sblk shdr smax]. now rewrite EB.
    + assert (c = Mine (shdr a) d) as -> by congruence. unfold ecall. rewrite Er. destruct (call C (shdr a) d op) as [[[r hd] st]| | | |]; cbn [bind answers]; auto.
      exists r, (Mine hd st). split; auto. split; auto. unfold view, slive. cbn [sobjs sblks]. rewrite nth_upd_cases, Nat.eqb_refl by auto. cbn [sblk shdr smax].
      rewrite nth_upd_cases, Nat.eqb_refl; auto. eapply nth_lt; eauto.
    + destruct Ho as (f & c' & E1 & _). discriminate.
    + assert (c = Void (shdr a) (smax a)) as -> by congruence. unfold ecall. rewrite Er. destruct (touches C (shdr a) (smax a) op); [reflexivity|].
      destruct (call C (shdr a) (repeat (blank C) (smax a)) op) as [[[r hd] st]| | | |]; cbn [bind answers]; auto. exists r, (Void hd (smax a)). split; auto. split; auto. unfold view, slive. cbn [sobjs sblks].
      rewrite nth_upd_cases, Nat.eqb_refl by auto. reflexivity.
Qed.
Lemma told_view : forall ops h i c, Inv h -> view h i = Some c -> told C h i ops = vrun c ops.
Proof.
  unfold told. induction ops as [|op ops IH]; intros h i c HI Hv; [reflexivity|]. cbn [map srun vrun sstep]. pose proof (scall_view h i op c HI Hv) as E. pose proof (fun x h' => Inv_step h (SCall i op) x h' HI) as HS. cbn [sstep] in HS.
  destruct (scall C h i op) as [[x h']| | | |]; [|destruct (ecall C c op) as [[]| | | |]; cbn [bind answers] in *; (discriminate || reflexivity)..].
  destruct E as (r & c' & -> & -> & Hv'). cbn [bind]. specialize (IH h' i c' (HS _ _ eq_refl) Hv'). rewrite <- IH. destruct (srun C h' (map (SCall i) ops)) as [[xs h2]| | | |]; reflexivity.
Qed.
Lemma told_gone h i ops : Inv h -> view h i = None -> told C h i ops = match ops with [] => Ok [] | _ => UB end.
Proof.
  intros HI Hv. unfold told. destruct ops as [|op ops]; [reflexivity|]. cbn [map srun sstep]. unfold scall, sobjat. unfold view in Hv. destruct (nth_error (sobjs h) i) as [[a|]|]; try reflexivity.
  destruct (slive h a) as [[]|]; discriminate.
Qed.
Lemma told_same h h' i j ops : Inv h -> Inv h' -> view h i = view h' j -> told C h i ops = told C h' j ops.
Proof.
  intros H1 H2 E. destruct (view h i) as [c|] eqn:E1.
  - rewrite (told_view ops h i c), (told_view ops h' j c); auto.
  - rewrite told_gone, told_gone; auto.
Qed.
Lemma view_app h i B a : sblks h = B -> i < length (sobjs h) -> view (mkSH B (sobjs h ++ [Some a])) i = view h i.
Proof. intros <- Hi. unfold view, slive. cbn [sobjs sblks]. now rewrite nth_error_app1. Qed.

(** A copy answers like the original. *)
Lemma copy_thm ops xs h i h' k cops : srun C nothing ops = Ok (xs, h) -> sstep C h (SCopy i) = Ok (SObj k, h') ->
  told C h' k cops = told C h i cops /\ (forall j, j < k -> told C h' j cops = told C h j cops).
Proof.
  intros E Es. assert (HI : Inv h) by (eapply Inv_run; [apply Inv_nothing|eauto]). assert (HI' : Inv h') by (eapply Inv_step; eauto).
  cbn [sstep] in Es. destruct (sobjat h i) as [a| | | |] eqn:Ea; try discriminate. cbn [bind] in Es. assert (k = length (sobjs h)) as -> by congruence.
  assert (h' = mkSH (sblks h) (sobjs h ++ [Some (mkSO (sblk a) false (smax a) (shdr a))])) as -> by congruence. apply sobjat_ok in Ea. split.
  - apply told_same; auto. unfold view, slive. cbn [sobjs sblks]. rewrite nth_app_cases, Nat.eqb_refl, Ea. reflexivity.
  - intros j Hj. apply told_same; auto. now apply view_app.
Qed.
Lemma assign_thm ops xs h i j h' cops : srun C nothing ops = Ok (xs, h) -> sstep C h (SCopyAssign i j) = Ok (SUnit, h') ->
  told C h' i cops = told C h j cops /\ (forall k, k <> i -> told C h' k cops = told C h k cops).
Proof.
  intros E Es. assert (HI : Inv h) by (eapply Inv_run; [apply Inv_nothing|eauto]). assert (HI' : Inv h') by (eapply Inv_step; eauto).
  cbn [sstep] in Es. destruct (sobjat h i) as [a0| | | |] eqn:Ea0; try discriminate. destruct (sobjat h j) as [a| | | |] eqn:Ea; try discriminate. cbn [bind] in Es.
  destruct (Nat.eqb_spec i j) as [->|Nij]; [assert (h' = h) as -> by congruence; auto|]. assert (h' = mkSH (sblks h) (upd (sobjs h) i (Some (mkSO (sblk a) false (smax a) (shdr a))))) as -> by congruence.
  apply sobjat_ok in Ea. apply sobjat_ok in Ea0. apply nth_lt in Ea0. split.
  - apply told_same; auto. unfold view, slive. cbn [sobjs sblks]. rewrite nth_upd_cases, Nat.eqb_refl, Ea by auto. reflexivity.
  - intros k Nk. apply told_same; auto. unfold view, slive. cbn [sobjs sblks]. rewrite nth_upd_cases by auto. destruct (Nat.eqb_spec i k); [congruence|reflexivity].
Qed.
(** Calls that only read, and calls on objects that share nothing, change no other object. *)
Lemma apart_thm ops xs h i op x h' j cops : srun C nothing ops = Ok (xs, h) -> sstep C h (SCall i op) = Ok (x, h') -> j <> i ->
  reads C op \/ (forall b, uses h i (Some b) -> ~ uses h j (Some b)) -> told C h' j cops = told C h j cops.
Proof.
  intros E Es Nj Hc. assert (HI : Inv h) by (eapply Inv_run; [apply Inv_nothing|eauto]). assert (HI' : Inv h') by (eapply Inv_step; eauto). apply told_same; auto.
  cbn [sstep] in Es. unfold scall in Es. destruct (sobjat h i) as [a| | | |] eqn:Ea; try discriminate. cbn [bind] in Es. apply sobjat_ok in Ea. pose proof (nth_lt _ _ _ Ea) as Hi. destruct h as [B o]. cbn [sblks sobjs] in *.
  assert (G : forall B' x', (forall b a', nth_error o j = Some (Some a') -> sblk a' = Some b -> match nth_error B' b, nth_error B b with Some (false, c), Some (false, c') => c = c' | Some (false, _), _ | _, Some (false, _) => False | _, _ => True end) ->
              view (mkSH B' (upd o i x')) j = view (mkSH B o) j).
  { intros B' x' HB. unfold view, slive. cbn [sobjs sblks]. rewrite nth_upd_cases by auto. destruct (Nat.eqb_spec i j); [congruence|]. destruct (nth_error o j) as [[a'|]|] eqn:Ej; auto. destruct (sblk a') as [b|] eqn:Eb; auto.
    specialize (HB b a' eq_refl Eb). destruct (nth_error B' b) as [[[] c]|], (nth_error B b) as [[[] c']|]; try contradiction; subst; auto. }
  assert (Hrefl : forall b, match nth_error B b, nth_error B b with Some (false, c), Some (false, c') => c = c' | Some (false, _), _ | _, Some (false, _) => False | _, _ => True end).
  { intros b. destruct (nth_error B b) as [[[] c]|]; auto. }
  destruct (renews C op) eqn:Er.
  - destruct Hc as [[Hc _]|Hc]; [congruence|]. destruct (call C (shdr a) (repeat (blank C) (smax a)) op) as [[[r hd] st]| | | |]; try discriminate. cbn [bind] in Es.
    destruct (if sown a then sfree B (sblk a) else Ok B) as [bs| | | |] eqn:Ef; try discriminate. cbn [bind] in Es.
    assert (h' = mkSH (bs ++ [(false, st)]) (upd o i (Some (mkSO (Some (length bs)) true (length st) hd)))) as -> by congruence. apply G. intros b a' Ej Eb.
    assert (Hb : b < length B). { pose proof (proj1 HI j a' Ej) as Ho. unfold okobj in Ho. rewrite Eb in Ho. destruct Ho as (f & c & F & _). eapply nth_lt; eauto. }
    pose proof (free_length _ _ _ _ Ef) as El. rewrite nth_error_app1 by lia. assert (Eq : nth_error bs b = nth_error B b).
    { destruct (sown a); [|congruence]. unfold sfree in Ef. destruct (sblk a) as [b'|] eqn:Eb'; [|congruence]. destruct (nth_error B b') as [[[] c]|] eqn:F; try discriminate. assert (bs = upd B b' (true, c)) as -> by congruence.
      rewrite nth_upd_cases by (eapply nth_lt; eauto). destruct (Nat.eqb_spec b' b) as [->|]; auto. exfalso. apply (Hc b); [exists a|exists a']; auto. }
    rewrite Eq. apply Hrefl.
  - unfold slive in Es. cbn [sblks] in Es.
    assert (V : (if touches C (shdr a) (smax a) op then UB else '(r, hd, _) <- call C (shdr a) (repeat (blank C) (smax a)) op ;; Ok (SRes r, mkSH B (upd o i (Some (mkSO (sblk a) (sown a) (smax a) hd))))) = Ok (x, h') ->
                view h' j = view (mkSH B o) j).
    { destruct (touches C (shdr a) (smax a) op); [discriminate|]. destruct (call C (shdr a) (repeat (blank C) (smax a)) op) as [[[r hd] st]| | | |]; try discriminate. cbn [bind]. intros Eq.
      assert (h' = mkSH B (upd o i (Some (mkSO (sblk a) (sown a) (smax a) hd)))) as -> by congruence. apply G. intros; apply Hrefl. }
    destruct (sblk a) as [b|] eqn:Eb; [|auto]. destruct (nth_error B b) as [[[] c]|] eqn:EB; auto.
    destruct (call C (shdr a) c op) as [[[r hd] st]| | | |] eqn:Ec; try discriminate. cbn [bind] in Es. assert (h' = mkSH (upd B b (false, st)) (upd o i (Some (mkSO (Some b) (sown a) (smax a) hd)))) as -> by congruence.
    apply G. intros b' a' Ej Eb'. rewrite nth_upd_cases by (eapply nth_lt; eauto). destruct (Nat.eqb_spec b b') as [<-|]; [|apply Hrefl]. rewrite EB. destruct Hc as [[_ Hc]|Hc]; [eapply Hc; eauto|].
    exfalso. apply (Hc b); [exists a|exists a']; auto.
Qed.

(** A property of the members and the size, which constructors establish and calls keep, holds of every object. *)
Section Hdr.
Variable P : H -> nat -> Prop.
Variable okN : N -> Prop.
Variable okO : O -> Prop.
Hypothesis Pmake : forall n e hd st, okN n -> make C n = Ok (e, hd, st) -> P hd (length st).
Hypothesis Pcall : forall hd st op r hd' st', okO op -> P hd (length st) -> call C hd st op = Ok (r, hd', st') -> P hd' (length st').
Definition okop (op : sop N O) : Prop := match op with SNew n => okN n | SCall _ op => okO op | _ => True end.
Definition all_P (h : sheap H A) : Prop := forall i a, nth_error (sobjs h) i = Some (Some a) -> P (shdr a) (smax a).
Lemma all_P_step h op x h' : Inv h -> all_P h -> okop op -> sstep C h op = Ok (x, h') -> all_P h'.
Proof.
  intros HI HP Hok E. destruct h as [B o]. unfold all_P in *. cbn [sblks sobjs] in *. destruct op as [n|i|i|i j|i j|i|i op]; cbn [sstep okop] in *.
  - destruct (make C n) as [[[e hd] st]| | | |] eqn:Em; try discriminate. cbn [bind sblks sobjs] in E. assert (h' = mkSH (B ++ [(false, st)]) (o ++ [Some (mkSO (Some (length B)) (negb e) (length st) hd)])) as -> by congruence.
    intros k a Ek. cbn [sobjs] in Ek. rewrite nth_app_cases in Ek. destruct (k =? length o); [|eauto]. assert (a = mkSO (Some (length B)) (negb e) (length st) hd) as -> by congruence. cbn [shdr smax]. eauto.
  - destruct (sobjat (mkSH B o) i) as [a| | | |] eqn:Ea; try discriminate. cbn [bind sblks sobjs] in E. assert (h' = mkSH B (o ++ [Some (mkSO (sblk a) false (smax a) (shdr a))])) as -> by congruence.
    apply sobjat_ok in Ea. cbn [sobjs] in *. intros k a' Ek. rewrite nth_app_cases in Ek. destruct (k =? length o); [|eauto]. assert (a' = mkSO (sblk a) false (smax a) (shdr a)) as -> by congruence. cbn [shdr smax]. eauto.
  - destruct (sobjat (mkSH B o) i) as [a| | | |] eqn:Ea; try discriminate. cbn [bind sblks sobjs] in E. assert (h' = mkSH B (upd o i (Some (mkSO None (sown a) (smax a) (shdr a))) ++ [Some a])) as -> by congruence.
    apply sobjat_ok in Ea. cbn [sobjs] in *. intros k a' Ek. rewrite nth_app_cases in Ek. destruct (k =? _); [assert (a' = a) as -> by congruence; eauto|]. apply obj_upd in Ek as [[_ Ek]|[_ Ek]]; [|eauto].
    assert (a' = mkSO None (sown a) (smax a) (shdr a)) as -> by congruence. cbn [shdr smax]. eauto.
  - destruct (sobjat (mkSH B o) i) as [a0| | | |] eqn:Ea0; try discriminate. destruct (sobjat (mkSH B o) j) as [a| | | |] eqn:Ea; try discriminate. cbn [bind sblks sobjs] in E.
    destruct (Nat.eqb_spec i j) as [->|Nij]; [assert (h' = mkSH B o) as -> by congruence; exact HP|]. assert (h' = mkSH B (upd o i (Some (mkSO (sblk a) false (smax a) (shdr a))))) as -> by congruence.
    apply sobjat_ok in Ea. cbn [sobjs] in *. intros k a' Ek. apply obj_upd in Ek as [[_ Ek]|[_ Ek]]; [|eauto]. assert (a' = mkSO (sblk a) false (smax a) (shdr a)) as -> by congruence. cbn [shdr smax]. eauto.
  - destruct (sobjat (mkSH B o) i) as [a0| | | |] eqn:Ea0; try discriminate. destruct (sobjat (mkSH B o) j) as [a| | | |] eqn:Ea; try discriminate. cbn [bind sblks sobjs] in E.
    destruct (Nat.eqb_spec i j) as [->|Nij]; [assert (h' = mkSH B o) as -> by congruence; exact HP|].
    assert (h' = mkSH B (upd (upd o j (Some (mkSO None (sown a) (smax a) (shdr a)))) i (Some a))) as -> by congruence. apply sobjat_ok in Ea. cbn [sobjs] in *.
    intros k a' Ek. apply obj_upd in Ek as [[_ Ek]|[_ Ek]]; [assert (a' = a) as -> by congruence; eauto|]. apply obj_upd in Ek as [[_ Ek]|[_ Ek]]; [|eauto].
    assert (a' = mkSO None (sown a) (smax a) (shdr a)) as -> by congruence. cbn [shdr smax]. eauto.
  - destruct (sobjat (mkSH B o) i) as [a| | | |] eqn:Ea; try discriminate. cbn [bind sblks sobjs] in E. destruct (if sown a then sfree B (sblk a) else Ok B) as [bs| | | |]; try discriminate. cbn [bind] in E.
    assert (h' = mkSH bs (upd o i None)) as -> by congruence. cbn [sobjs]. intros k a' Ek. apply obj_upd in Ek as [[_ Ek]|[Nk Ek]]; [discriminate|eauto].
  - unfold scall in E. destruct (sobjat (mkSH B o) i) as [a| | | |] eqn:Ea; try discriminate. cbn [bind sblks sobjs] in E. apply sobjat_ok in Ea. cbn [sobjs] in Ea. pose proof (HP _ _ Ea) as Pa.
    pose proof (proj1 HI i a Ea) as Ho. cbn [sblks] in Ho.
    assert (G : forall p w n hd, P hd n -> forall k a', nth_error (upd o i (Some (mkSO p w n hd))) k = Some (Some a') -> P (shdr a') (smax a')).
    { intros p w n hd Hp k a' Ek. apply obj_upd in Ek as [[_ Ek]|[_ Ek]]; [|eauto]. assert (a' = mkSO p w n hd) as -> by congruence. exact Hp. }
    destruct (renews C op) eqn:Er.
    + destruct (call C (shdr a) (repeat (blank C) (smax a)) op) as [[[r hd] st]| | | |] eqn:Ec; try discriminate. cbn [bind] in E. destruct (if sown a then sfree B (sblk a) else Ok B) as [bs| | | |]; try discriminate. cbn [bind] in E.
      assert (h' = mkSH (bs ++ [(false, st)]) (upd o i (Some (mkSO (Some (length bs)) true (length st) hd)))) as -> by congruence. cbn [sobjs]. apply G. eapply Pcall; eauto. now rewrite repeat_length.
    + assert (V : (if touches C (shdr a) (smax a) op then UB else '(r, hd, _) <- call C (shdr a) (repeat (blank C) (smax a)) op ;; Ok (SRes r, mkSH B (upd o i (Some (mkSO (sblk a) (sown a) (smax a) hd))))) = Ok (x, h') ->
                  forall k a', nth_error (sobjs h') k = Some (Some a') -> P (shdr a') (smax a')).
      { destruct (touches C (shdr a) (smax a) op); [discriminate|]. destruct (call C (shdr a) (repeat (blank C) (smax a)) op) as [[[r hd] st]| | | |] eqn:Ec; try discriminate. cbn [bind]. intros Eq.
        assert (h' = mkSH B (upd o i (Some (mkSO (sblk a) (sown a) (smax a) hd)))) as -> by congruence. cbn [sobjs]. apply G. replace (smax a) with (length st); [eapply Pcall; eauto; now rewrite repeat_length|].
        rewrite (Hfix _ _ _ _ _ _ Er Ec). apply repeat_length. }
      unfold slive in E. cbn [sblks] in E. destruct (sblk a) as [b|] eqn:Eb; [|exact (V E)]. destruct (nth_error B b) as [[[] c]|] eqn:EB; [exact (V E)| |exact (V E)]. destruct (call C (shdr a) c op) as [[[r hd] st]| | | |] eqn:Ec; try discriminate. cbn [bind] in E.
      assert (h' = mkSH (upd B b (false, st)) (upd o i (Some (mkSO (Some b) (sown a) (smax a) hd)))) as -> by congruence. cbn [sobjs]. apply G.
      unfold okobj in Ho. rewrite Eb in Ho. destruct Ho as (f & c' & F1 & F2 & _). assert (c' = c) as -> by congruence. rewrite F2 in *. rewrite <- (Hfix _ _ _ _ _ _ Er Ec). eapply Pcall; eauto.
Qed.
Lemma all_P_run : forall ops h xs h', Inv h -> all_P h -> Forall okop ops -> srun C h ops = Ok (xs, h') -> all_P h'.
Proof.
  induction ops as [|op ops IH]; intros h xs h' HI HP Hf E; cbn [srun] in E; [assert (h' = h) as -> by congruence; exact HP|]. inversion Hf; subst. destruct (sstep C h op) as [[x h1]| | | |] eqn:E1; try discriminate. cbn [bind] in E.
  destruct (srun C h1 ops) as [[ys h2]| | | |] eqn:E2; try discriminate. cbn [bind] in E. assert (h' = h2) as -> by congruence. eapply (IH h1); eauto; [eapply Inv_step; eauto|eapply all_P_step; eauto].
Qed.
Lemma hdr_inv ops xs h i a : Forall okop ops -> srun C nothing ops = Ok (xs, h) -> nth_error (sobjs h) i = Some (Some a) -> P (shdr a) (smax a).
Proof. intros Hf E. eapply (all_P_run ops nothing); eauto; [apply Inv_nothing|]. intros [|k] a' Ek; discriminate. Qed.
End Hdr.

(** Two objects on one storage *)
Definition twins (h : sheap H A) (i k : nat) (hi hk : H) (st : list A) : Prop :=
  exists b ai ak, nth_error (sobjs h) i = Some (Some ai) /\ nth_error (sobjs h) k = Some (Some ak) /\ sblk ai = Some b /\ sblk ak = Some b /\
    nth_error (sblks h) b = Some (false, st) /\ shdr ai = hi /\ shdr ak = hk.
Lemma twins_sym h i k hi hk st : twins h i k hi hk st -> twins h k i hk hi st.
Proof. intros (b & ai & ak & H1 & H2 & H3 & H4 & H5 & H6 & H7). exists b, ak, ai. auto 8. Qed.
Lemma twins_view h i k hi hk st : twins h i k hi hk st -> view h i = Some (Mine hi st) /\ view h k = Some (Mine hk st).
Proof. intros (b & ai & ak & H1 & H2 & H3 & H4 & H5 & H6 & H7). unfold view, slive. rewrite H1, H2, H3, H4, H5. subst. auto. Qed.
Lemma call_shared h i k hi hk st op x h' : twins h i k hi hk st -> i <> k -> renews C op = false -> sstep C h (SCall k op) = Ok (x, h') ->
  exists r hd' st', call C hk st op = Ok (r, hd', st') /\ x = SRes r /\ twins h' i k hi hd' st'.
Proof.
  intros (b & ai & ak & H1 & H2 & H3 & H4 & H5 & H6 & H7) Nik Er E. cbn [sstep] in E. unfold scall, sobjat in E. rewrite H2 in E. cbn [bind] in E. rewrite Er in E. unfold slive in E. rewrite H4, H5, H7 in E.
  destruct (call C hk st op) as [[[r hd'] st']| | | |]; try discriminate. cbn [bind] in E. exists r, hd', st'. split; auto. split; [congruence|].
  assert (h' = mkSH (upd (sblks h) b (false, st')) (upd (sobjs h) k (Some (mkSO (Some b) (sown ak) (smax ak) hd')))) as -> by congruence.
  exists b, ai, (mkSO (Some b) (sown ak) (smax ak) hd'). cbn [sblks sobjs sblk shdr]. rewrite !nth_upd_cases by (eapply nth_lt; eauto). rewrite !Nat.eqb_refl. destruct (Nat.eqb_spec k i); [congruence|]. auto 8.
Qed.
Lemma copy_twins h i k h' hd st : view h i = Some (Mine hd st) -> sstep C h (SCopy i) = Ok (SObj k, h') -> twins h' i k hd hd st /\ i <> k.
Proof.
  intros Hv E. cbn [sstep] in E. destruct (sobjat h i) as [a| | | |] eqn:Ea; try discriminate. cbn [bind] in E. apply sobjat_ok in Ea. unfold view in Hv. rewrite Ea in Hv. unfold slive in Hv.
  destruct (sblk a) as [b|] eqn:Eb; [|discriminate]. destruct (nth_error (sblks h) b) as [[[] c]|] eqn:EB; try discriminate. assert (c = st) as -> by congruence. assert (shdr a = hd) as E1 by congruence.
  assert (k = length (sobjs h)) as -> by congruence. assert (h' = mkSH (sblks h) (sobjs h ++ [Some (mkSO (Some b) false (smax a) (shdr a))])) as -> by congruence. pose proof (nth_lt _ _ _ Ea) as Hi. split; [|lia].
  exists b, a, (mkSO (Some b) false (smax a) (shdr a)). cbn [sblks sobjs sblk shdr]. rewrite !nth_app_cases, Nat.eqb_refl. destruct (Nat.eqb_spec i (length (sobjs h))); [lia|]. auto 8.
Qed.
Lemma view_copy h i k h' : sstep C h (SCopy i) = Ok (SObj k, h') -> view h' k = view h i.
Proof.
  intros E. cbn [sstep] in E. destruct (sobjat h i) as [a| | | |] eqn:Ea; try discriminate. cbn [bind] in E. apply sobjat_ok in Ea. assert (k = length (sobjs h)) as -> by congruence.
  assert (h' = mkSH (sblks h) (sobjs h ++ [Some (mkSO (sblk a) false (smax a) (shdr a))])) as -> by congruence. unfold view, slive. cbn [sobjs sblks]. rewrite nth_app_cases, Nat.eqb_refl, Ea. reflexivity.
Qed.
(** The copy of an object that was destroyed *)
Lemma dangling_view h i b k h' x h2 hd st : owner h i b -> view h i = Some (Mine hd st) -> Inv h -> sstep C h (SCopy i) = Ok (SObj k, h') -> sstep C h' (SDestroy i) = Ok (x, h2) ->
  view h2 k = Some (Void hd (length st)).
Proof.
  intros (a & E1 & E2 & E3) Hv HI Ec Ed. cbn [sstep] in Ec. unfold sobjat in Ec. rewrite E1 in Ec. cbn [bind] in Ec. assert (k = length (sobjs h)) as -> by congruence.
  assert (h' = mkSH (sblks h) (sobjs h ++ [Some (mkSO (sblk a) false (smax a) (shdr a))])) as -> by congruence. clear Ec. pose proof (nth_lt _ _ _ E1) as Hi.
  cbn [sstep] in Ed. unfold sobjat in Ed. cbn [sobjs sblks] in Ed. rewrite nth_app_cases in Ed. destruct (Nat.eqb_spec i (length (sobjs h))); [lia|]. rewrite E1 in Ed. cbn [bind] in Ed. rewrite E2, E3 in Ed.
  unfold view, slive in Hv. rewrite E1, E3 in Hv. destruct (nth_error (sblks h) b) as [[[] c]|] eqn:EB; try discriminate. assert (c = st) as -> by congruence. assert (shdr a = hd) as F1 by congruence.
  unfold sfree in Ed. rewrite EB in Ed. cbn [bind] in Ed. assert (h2 = mkSH (upd (sblks h) b (true, st)) (upd (sobjs h ++ [Some (mkSO (Some b) false (smax a) (shdr a))]) i None)) as -> by congruence.
  unfold view, slive. cbn [sobjs sblks]. rewrite nth_upd_cases by (rewrite app_length; simpl; lia). destruct (Nat.eqb_spec i (length (sobjs h))); [lia|]. rewrite nth_app_cases, Nat.eqb_refl. cbn [sblk shdr smax].
  rewrite nth_upd_cases, Nat.eqb_refl by (eapply nth_lt; eauto). pose proof (proj1 HI i a E1) as Ho. unfold okobj in Ho. rewrite E3 in Ho. destruct Ho as (f & c & G1 & G2 & _). assert (c = st) as -> by congruence. congruence.
Qed.
End P.
