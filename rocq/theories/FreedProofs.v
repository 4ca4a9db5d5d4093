(** Proofs about the storages of ring buffers, line buffers and vectors. *)
From Coq Require Import List Arith Bool ZArith Ascii Lia.
From Verif Require Import Base RingOps RingModel LineModel VectorModel VectorSpec ShareModel ShareSpec ShareProofs ShareInst FreedSpec.
Import ListNotations.

Section P.
Context {N H A O R : Type}.
Variable C : cls N H A O R.
Hypothesis Hfix : fixed_size C.
Variable given : N -> bool.
Variable replaces : O -> bool.
Hypothesis Hgiven : forall n e hd st, make C n = Ok (e, hd, st) -> e = given n.
Hypothesis Hrep : forall o, renews C o = replaces o.
Let heap := sheap H A.

Definition flag (h : heap) (b : nat) : option bool := option_map fst (nth_error (sblks h) b).
Definition owns (h : heap) (b : nat) : Prop := exists i, owner h i b.
Definition effect (h h' : heap) (new : list bool) (fr lo : nat -> Prop) : Prop :=
  length (sblks h') = length (sblks h) + length new /\
  (forall b f, flag h b = Some f -> exists f', flag h' b = Some f' /\ (f' = true <-> f = true \/ fr b)) /\
  (forall b, b < length (sblks h) -> (owns h' b <-> owns h b /\ ~ fr b /\ ~ lo b)) /\
  (forall k e, nth_error new k = Some e -> flag h' (length (sblks h) + k) = Some false /\ (owns h' (length (sblks h) + k) <-> e = false)) /\
  (forall b, fr b -> owns h b) /\ (forall b, lo b -> owns h b) /\ (forall b, fr b \/ ~ fr b) /\ (forall b, fr b -> ~ lo b).

Lemma owner_dec (h : heap) i b : owner h i b \/ ~ owner h i b.
Proof.
  unfold owner. destruct (nth_error (sobjs h) i) as [[a|]|]; [|right; intros (a & E & _); discriminate|right; intros (a & E & _); discriminate].
  destruct (sown a) eqn:Ew; [|right; intros (a' & E & E2 & _); congruence]. destruct (sblk a) as [b'|] eqn:Eb; [|right; intros (a' & E & _ & E2); congruence].
  destruct (Nat.eq_dec b' b) as [->|Nb]; [left; exists a; auto|right; intros (a' & E & _ & E2); congruence].
Qed.
Lemma owner_lt (h : heap) i b : Inv h -> owner h i b -> b < length (sblks h).
Proof. intros [I1 _] (a & E & _ & Eb). specialize (I1 i a E). unfold okobj in I1. rewrite Eb in I1. destruct I1 as (f & c & F & _). eapply nth_lt; eauto. Qed.
Lemma flag_none (h : heap) b : b < length (sblks h) -> exists f, flag h b = Some f.
Proof. intros Hb. unfold flag. destruct (nth_error (sblks h) b) as [[f c]|] eqn:E; [simpl; eauto|]. apply nth_error_None in E. lia. Qed.

(** Steps that leave all storages as they are *)
Lemma effect_same (B B' : list (bool * list A)) (o o' : list (option (sobj H))) lo :
  length B' = length B -> (forall b, option_map fst (nth_error B' b) = option_map fst (nth_error B b)) ->
  (forall b, owns (mkSH B' o') b <-> owns (mkSH B o) b /\ ~ lo b) -> (forall b, lo b -> owns (mkSH B o) b) -> effect (mkSH B o) (mkSH B' o') [] (fun _ => False) lo.
Proof.
  intros El Ef Eo Hl. unfold effect, flag. cbn [sblks length]. splits; auto; try lia.
  - intros b f E. exists f. rewrite Ef. split; auto. tauto.
  - intros b _. rewrite Eo. tauto.
  - intros [|k]; discriminate.
Qed.
(** Freeing what object [i] owns *)
Lemma free_flag B o i (a : sobj H) bs : nth_error o i = Some (Some a) -> (if sown a then @sfree A B (sblk a) else Ok B) = Ok bs ->
  length bs = length B /\ forall b f, option_map fst (nth_error B b) = Some f -> exists f', option_map fst (nth_error bs b) = Some f' /\ (f' = true <-> f = true \/ owner (mkSH B o) i b).
Proof.
  intros Ei E. assert (K : forall b, owner (mkSH B o) i b <-> sown a = true /\ sblk a = Some b).
  { intros b. split; [intros (a' & E1 & E2); cbn [sobjs] in E1; assert (a' = a) by congruence; subst; auto|intros E2; exists a; auto]. }
  destruct (sown a) eqn:Ew; [destruct (sblk a) as [b0|] eqn:Eb|].
  - unfold sfree in E. destruct (nth_error B b0) as [[[] c]|] eqn:E0; try discriminate. assert (bs = upd B b0 (true, c)) as -> by congruence. split; [apply upd_length|].
    intros b f Ef. rewrite nth_upd_cases by (eapply nth_lt; eauto). destruct (Nat.eqb_spec b0 b) as [<-|Nb].
    + exists true. split; [reflexivity|]. split; [|auto]. intros _. right. apply K. auto.
    + exists f. split; auto. rewrite K. split; [auto|]. intros [|[_ E2]]; [auto|congruence].
  - simpl in E. assert (bs = B) as -> by congruence. split; auto. intros b f Ef. exists f. split; auto. rewrite K. split; [auto|]. intros [|[_ E2]]; [auto|congruence].
  - assert (bs = B) as -> by congruence. split; auto. intros b f Ef. exists f. split; auto. rewrite K. split; [auto|]. intros [|[E2 _]]; [auto|congruence].
Qed.

Lemma step_effect h op x h' : Inv h -> sstep C h op = Ok (x, h') ->
  effect h h' (storage given replaces op) (match op with SDestroy i => owner h i | SCall i o => fun b => replaces o = true /\ owner h i b | _ => fun _ => False end) (overwrites h op).
Proof.
  intros HI E. pose proof HI as [I1 I2]. destruct h as [B o]. cbn [sblks sobjs] in *. destruct op as [n|i|i|i j|i j|i|i op]; cbn [sstep] in E; unfold overwrites; cbn [storage].
  - destruct (make C n) as [[[e hd] st]| | | |] eqn:Em; try discriminate. cbn [bind sblks sobjs] in E.
    assert (h' = mkSH (B ++ [(false, st)]) (o ++ [Some (mkSO (Some (length B)) (negb e) (length st) hd)])) as -> by congruence. rewrite <- (Hgiven _ _ _ _ Em).
    assert (K : forall b, owns (mkSH (B ++ [(false, st)]) (o ++ [Some (mkSO (Some (length B)) (negb e) (length st) hd)])) b <-> owns (mkSH B o) b \/ (b = length B /\ e = false)).
    { intros b. split.
      - intros (k & U). apply (owner_app (mkSH B o)) in U as [(_ & U1 & U2)|(_ & U)]; [right|left; exists k; auto]. cbn [sown sblk] in *. destruct e; [discriminate|]. split; congruence.
      - intros [(k & a & U1 & U2)|[-> ->]].
        + exists k, a. split; auto. cbn [sobjs] in *. rewrite nth_error_app1; auto. eapply nth_lt; eauto.
        + exists (length o), (mkSO (Some (length B)) true (length st) hd). split; auto. cbn [sobjs]. rewrite nth_app_cases, Nat.eqb_refl. reflexivity. }
    unfold effect, flag. cbn [sblks]. splits; try (intros; tauto).
    + rewrite app_length. reflexivity.
    + intros b f Ef. exists f. rewrite nth_error_app1; [split; [auto|tauto]|]. destruct (nth_error B b) eqn:Eb; [eapply nth_lt; eauto|discriminate].
    + intros b Hb. rewrite K. split; [|tauto]. intros [U|[-> _]]; [tauto|lia].
    + intros [|[|k]] e' Ek; try discriminate. assert (e' = e) as -> by (simpl in Ek; congruence). rewrite Nat.add_0_r, nth_app_cases, Nat.eqb_refl. split; [reflexivity|].
      rewrite K. split; [|auto]. intros [(k & U)|[_ U]]; [|auto]. apply owner_lt in U; [|exact HI]. cbn [sblks] in U. lia.
  - destruct (sobjat (mkSH B o) i) as [a| | | |] eqn:Ea; try discriminate. cbn [bind sblks sobjs] in E. assert (h' = mkSH B (o ++ [Some (mkSO (sblk a) false (smax a) (shdr a))])) as -> by congruence.
    apply effect_same; auto; [|intros b []]. intros b. split.
    + intros (k & U). apply (owner_app (mkSH B o)) in U as [(_ & U1 & _)|(_ & U)]; [discriminate|]. split; [exists k; auto|tauto].
    + intros [(k & a' & U1 & U2) _]. exists k, a'. split; auto. cbn [sobjs] in *. rewrite nth_error_app1; auto. eapply nth_lt; eauto.
  - destruct (sobjat (mkSH B o) i) as [a| | | |] eqn:Ea; try discriminate. cbn [bind sblks sobjs] in E. assert (h' = mkSH B (upd o i (Some (mkSO None (sown a) (smax a) (shdr a))) ++ [Some a])) as -> by congruence.
    apply sobjat_ok in Ea. cbn [sobjs] in Ea. apply effect_same; auto; [|intros b []]. intros b. split.
    + intros (k & U). split; [|tauto]. apply (owner_app (mkSH B (upd o i _))) in U as [(_ & U)|(_ & U)]; [exists i, a; auto|].
      apply owner_upd in U as [(_ & a' & E1 & _ & E2)|[_ U]]; [|exists k; auto]. assert (a' = mkSO None (sown a) (smax a) (shdr a)) by congruence. subst. discriminate.
    + intros [(k & a' & U1 & U2) _]. cbn [sobjs] in U1. destruct (Nat.eq_dec k i) as [->|Nk].
      * exists (length (upd o i (Some (mkSO None (sown a) (smax a) (shdr a))))), a. cbn [sobjs]. rewrite nth_app_cases, Nat.eqb_refl. assert (a' = a) by congruence. subst. auto.
      * exists k, a'. split; auto. cbn [sobjs]. rewrite nth_error_app1 by (rewrite upd_length; eapply nth_lt; eauto). rewrite nth_upd_cases by (eapply nth_lt; eauto). destruct (Nat.eqb_spec i k); [congruence|auto].
  - destruct (sobjat (mkSH B o) i) as [a0| | | |] eqn:Ea0; try discriminate. destruct (sobjat (mkSH B o) j) as [a| | | |] eqn:Ea; try discriminate. cbn [bind sblks sobjs] in E.
    apply sobjat_ok in Ea0. cbn [sobjs] in Ea0.
    destruct (Nat.eqb_spec i j) as [->|Nij].
    { assert (h' = mkSH B o) as -> by congruence. apply effect_same; auto; [intros b; split; [intros U; split; [auto|intros [? _]; auto]|tauto]|intros b [? _]; exfalso; auto]. }
    assert (h' = mkSH B (upd o i (Some (mkSO (sblk a) false (smax a) (shdr a))))) as -> by congruence. apply effect_same; auto; [|intros b [_ U]; exists i; auto]. intros b. split.
    + intros (k & U). apply owner_upd in U as [(_ & a' & E1 & E2 & _)|[Nk U]]; [assert (a' = mkSO (sblk a) false (smax a) (shdr a)) by congruence; subst; discriminate|].
      split; [exists k; auto|]. intros [_ V]. apply Nk. exact (I2 k i b U V).
    + intros [(k & a' & U1 & U2) Nl]. cbn [sobjs] in U1. exists k, a'. split; auto. cbn [sobjs]. rewrite nth_upd_cases by (eapply nth_lt; eauto).
      destruct (Nat.eqb_spec i k) as [<-|]; [|auto]. exfalso. apply Nl. split; auto. exists a'. auto.
  - destruct (sobjat (mkSH B o) i) as [a0| | | |] eqn:Ea0; try discriminate. destruct (sobjat (mkSH B o) j) as [a| | | |] eqn:Ea; try discriminate. cbn [bind sblks sobjs] in E.
    apply sobjat_ok in Ea0, Ea. cbn [sobjs] in Ea0, Ea.
    destruct (Nat.eqb_spec i j) as [->|Nij].
    { assert (h' = mkSH B o) as -> by congruence. apply effect_same; auto; [intros b; split; [intros U; split; [auto|intros [? _]; auto]|tauto]|intros b [? _]; exfalso; auto]. }
    assert (h' = mkSH B (upd (upd o j (Some (mkSO None (sown a) (smax a) (shdr a)))) i (Some a))) as -> by congruence. apply effect_same; auto; [|intros b [_ U]; exists i; auto]. intros b. split.
    + intros (k & U). apply owner_upd in U as [(_ & a' & E1 & E2)|[Nk U]].
      * assert (a' = a) by congruence. subst a'. assert (V : owner (mkSH B o) j b) by (exists a; auto). split; [exists j; auto|]. intros [_ W]. apply Nij. exact (I2 i j b W V).
      * apply owner_upd in U as [(_ & a' & E1 & _ & E2)|[Nj U]]; [assert (a' = mkSO None (sown a) (smax a) (shdr a)) by congruence; subst; discriminate|].
        split; [exists k; auto|]. intros [_ V]. apply Nk. exact (I2 k i b U V).
    + intros [(k & a' & U1 & U2) Nl]. cbn [sobjs] in U1. destruct (Nat.eq_dec k i) as [->|Ni]; [exfalso; apply Nl; split; auto; exists a'; auto|]. destruct (Nat.eq_dec k j) as [->|Nj].
      * assert (a' = a) by congruence. subst a'. exists i, a. split; auto. cbn [sobjs]. rewrite nth_upd_cases, Nat.eqb_refl by (rewrite upd_length; eapply nth_lt; eauto). reflexivity.
      * exists k, a'. split; auto. cbn [sobjs]. rewrite !nth_upd_cases by (rewrite ?upd_length; eapply nth_lt; eauto). destruct (Nat.eqb_spec i k); [congruence|]. destruct (Nat.eqb_spec j k); [congruence|auto].
  - destruct (sobjat (mkSH B o) i) as [a| | | |] eqn:Ea; try discriminate. cbn [bind sblks sobjs] in E. apply sobjat_ok in Ea. cbn [sobjs] in Ea.
    destruct (if sown a then sfree B (sblk a) else Ok B) as [bs| | | |] eqn:Ef; try discriminate. cbn [bind] in E. assert (h' = mkSH bs (upd o i None)) as -> by congruence.
    destruct (free_flag B o i a bs Ea Ef) as [El Hf]. unfold effect, flag. cbn [sblks length]. splits; auto; try lia.
    + intros b _. split.
      * intros (k & U). apply owner_upd in U as [(_ & a' & E1 & _)|[Nk U]]; [discriminate|]. split; [exists k; auto|]. split; [|tauto]. intros V. apply Nk. exact (I2 k i b U V).
      * intros [(k & a' & U1 & U2) [Nf _]]. cbn [sobjs] in U1. exists k, a'. split; auto. cbn [sobjs]. rewrite nth_upd_cases by (eapply nth_lt; eauto).
        destruct (Nat.eqb_spec i k) as [<-|]; [|auto]. exfalso. apply Nf. exists a'. auto.
    + intros [|k]; discriminate.
    + intros b U. exists i. auto.
    + intros b. apply owner_dec.
  - unfold scall in E. destruct (sobjat (mkSH B o) i) as [a| | | |] eqn:Ea; try discriminate. cbn [bind sblks sobjs] in E. apply sobjat_ok in Ea. cbn [sobjs] in Ea. rewrite Hrep in E. destruct (replaces op) eqn:Er.
    + destruct (call C (shdr a) (repeat (blank C) (smax a)) op) as [[[r hd] st]| | | |]; try discriminate. cbn [bind] in E.
      destruct (if sown a then sfree B (sblk a) else Ok B) as [bs| | | |] eqn:Ef; try discriminate. cbn [bind] in E.
      assert (h' = mkSH (bs ++ [(false, st)]) (upd o i (Some (mkSO (Some (length bs)) true (length st) hd)))) as -> by congruence.
      destruct (free_flag B o i a bs Ea Ef) as [El Hf]. unfold effect, flag. cbn [sblks length].
      assert (K : forall b, owns (mkSH (bs ++ [(false, st)]) (upd o i (Some (mkSO (Some (length bs)) true (length st) hd)))) b <-> (owns (mkSH B o) b /\ ~ owner (mkSH B o) i b) \/ b = length B).
      { intros b. split.
        - intros (k & U). apply owner_upd in U as [(_ & a' & E1 & _ & E2)|[Nk U]].
          + right. assert (a' = mkSO (Some (length bs)) true (length st) hd) by congruence. subst. simpl in E2. congruence.
          + left. split; [exists k; auto|]. intros V. apply Nk. exact (I2 k i b U V).
        - intros [[(k & a' & U1 & U2) Nf]| ->].
          + cbn [sobjs] in U1. exists k, a'. split; auto. cbn [sobjs]. rewrite nth_upd_cases by (eapply nth_lt; eauto). destruct (Nat.eqb_spec i k) as [<-|]; [|auto]. exfalso. apply Nf. exists a'. auto.
          + exists i, (mkSO (Some (length bs)) true (length st) hd). cbn [sobjs]. rewrite nth_upd_cases, Nat.eqb_refl by (eapply nth_lt; eauto). rewrite <- El. auto. }
      splits; auto.
      * rewrite app_length. simpl. lia.
      * intros b f Eb. destruct (Hf b f Eb) as (f' & F1 & F2). exists f'. rewrite nth_error_app1; [split; [auto|tauto]|]. destruct (nth_error bs b) eqn:Eb'; [eapply nth_lt; eauto|discriminate].
      * intros b Hb. rewrite K. split; [|tauto]. intros [U| ->]; [tauto|lia].
      * intros [|[|k]] e Ek; try discriminate. simpl in Ek. assert (e = false) as -> by congruence. rewrite Nat.add_0_r. split; [|rewrite K; tauto]. rewrite nth_app_cases, El, Nat.eqb_refl. reflexivity.
      * intros b [_ U]. exists i. auto.
      * intros b [].
      * intros b. destruct (owner_dec (mkSH B o) i b); [left|right]; tauto.
    + assert (G : forall B' hd, length B' = length B -> (forall b, option_map fst (nth_error B' b) = option_map fst (nth_error B b)) ->
        effect (mkSH B o) (mkSH B' (upd o i (Some (mkSO (sblk a) (sown a) (smax a) hd)))) [] (fun b => false = true /\ owner (mkSH B o) i b) (fun _ => False)).
      { intros B' hd Hl HB. assert (G : effect (mkSH B o) (mkSH B' (upd o i (Some (mkSO (sblk a) (sown a) (smax a) hd)))) [] (fun _ => False) (fun _ => False)).
        { apply effect_same; auto; [|intros b []]. intros b. split.
          - intros (k & U). split; [|tauto]. apply owner_upd in U as [(_ & a' & E1 & E2 & E3)|[_ U]]; [|exists k; auto]. assert (a' = mkSO (sblk a) (sown a) (smax a) hd) by congruence. subst. exists i, a. auto.
          - intros [(k & a' & U1 & U2 & U3) _]. cbn [sobjs] in U1. exists k. destruct (Nat.eq_dec i k) as [<-|Nk].
            + assert (a' = a) by congruence. subst. exists (mkSO (sblk a) (sown a) (smax a) hd). cbn [sobjs]. rewrite nth_upd_cases, Nat.eqb_refl by (eapply nth_lt; eauto). auto.
            + exists a'. cbn [sobjs]. rewrite nth_upd_cases by (eapply nth_lt; eauto). destruct (Nat.eqb_spec i k); [congruence|auto]. }
        destruct G as (G1 & G2 & G3 & G4 & G5 & G6 & G7 & G8). unfold effect. splits; auto.
        - intros b f Eb. destruct (G2 b f Eb) as (f' & F1 & F2). exists f'. split; auto. rewrite F2. split; [tauto|]. intros [|[? _]]; [auto|discriminate].
        - intros b Hb. rewrite G3 by auto. split; [|tauto]. intros (U & _). repeat split; auto. intros [? _]. discriminate.
        - intros b [? _]. discriminate.
        - intros b. right. intros [? _]. discriminate. }
      unfold slive in E. cbn [sblks] in E. destruct (sblk a) as [b|] eqn:Eb; [destruct (nth_error B b) as [[[] c]|] eqn:EB|].
      * destruct (touches C (shdr a) (smax a) op); try discriminate. destruct (call C (shdr a) (repeat (blank C) (smax a)) op) as [[[r hd] st]| | | |]; try discriminate. cbn [bind] in E.
        assert (h' = mkSH B (upd o i (Some (mkSO (Some b) (sown a) (smax a) hd)))) as -> by congruence. apply G; auto.
      * destruct (call C (shdr a) c op) as [[[r hd] st]| | | |] eqn:Ec; try discriminate. cbn [bind] in E. assert (h' = mkSH (upd B b (false, st)) (upd o i (Some (mkSO (Some b) (sown a) (smax a) hd)))) as -> by congruence.
        apply G; [apply upd_length|]. intros b'. rewrite nth_upd_cases by (eapply nth_lt; eauto). destruct (Nat.eqb_spec b b') as [<-|]; [rewrite EB; reflexivity|auto].
      * destruct (touches C (shdr a) (smax a) op); try discriminate. destruct (call C (shdr a) (repeat (blank C) (smax a)) op) as [[[r hd] st]| | | |]; try discriminate. cbn [bind] in E.
        assert (h' = mkSH B (upd o i (Some (mkSO (Some b) (sown a) (smax a) hd)))) as -> by congruence. apply G; auto.
      * destruct (touches C (shdr a) (smax a) op); try discriminate. destruct (call C (shdr a) (repeat (blank C) (smax a)) op) as [[[r hd] st]| | | |]; try discriminate. cbn [bind] in E.
        assert (h' = mkSH B (upd o i (Some (mkSO None (sown a) (smax a) hd)))) as -> by congruence. apply G; auto.
Qed.

(** [g]: the storages so far; [L]: those overwritten so far *)
Definition tracked (h : heap) (g : list bool) (L : nat -> Prop) : Prop :=
  length (sblks h) = length g /\
  (forall b, nth_error g b = Some true \/ L b -> flag h b = Some false /\ ~ owns h b) /\
  (forall b, nth_error g b = Some false -> ~ L b -> flag h b = Some true \/ owns h b).
Lemma tracked_step h h' g L new fr lo : tracked h g L -> effect h h' new fr lo -> (forall b, owns h b -> b < length (sblks h) /\ flag h b = Some false) -> (forall b, L b -> b < length g) ->
  tracked h' (g ++ new) (fun b => L b \/ lo b).
Proof.
  intros (T1 & T2 & T3) (E1 & E2 & E3 & E4 & E5 & E6 & E7 & E8) Hown HL. unfold tracked. splits.
  - rewrite app_length. lia.
  - intros b Hb. assert (Cs : (b < length g /\ ((nth_error g b = Some true \/ L b) \/ lo b)) \/ (length g <= b /\ nth_error new (b - length g) = Some true)).
    { destruct Hb as [Hb|[Hb|Hb]]; [|left; auto|left; split; [rewrite <- T1; apply Hown, E6, Hb|auto]]. destruct (Nat.lt_ge_cases b (length g)) as [Hlt|Hge]; [rewrite nth_error_app1 in Hb by auto; auto|rewrite nth_error_app2 in Hb by auto; auto]. }
    destruct Cs as [(Hlt & [Hg|Hl])|(Hge & Hn)].
    + destruct (T2 b Hg) as [F1 F2]. destruct (E2 b false F1) as (f' & F3 & F4). assert (~ fr b) by (intros X; apply F2, E5, X).
      split; [destruct f'; [exfalso; destruct (proj1 F4 eq_refl); [discriminate|auto]|auto]|]. rewrite (E3 b) by lia. tauto.
    + pose proof (E6 b Hl) as Ho. destruct (Hown b Ho) as [_ F1]. destruct (E2 b false F1) as (f' & F3 & F4).
      rewrite (E3 b) by lia. split; [|tauto]. destruct f'; [|auto]. exfalso. destruct (proj1 F4 eq_refl) as [|Hfr]; [discriminate|]. exact (E8 b Hfr Hl).
    + destruct (E4 _ _ Hn) as [F1 F2]. rewrite T1 in F1, F2. replace (length g + (b - length g)) with b in F1, F2 by lia. split; auto. rewrite F2. discriminate.
  - intros b Hb Nl. destruct (Nat.lt_ge_cases b (length g)) as [Hlt|Hge].
    + rewrite nth_error_app1 in Hb by auto. rewrite (E3 b) by lia. destruct (T3 b Hb) as [F|F]; [tauto| |].
      * destruct (E2 b true F) as (f' & F3 & F4). left. rewrite F3. f_equal. apply F4. auto.
      * destruct (E7 b) as [Hf|Hf]; [|right; tauto]. left. destruct (Hown b F) as [_ F1]. destruct (E2 b false F1) as (f' & F3 & F4). rewrite F3. f_equal. apply F4. auto.
    + rewrite nth_error_app2 in Hb by auto. destruct (E4 _ _ Hb) as [F1 F2]. rewrite T1 in F1, F2. replace (length g + (b - length g)) with b in F1, F2 by lia. right. apply F2. reflexivity.
Qed.
Lemma owns_ok h b : Inv h -> owns h b -> b < length (sblks h) /\ flag h b = Some false.
Proof.
  intros HI (i & U). split; [eapply owner_lt; eauto|]. destruct HI as [I1 _]. destruct U as (a & E1 & E2 & E3). specialize (I1 i a E1). unfold okobj in I1. rewrite E3 in I1.
  destruct I1 as (f & c & F & _ & Ff). unfold flag. rewrite F. simpl. f_equal. auto.
Qed.
Lemma tracked_ext h g (L L' : nat -> Prop) : (forall b, L b <-> L' b) -> tracked h g L -> tracked h g L'.
Proof. intros E (T1 & T2 & T3). unfold tracked. splits; auto; intros b; specialize (E b); intros; [apply T2; tauto|apply T3; tauto]. Qed.
Lemma tracked_run : forall ops h xs h' g L, Inv h -> tracked h g L -> (forall b, L b -> b < length g) -> srun C h ops = Ok (xs, h') ->
  tracked h' (g ++ storages given replaces ops) (fun b => L b \/ overwritten C h ops b).
Proof.
  induction ops as [|op ops IH]; intros h xs h' g L HI T HL E; cbn [srun] in E.
  { assert (h' = h) as -> by congruence. cbn [storages flat_map]. rewrite app_nil_r. eapply tracked_ext; [|exact T]. intros b. simpl. tauto. }
  destruct (sstep C h op) as [[x h1]| | | |] eqn:E1; try discriminate. cbn [bind] in E. destruct (srun C h1 ops) as [[ys h2]| | | |] eqn:E2; try discriminate. cbn [bind] in E. assert (h' = h2) as -> by congruence.
  pose proof (step_effect _ _ _ _ HI E1) as Ef. pose proof (tracked_step _ _ _ _ _ _ _ T Ef (fun b => owns_ok h b HI) HL) as T'.
  assert (HI1 : Inv h1) by (eapply Inv_step; eauto).
  specialize (IH h1 ys h2 _ _ HI1 T'). unfold storages. cbn [flat_map]. rewrite app_assoc. eapply tracked_ext; [|apply IH; [|exact E2]].
  - intros b. cbn [overwritten]. split.
    + intros [[U|U]|U]; [auto|auto|]. right. right. exists x, h1. auto.
    + intros [U|[U|(x' & h1' & U1 & U2)]]; [auto|auto|]. right. assert (h1' = h1) by congruence. subst. auto.
  - intros b U. rewrite app_length. destruct U as [U|U]; [apply HL in U; lia|]. destruct T as (T1 & _). destruct Ef as (_ & _ & _ & _ & _ & E6 & _).
    destruct (owns_ok h b HI (E6 b U)) as [Hb _]. lia.
Qed.
Lemma flag_freed (h : heap) b : is_freed h b <-> flag h b = Some true.
Proof.
  unfold is_freed, flag. destruct (nth_error (sblks h) b) as [[f c]|]; simpl; split.
  - intros (c' & E). congruence.
  - intros E. exists c. congruence.
  - intros (c' & E). discriminate.
  - discriminate.
Qed.
Lemma no_assign_overwritten : forall ops h b, Forall no_assign ops -> ~ overwritten C h ops b.
Proof.
  induction ops as [|op ops IH]; intros h b Hn; cbn [overwritten]; [tauto|]. inversion Hn as [|? ? H1 H2]; subst. intros [U|(x & h' & _ & U)]; [destruct op; simpl in *; tauto|]. exact (IH h' b H2 U).
Qed.
Theorem frees_thm : frees C given replaces.
Proof.
  intros ops xs h E. assert (T0 : tracked nothing [] (fun _ => False)).
  { unfold tracked. splits; [reflexivity| |]; intros b; [intros [U|[]]|]; destruct b; discriminate. }
  pose proof (tracked_run ops nothing xs h [] (fun _ => False) Inv_nothing T0 (fun b (F : False) => match F with end) E) as T. cbn [app] in T.
  destruct T as (T1 & T2 & T3).
  assert (G : all_gone h -> forall b, nth_error (storages given replaces ops) b = Some false -> (is_freed h b <-> ~ overwritten C nothing ops b)).
  { intros Hg b Hb. rewrite flag_freed. split.
    - intros F U. destruct (T2 b) as [F2 _]; [auto|]. congruence.
    - intros U. destruct (T3 b Hb) as [F|(i & a & F & _)]; [tauto|auto|]. exfalso. exact (Hg _ _ F). }
  splits; auto.
  - intros b Hb F. apply flag_freed in F. destruct (T2 b (or_introl Hb)) as [F2 _]. congruence.
  - intros Hg Hn. apply nth_error_ext. intros b. rewrite !nth_error_map. destruct (nth_error (storages given replaces ops) b) as [[]|] eqn:Eb; simpl.
    + destruct (T2 b (or_introl Eb)) as [F _]. exact F.
    + apply (flag_freed h b). apply G; auto. apply no_assign_overwritten. exact Hn.
    + apply nth_error_None in Eb. rewrite (proj2 (nth_error_None (sblks h) b)); [reflexivity|lia].
Qed.
Lemma freeable_thm : (forall hd st o, replaces o = true -> call C hd st o <> UB) -> freeable C replaces.
Proof.
  intros Hc ops xs h i a E Ei. split; [eapply destroy_thm; eauto|]. intros o Ho. pose proof (Inv_run C Hfix _ _ _ _ Inv_nothing E) as HI. destruct h as [B ob]. cbn [sobjs] in Ei.
  cbn [sstep]. unfold scall, sobjat. cbn [sobjs sblks]. rewrite Ei. cbn [bind]. rewrite Hrep, Ho. destruct (free_inv B ob i a HI Ei) as (bs & -> & _). specialize (Hc (shdr a) (repeat (blank C) (smax a)) o Ho).
  destruct (call C (shdr a) (repeat (blank C) (smax a)) o) as [[[r hd] st]| | | |]; cbn [bind]; congruence.
Qed.
End P.
