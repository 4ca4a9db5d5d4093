(** Lemmas about handlers that raise. *)
From Coq Require Import List Arith Bool Lia.
From Verif Require Import RaiseModel RaiseSpec.
Import ListNotations.

Definition rank_lt (rank : nat -> nat) (b : nat) (o : option handler) : Prop := match o with Some h => rank (snd h) < b | None => True end.
(** What a call of throw_error leaves *)
Record good (rank : nat -> nat) (b : nat) (s s' : st) : Prop := {
  g_below : below rank b s';
  g_sound : sound s';
  g_next : next s <= next s';
  g_cur : forall x, In x (ids (cur s')) -> In x (ids (cur s)) \/ next s <= x;
  g_dead : forall x, In x (dead s') -> In x (dead s) \/ In x (ids (cur s)) \/ next s <= x }.

(** During handle_exception of the handler [self], which was installed in [s0] *)
Record inv (rank : nat -> nat) (r self : nat) (s0 s : st) (here : bool) (b : nat) (sk : list (nat * bool)) (kept : list (option handler)) : Prop := {
  i_cur : rank_lt rank b (cur s);
  i_here : here = true -> exists k, cur s = Some (self, k);
  i_kept : Forall2 (fun o q => rank_lt rank (fst q) o /\ fst q <= S r /\ (snd q = true -> exists k, o = Some (self, k))) kept sk;
  i_b : b <= S r;
  i_nodup : NoDup (ids (cur s) ++ flat_map ids kept);
  i_own : forall x, In x (ids (cur s) ++ flat_map ids kept) -> x < next s /\ ~ In x (dead s) /\ (x = self \/ next s0 <= x);
  i_next : next s0 <= next s;
  i_dead : forall x, In x (dead s) -> In x (dead s0) \/ x = self \/ next s0 <= x;
  i_self : self < next s0;
  i_deadlt : forall x, In x (dead s) -> x < next s }.

Lemma own_drop rank r self s0 s here b sk kept : inv rank r self s0 s here b sk kept -> forall l, incl l (ids (cur s) ++ flat_map ids kept) ->
  forall x, In x (l ++ dead s) -> In x (dead s0) \/ x = self \/ next s0 <= x.
Proof. intros I l Hl x H. apply in_app_iff in H as [H|H]; [|now apply (i_dead _ _ _ _ _ _ _ _ _ I)]. apply Hl in H. apply (i_own _ _ _ _ _ _ _ _ _ I) in H. tauto. Qed.

(** Replacing the handler installed *)
Lemma inv_swap rank r self s0 s here b sk kept h (b' : nat) n' (keep : bool) :
  inv rank r self s0 s here b sk kept -> rank_lt rank b' h -> b' <= S r ->
  match h with Some (x, _) => x = next s /\ n' = S (next s) | None => n' = next s end ->
  inv rank r self s0 (mkSt h (if keep then dead s else ids (cur s) ++ dead s) n' (trace s)) false b' (if keep then (b, here) :: sk else sk) (if keep then cur s :: kept else kept).
Proof.
  intros I Hr Hb Hh. pose proof (i_nodup _ _ _ _ _ _ _ _ _ I) as Hnd. pose proof (i_own _ _ _ _ _ _ _ _ _ I) as Hown. pose proof (i_next _ _ _ _ _ _ _ _ _ I) as Hn.
  pose proof (i_dead _ _ _ _ _ _ _ _ _ I) as Hd.
  assert (Hsub : forall x, In x (flat_map ids kept) -> ~ In x (ids (cur s))).
  { intros x H H'. revert Hnd H H'. generalize (flat_map ids kept). generalize (ids (cur s)). induction l as [|a l IH]; simpl; intros l' Hnd H [].
    - subst. inversion Hnd as [|? ? Hna]; subst. apply Hna. apply in_app_iff. now right.
    - inversion Hnd; subst. eapply IH; eauto. }
  assert (Hsub2 : NoDup (flat_map ids kept)).
  { revert Hnd. generalize (ids (cur s)). induction l as [|a l IH]; simpl; auto. intros H. inversion H; auto. }
  assert (Hnew : forall x, In x (ids h) -> x = next s /\ n' = S (next s)).
  { destruct h as [[x k]|]; [|intros ? []]. intros y [<-|[]]. exact Hh. }
  assert (Hnn : next s <= n') by (destruct h as [[x k]|]; lia).
  assert (Hndn : forall l, NoDup l -> (forall x, In x l -> x < next s) -> NoDup (ids h ++ l)).
  { intros l Hl Hlt. destruct h as [[x k]|]; [|exact Hl]. simpl. constructor; auto. intros H. apply Hlt in H. simpl in Hh. lia. }
  split; cbn [cur dead next trace].
  - exact Hr.
  - discriminate.
  - destruct keep; [|apply (i_kept _ _ _ _ _ _ _ _ _ I)]. constructor; [|apply (i_kept _ _ _ _ _ _ _ _ _ I)]. cbn [fst snd].
    split; [apply (i_cur _ _ _ _ _ _ _ _ _ I)|]. split; [apply (i_b _ _ _ _ _ _ _ _ _ I)|apply (i_here _ _ _ _ _ _ _ _ _ I)].
  - exact Hb.
  - destruct keep; cbn [flat_map]; apply Hndn; auto; intros x H; apply Hown; auto. apply in_app_iff. now right.
  - intros x H. assert (Hc : In x (ids h) \/ In x (ids (cur s) ++ flat_map ids kept) /\ (keep = false -> In x (flat_map ids kept))).
    { destruct keep; cbn [flat_map] in H; apply in_app_iff in H as [H|H]; auto; right; (split; [|auto]); auto; [discriminate|]. apply in_app_iff. now right. }
    destruct Hc as [Hc|[Hc Hk]].
    + apply Hnew in Hc as [-> ->]. split; [lia|]. split; [|right; lia]. intros Hin. assert (In (next s) (dead s)) as Hin'.
      { destruct keep; auto. apply in_app_iff in Hin as [Hin|Hin]; auto. exfalso. assert (next s < next s); [|lia]. apply Hown. apply in_app_iff. now left. }
      apply (i_deadlt _ _ _ _ _ _ _ _ _ I) in Hin'. lia.
    + apply Hown in Hc as (H1 & H2 & H3). split; [lia|]. split; auto. destruct keep; auto. intros Hin. apply in_app_iff in Hin as [Hin|Hin]; auto. eapply Hsub; eauto.
  - lia.
  - intros x H. destruct keep; auto. apply in_app_iff in H as [H|H]; auto. destruct (Hown x) as (_ & _ & ?); [apply in_app_iff; now left|tauto].
  - apply (i_self _ _ _ _ _ _ _ _ _ I).
  - intros x H. assert (x < next s); [|lia]. destruct keep; [now apply (i_deadlt _ _ _ _ _ _ _ _ _ I)|].
    apply in_app_iff in H as [H|H]; [apply Hown; apply in_app_iff; now left|now apply (i_deadlt _ _ _ _ _ _ _ _ _ I)].
Qed.
Lemma inv_restore rank r self s0 s here b sk kept h k2 b' here' sk2 :
  inv rank r self s0 s here b sk kept -> kept = h :: k2 -> sk = (b', here') :: sk2 ->
  inv rank r self s0 (mkSt h (ids (cur s) ++ dead s) (next s) (trace s)) here' b' sk2 k2.
Proof.
  intros I -> ->. pose proof (i_nodup _ _ _ _ _ _ _ _ _ I) as Hnd. pose proof (i_own _ _ _ _ _ _ _ _ _ I) as Hown. cbn [flat_map] in *.
  pose proof (i_kept _ _ _ _ _ _ _ _ _ I) as Hk. inversion Hk as [|? ? ? ? (H1 & H2 & H3) Hk']; subst. cbn [fst snd] in *.
  assert (Hsub : forall x, In x (ids h ++ flat_map ids k2) -> ~ In x (ids (cur s))).
  { intros x H H'. revert Hnd H H'. generalize (ids h ++ flat_map ids k2). generalize (ids (cur s)). induction l as [|a l IH]; simpl; intros l' Hnd H [].
    - subst. inversion Hnd as [|? ? Hna]; subst. apply Hna. apply in_app_iff. now right.
    - inversion Hnd; subst. eapply IH; eauto. }
  split; cbn [cur dead next trace]; auto.
  - revert Hnd. generalize (ids (cur s)). induction l as [|a l IH]; simpl; auto. intros H. inversion H; auto.
  - intros x H. destruct (Hown x) as (A & B & C); [apply in_app_iff; now right|]. split; auto. split; auto. intros Hin. apply in_app_iff in Hin as [Hin|Hin]; auto. eapply Hsub; eauto.
  - apply (i_next _ _ _ _ _ _ _ _ _ I).
  - intros x H. apply in_app_iff in H as [H|H]; [destruct (Hown x) as (_ & _ & ?); [apply in_app_iff; now left|tauto]|now apply (i_dead _ _ _ _ _ _ _ _ _ I)].
  - apply (i_self _ _ _ _ _ _ _ _ _ I).
  - intros x H. apply in_app_iff in H as [H|H]; [apply Hown; apply in_app_iff; now left|now apply (i_deadlt _ _ _ _ _ _ _ _ _ I)].
Qed.
(** After a raise within *)
Lemma inv_raise rank r self s0 s s' here b sk kept :
  inv rank r self s0 s here b sk kept -> b <= r -> good rank b s s' -> inv rank r self s0 s' false b sk kept.
Proof.
  intros I Hb G. pose proof (i_nodup _ _ _ _ _ _ _ _ _ I) as Hnd. pose proof (i_own _ _ _ _ _ _ _ _ _ I) as Hown.
  pose proof (g_next _ _ _ _ G) as Gn. pose proof (g_cur _ _ _ _ G) as Gc. pose proof (g_dead _ _ _ _ G) as Gd. pose proof (g_sound _ _ _ _ G) as [Gl Gs].
  assert (Hsub : forall x, In x (flat_map ids kept) -> ~ In x (ids (cur s))).
  { intros x H H'. revert Hnd H H'. generalize (flat_map ids kept). generalize (ids (cur s)). induction l as [|a l IH]; simpl; intros l' Hnd H [].
    - subst. inversion Hnd as [|? ? Hna]; subst. apply Hna. apply in_app_iff. now right.
    - inversion Hnd; subst. eapply IH; eauto. }
  assert (Hlt : forall x, In x (flat_map ids kept) -> x < next s) by (intros x H; apply Hown; apply in_app_iff; now right).
  split.
  - exact (g_below _ _ _ _ G).
  - discriminate.
  - apply (i_kept _ _ _ _ _ _ _ _ _ I).
  - lia.
  - assert (NoDup (flat_map ids kept)) as Hk. { revert Hnd. generalize (ids (cur s)). induction l as [|a l IH]; simpl; auto. intros H. inversion H; auto. }
    destruct (cur s') as [h|]; [|exact Hk]. simpl. constructor; auto. intros H. destruct (Gc (fst h) ltac:(now left)) as [H'|H']; [eapply Hsub; eauto|]. apply Hlt in H. lia.
  - intros x H. apply in_app_iff in H as [H|H].
    + destruct (cur s') as [h|]; [|destruct H]. destruct H as [<-|[]]. destruct Gs as [Gs1 Gs2]. split; auto. split; auto.
      destruct (Gc (fst h) ltac:(now left)) as [H'|H'].
      * destruct (Hown (fst h)) as (_ & _ & ?); [apply in_app_iff; now left|auto].
      * right. pose proof (i_next _ _ _ _ _ _ _ _ _ I). lia.
    + destruct (Hown x) as (A & B & C); [apply in_app_iff; now right|]. split; [lia|]. split; auto. intros Hin. apply Gd in Hin as [Hin|[Hin|Hin]]; auto; [eapply Hsub; eauto|lia].
  - pose proof (i_next _ _ _ _ _ _ _ _ _ I). lia.
  - intros x H. apply Gd in H as [H|[H|H]].
    + now apply (i_dead _ _ _ _ _ _ _ _ _ I).
    + destruct (Hown x) as (_ & _ & ?); [apply in_app_iff; now left|auto].
    + right. right. pose proof (i_next _ _ _ _ _ _ _ _ _ I). lia.
  - apply (i_self _ _ _ _ _ _ _ _ _ I).
  - exact Gl.
Qed.
Lemma inv_sound rank r self s0 s here b sk kept : inv rank r self s0 s here b sk kept -> sound s.
Proof.
  intros I. split; [apply (i_deadlt _ _ _ _ _ _ _ _ _ I)|]. pose proof (i_own _ _ _ _ _ _ _ _ _ I) as Ho. destruct (cur s) as [h|]; [|exact Logic.I].
  destruct (Ho (fst h)) as (? & ? & _); [now left|auto].
Qed.
Lemma alive_kept rank r self kept sk : Forall2 (fun o q => rank_lt rank (fst q) o /\ fst q <= S r /\ (snd q = true -> exists k, o = Some (self, k))) kept sk ->
  (exists b', In (b', true) sk) -> In self (flat_map ids kept).
Proof.
  intros Hk [b' H]. induction Hk as [|o q l1 l2 (H1 & H2 & H3) Hk IH]; [destruct H|]. destruct H as [->|H]; [|apply in_app_iff; right; auto].
  destruct (H3 eq_refl) as [k ->]. now left.
Qed.
Lemma alive rank r self s0 s here b sk kept : inv rank r self s0 s here b sk kept -> here = true \/ (exists b', In (b', true) sk) -> ~ In self (dead s).
Proof.
  intros I H. apply (i_own _ _ _ _ _ _ _ _ _ I). apply in_app_iff. destruct H as [H|H].
  - destruct (i_here _ _ _ _ _ _ _ _ _ I H) as [k ->]. left. now left.
  - right. eapply alive_kept; eauto. apply (i_kept _ _ _ _ _ _ _ _ _ I).
Qed.

(** What handle_exception leaves, where [s0] is the state it began in *)
Lemma inv_good rank r self s0 s here b sk kept c l : inv rank r self s0 s here b sk kept -> In self (ids (cur s0)) -> incl l (flat_map ids kept) -> S r <= c ->
  good rank c s0 (destroy l s).
Proof.
  intros I Hs Hl Hc. pose proof (i_nodup _ _ _ _ _ _ _ _ _ I) as Hnd. pose proof (i_own _ _ _ _ _ _ _ _ _ I) as Hown.
  split; cbn [destroy cur dead next].
  - pose proof (i_cur _ _ _ _ _ _ _ _ _ I) as H. pose proof (i_b _ _ _ _ _ _ _ _ _ I). unfold below. cbn [destroy cur]. destruct (cur s); [|exact Logic.I]. simpl in H. lia.
  - split; cbn [destroy cur dead next].
    + intros x H. apply in_app_iff in H as [H|H]; [apply Hown; apply in_app_iff; right; auto|now apply (i_deadlt _ _ _ _ _ _ _ _ _ I)].
    + destruct (cur s) as [h|] eqn:E; [|exact Logic.I]. destruct (Hown (fst h)) as (A & B & _); [now left|]. split; auto. intros H. apply in_app_iff in H as [H|H]; auto.
      simpl in Hnd. inversion Hnd as [|? ? Hna]; subst. apply Hna. auto.
  - apply (i_next _ _ _ _ _ _ _ _ _ I).
  - intros x H. destruct (Hown x) as (_ & _ & [->|?]); auto. apply in_app_iff. now left.
  - intros x H. apply in_app_iff in H as [H|H].
    + destruct (Hown x) as (_ & _ & [->|?]); auto. apply in_app_iff. right. auto.
    + apply (i_dead _ _ _ _ _ _ _ _ _ I) in H as [H|[->|H]]; auto.
Qed.
Lemma destroy_nil s : destroy [] s = s. Proof. destruct s. reflexivity. Qed.

Lemma body_right rank r self s0 raise c :
  In self (ids (cur s0)) -> S r <= c ->
  (forall b e s x s', b <= r -> sound s -> below rank b s -> raise e s = (x, s') -> x <> NoFuel /\ x <> Undef /\ good rank b s s') ->
  forall l s here b sk kept x s', inv rank r self s0 s here b sk kept -> careful rank r here b sk l ->
  body_run raise self kept l s = (x, s') -> x <> NoFuel /\ x <> Undef /\ good rank c s0 s'.
Proof.
  intros Hs Hc Hr. induction l as [|a l IH]; intros s here b sk kept x s' I Hl E.
  - cbn [body_run] in E. inversion E; subst. split; [discriminate|]. split; [discriminate|]. eapply inv_good; eauto. intros y; auto.
  - destruct a as [e|k keep|keep| | |]; cbn [body_run careful] in E, Hl.
    + destruct Hl as [Hb Hl]. destruct (raise e s) as [y s1] eqn:E1.
      pose proof (inv_sound _ _ _ _ _ _ _ _ _ I) as Hso.
      destruct (Hr b e s y s1 Hb Hso (i_cur _ _ _ _ _ _ _ _ _ I) E1) as (H1 & H2 & G). pose proof (inv_raise _ _ _ _ _ _ _ _ _ _ I Hb G) as I'.
      destruct y; try congruence.
      * eapply IH; eauto.
      * inversion E; subst. split; [discriminate|]. split; [discriminate|]. rewrite <- (destroy_nil s'). eapply inv_good; eauto. intros ? [].
      * inversion E; subst. split; [discriminate|]. split; [discriminate|]. eapply inv_good; eauto. intros ?; auto.
    + destruct Hl as [Hk Hl]. cbn [fresh set_handler settle cur dead next trace] in E. unfold settle, destroy in E.
      pose proof (inv_swap _ _ _ _ _ _ _ _ _ (Some (next s, k)) (S (rank k)) (S (next s)) keep I ltac:(simpl; lia) ltac:(lia) ltac:(simpl; auto)) as I'.
      destruct keep; (eapply IH; [exact I'| |exact E]); exact Hl.
    + cbn [set_handler settle cur dead next trace] in E. unfold settle, destroy in E.
      pose proof (inv_swap _ _ _ _ _ _ _ _ _ None 0 (next s) keep I ltac:(exact Logic.I) ltac:(lia) ltac:(reflexivity)) as I'.
      destruct keep; (eapply IH; [exact I'| |exact E]); exact Hl.
    + pose proof (i_kept _ _ _ _ _ _ _ _ _ I) as Hk. inversion Hk as [|h q k2 sk2 Hq Hk2]; subst.
      * cbn [set_handler] in E. pose proof (inv_swap _ _ _ _ _ _ _ _ _ None 0 (next s) false I ltac:(exact Logic.I) ltac:(lia) ltac:(reflexivity)) as I'.
        eapply IH; [exact I'|exact Hl|exact E].
      * destruct q as [b' here']. cbn [set_handler] in E. assert (I' := inv_restore _ _ _ _ _ _ _ _ _ _ _ _ _ _ I eq_refl eq_refl). eapply IH; [exact I'|exact Hl|exact E].
    + destruct Hl as [Ha Hl]. pose proof (alive _ _ _ _ _ _ _ _ _ I Ha) as Hd.
      destruct (existsb (Nat.eqb self) (dead s)) eqn:Ed; [|eapply IH; eauto]. exfalso. apply existsb_exists in Ed as (y & Hy & Ey). apply Nat.eqb_eq in Ey. subst. auto.
    + inversion E; subst. split; [discriminate|]. split; [discriminate|]. eapply inv_good; eauto. intros ?; auto.
Qed.
Lemma good_note rank b s s' x : good rank b s s' -> good rank b s (note x s').
Proof. intros [A B C D F]. split; auto. Qed.
Lemma good_refl rank b s : sound s -> below rank b s -> good rank b s s.
Proof. intros H1 H2. split; auto. Qed.
Lemma note_inv rank s h e : sound s -> cur s = Some h -> inv rank (rank (snd h)) (fst h) s (note (Called h e) s) true (S (rank (snd h))) [] [].
Proof.
  intros [Hl Hs] E. rewrite E in Hs. split; cbn [note cur dead next flat_map app]; auto.
  - rewrite E. simpl. lia.
  - intros _. rewrite E. exists (snd h). now destruct h.
  - rewrite E. simpl. constructor; [intros []|constructor].
  - rewrite E. simpl. intros x [<-|[]]. tauto.
  - tauto.
Qed.
Lemma throw_right rank does returns : all_careful rank does ->
  forall fuel b e s x s', b < fuel -> sound s -> below rank b s -> throw_error does returns fuel e s = (x, s') ->
  x <> NoFuel /\ x <> Undef /\ good rank b s s'.
Proof.
  intros Hc. induction fuel as [|fuel IH]; intros b e s x s' Hf Hs Hb E; [lia|]. cbn [throw_error] in E.
  destruct (cur s) as [h|] eqn:Ec.
  - assert (Hr : rank (snd h) < b) by (unfold below in Hb; rewrite Ec in Hb; exact Hb).
    destruct (body_run _ _ _ _ _) as [y s1] eqn:E1.
    assert (y <> NoFuel /\ y <> Undef /\ good rank b s s1) as (H1 & H2 & G).
    { eapply (body_right rank (rank (snd h)) (fst h) s); [rewrite Ec; now left|lia| |apply note_inv; eauto|apply Hc|exact E1].
      intros b' e' s2 z s3 Hb' Hs2 Hb2 E2. eapply IH; eauto. lia. }
    destruct y; try (inversion E; subst; auto; fail); try congruence.
    unfold halt in E. destruct returns; inversion E; subst; (split; [discriminate|]; split; [discriminate|]; now apply good_note).
  - unfold halt in E. destruct returns; inversion E; subst; (split; [discriminate|]; split; [discriminate|]; apply good_note, good_refl; auto).
Qed.

(** Where the platform stops *)
Lemma chain_le rank b b' t x : chain rank b t x -> b <= b' -> chain rank b' t x.
Proof. intros H Hb. inversion H; subst; [constructor|constructor; lia|constructor; auto; lia]. Qed.
Lemma chain_not rank b t : ~ chain rank b t Done.
Proof. intros H. remember Done as x. induction H; subst; try discriminate. auto. Qed.
Lemma body_chain rank r self s0 raise :
  (forall b e s x s', b <= r -> sound s -> below rank b s -> raise e s = (x, s') -> x <> NoFuel -> x <> Undef -> exists t, trace s' = trace s ++ t /\ chain rank b t x) ->
  forall l s here b sk kept x s', inv rank r self s0 s here b sk kept -> careful rank r here b sk l -> body_run raise self kept l s = (x, s') -> x <> NoFuel -> x <> Undef ->
  ((x = Done \/ x = Left) /\ trace s' = trace s) \/ exists t, trace s' = trace s ++ t /\ chain rank r t x.
Proof.
  intros Hr. induction l as [|a l IH]; intros s here b sk kept x s' I Hl E N1 N2.
  - cbn [body_run] in E. inversion E; subst. left. auto.
  - destruct a as [e|k keep|keep| | |]; cbn [body_run careful] in E, Hl.
    + destruct Hl as [Hb Hl]. destruct (raise e s) as [y s1] eqn:E1.
      assert (y <> NoFuel /\ y <> Undef) as [M1 M2] by (split; intros ->; inversion E; subst; congruence).
      destruct (Hr b e s y s1 Hb (inv_sound _ _ _ _ _ _ _ _ _ I) (i_cur _ _ _ _ _ _ _ _ _ I) E1 M1 M2) as (t & Et & Ht).
      right. exists t. destruct y; try congruence; [exfalso; eapply chain_not; eauto| |]; inversion E; subst; (split; [exact Et|eapply chain_le; eauto]).
    + destruct Hl as [Hk Hl]. cbn [fresh set_handler settle cur dead next trace] in E. unfold settle, destroy in E.
      pose proof (inv_swap _ _ _ _ _ _ _ _ _ (Some (next s, k)) (S (rank k)) (S (next s)) keep I ltac:(simpl; lia) ltac:(lia) ltac:(simpl; auto)) as I'.
      destruct keep; eapply (IH _ _ _ _ _ _ _ I'); eauto.
    + cbn [set_handler settle cur dead next trace] in E. unfold settle, destroy in E.
      pose proof (inv_swap _ _ _ _ _ _ _ _ _ None 0 (next s) keep I ltac:(exact Logic.I) ltac:(lia) ltac:(reflexivity)) as I'.
      destruct keep; eapply (IH _ _ _ _ _ _ _ I'); eauto.
    + pose proof (i_kept _ _ _ _ _ _ _ _ _ I) as Hk. inversion Hk as [|h q k2 sk2 Hq Hk2]; subst.
      * cbn [set_handler] in E. pose proof (inv_swap _ _ _ _ _ _ _ _ _ None 0 (next s) false I ltac:(exact Logic.I) ltac:(lia) ltac:(reflexivity)) as I'.
        eapply (IH _ _ _ _ _ _ _ I'); eauto.
      * destruct q as [b' here']. cbn [set_handler] in E. assert (I' := inv_restore _ _ _ _ _ _ _ _ _ _ _ _ _ _ I eq_refl eq_refl). eapply (IH _ _ _ _ _ _ _ I'); eauto.
    + destruct Hl as [Ha Hl]. destruct (existsb (Nat.eqb self) (dead s)); [inversion E; subst; congruence|eapply (IH _ _ _ _ _ _ _ I); eauto].
    + inversion E; subst. left. auto.
Qed.
Lemma throw_chain rank does : all_careful rank does ->
  forall fuel b e s x s', sound s -> below rank b s -> throw_error does false fuel e s = (x, s') -> x <> NoFuel -> x <> Undef ->
  exists t, trace s' = trace s ++ t /\ chain rank b t x.
Proof.
  intros Hc. induction fuel as [|fuel IH]; intros b e s x s' Hs Hb E N1 N2; [inversion E; subst; congruence|]. cbn [throw_error] in E.
  destruct (cur s) as [h|] eqn:Ec.
  - assert (Hr : rank (snd h) < b) by (unfold below in Hb; rewrite Ec in Hb; exact Hb). destruct (body_run _ _ _ _ _) as [y s1] eqn:E1.
    assert (y <> NoFuel /\ y <> Undef) as [M1 M2] by (split; intros ->; inversion E; subst; congruence).
    assert (Hx := body_chain rank (rank (snd h)) (fst h) s _ (fun b' e' s2 z s3 _ => IH b' e' s2 z s3) _ _ _ _ _ _ _ _ (note_inv rank s h e Hs Ec) (Hc _ _) E1 M1 M2).
    cbn [note trace] in Hx. destruct Hx as [[[-> | ->] Ht]|(t & Ht & Hch)].
    + unfold halt in E. inversion E; subst. exists [Called h e; Halted]. cbn [note trace]. rewrite Ht, <- app_assoc. split; [reflexivity|]. apply ch_call; auto. constructor.
    + inversion E; subst. exists [Called h e]. split; auto. now constructor.
    + exists (Called h e :: t). rewrite <- app_assoc in Ht. destruct y; try congruence; [exfalso; eapply chain_not; eauto| |]; inversion E; subst; (split; [exact Ht|now apply ch_call]).
  - unfold halt in E. inversion E; subst. exists [Halted]. split; [reflexivity|constructor].
Qed.

(** Handlers that raise at once *)
Lemma endless does returns h : (forall e, exists e' l, does (snd h) e = Raise e' :: l) ->
  forall fuel e s, cur s = Some h -> fst (throw_error does returns fuel e s) = NoFuel.
Proof.
  intros Hd. induction fuel as [|fuel IH]; intros e s Hc; [reflexivity|]. cbn [throw_error]. rewrite Hc. destruct (Hd e) as (e' & l & ->). cbn [body_run].
  specialize (IH e' (note (Called h e) s) Hc). destruct (throw_error does returns fuel e' (note (Called h e) s)) as [x s1]. cbn [fst] in IH. subst x. reflexivity.
Qed.
