(** Proofs about transactions in optional variables (SlotModel). *)
From Coq Require Import List Arith ZArith Bool Ascii Lia.
From Verif Require Import Base RingOps RingModel RingSpec RingProofs LineModel LineSpec LineProofs StreamModel StreamSpec StreamProofs SlotModel SlotSpec.
Import ListNotations.

Lemma new_mono dbg b qi x : rep (b_in b) qi -> new_transaction dbg b = Ok x -> new_transaction false b = Ok x.
Proof. intros HR. rewrite !(new_transaction_rep _ b qi HR). auto. Qed.

Lemma assign_mono dbg b o s x : opt_assign dbg b o s = Ok x -> opt_assign false b o s = Ok x.
Proof.
  destruct o, s; simpl; auto. intros H. apply bind_ok in H as ([b1 t1] & E & H). rewrite (tx_destroy_mono _ _ _ _ E). exact H.
Qed.
Lemma destroy_mono dbg b o x : opt_destroy dbg b o = Ok x -> opt_destroy false b o = Ok x.
Proof.
  destruct o; simpl; auto. intros H. apply bind_ok in H as ([b1 t1] & E & H). rewrite (tx_destroy_mono _ _ _ _ E). exact H.
Qed.
Lemma incoming_mono dbg b t x : tx_incoming dbg b t = Ok x -> tx_incoming false b t = Ok x.
Proof. unfold tx_incoming. intros H. apply bind_ok in H as (u & E & H). rewrite (sassert_mono _ _ _ E). exact H. Qed.
Lemma xstep_mono W dbg w op x qi : rep (b_in (xb w)) qi -> xstep W dbg w op = Ok x -> xstep W false w op = Ok x.
Proof.
  intros HR. destruct op; simpl; intros H.
  - apply bind_ok in H as (o & -> & H). apply bind_ok in H as (n & E & H). simpl. rewrite (new_mono _ _ _ _ HR E). simpl.
    apply bind_ok in H as ([[o1 n1] b1] & E1 & H). rewrite (assign_mono _ _ _ _ _ E1). simpl.
    apply bind_ok in H as (b2 & E2 & H). rewrite (destroy_mono _ _ _ _ E2). exact H.
  - apply bind_ok in H as (o & -> & H). apply bind_ok in H as (n & E & H). rewrite E. simpl. destruct (i =? j); [exact H|].
    apply bind_ok in H as ([[o1 n1] b1] & E1 & H). rewrite (assign_mono _ _ _ _ _ E1). exact H.
  - apply bind_ok in H as (o & -> & H). simpl. apply bind_ok in H as (b2 & E2 & H). rewrite (destroy_mono _ _ _ _ E2). exact H.
  - apply bind_ok in H as (o & -> & H). simpl. apply bind_ok in H as ([b2 t2] & E2 & H). rewrite (tx_step_mono _ _ _ _ _ _ E2). exact H.
  - apply bind_ok in H as (o & -> & H). simpl. apply bind_ok in H as (l & E2 & H). rewrite (incoming_mono _ _ _ _ E2). exact H.
Qed.

Definition okx (o : option tx) : Prop := match o with Some t => t_final t = false -> t_alive t = true | None => True end.
Definition sinv (w : xw) (qi qo : list ascii) : Prop := rep (b_in (xb w)) qi /\ rep (b_out (xb w)) qo /\ Forall okx (xv w).

Lemma drop_one_line d q : drop_lines d 1 q = match first_line d q with Some (_, rest) => rest | None => q end.
Proof. simpl. destruct (first_line d q) as [[l r]|]; reflexivity. Qed.
Lemma drop_add d k j q : drop_lines d (k + j) q = drop_lines d j (drop_lines d k q).
Proof.
  revert q. induction k as [|k IH]; intros q; [reflexivity|]. simpl. destruct (first_line d q) as [[l r]|] eqn:E; [apply IH|].
  destruct j; simpl; [reflexivity|]. now rewrite E.
Qed.

(** Destroying what a variable holds *)
Lemma destroy_any b o b' qi qo :
  okx o -> rep (b_in b) qi -> rep (b_out b) qo -> opt_destroy false b o = Ok b' ->
  b_delims b' = b_delims b /\ rep (b_out b') qo /\ rep (b_in b') (drop_lines (b_delims b) (if open o then 1 else 0) qi).
Proof.
  intros Ho HI HO H. destruct o as [t|]; simpl in H; [|injection H as <-; auto].
  unfold tx_destroy in H. simpl open. destruct (t_final t) eqn:Ef; simpl in H.
  - injection H as <-. auto.
  - destruct (tx_finalize_rep b t qi (Ho Ef) Ef HI) as (b1 & E & O1 & D1 & _ & R1). rewrite E in H. simpl in H. injection H as <-.
    rewrite O1. split; [exact D1|]. split; [exact HO|]. cbn [negb]. rewrite drop_one_line. exact R1.
Qed.

Lemma assign_any b o s o' s' b' qi qo :
  okx o -> okx s -> rep (b_in b) qi -> rep (b_out b) qo -> opt_assign false b o s = Ok (o', s', b') ->
  okx o' /\ okx s' /\ open o' = open s /\ open s' = false /\ (o' = None <-> s = None) /\
  b_delims b' = b_delims b /\ rep (b_out b') qo /\
  rep (b_in b') (drop_lines (b_delims b) (match s with None => if open o then 1 else 0 | Some _ => 0 end) qi).
Proof.
  intros Ho Hs HI HO H. destruct s as [u|].
  - assert (H' : (Some (mkTx (t_alive u) (t_line u) (t_queued u) (t_final u)), Some (mkTx false (t_line u) (t_queued u) true), b) = (o', s', b')).
    { destruct o; simpl in H; congruence. }
    injection H' as <- <- <-. simpl in *. splits; auto; try discriminate; split; discriminate.
  - destruct o as [t|].
    + cbn [opt_assign] in H. apply bind_ok in H as ([b1 t1] & E & H). injection H as <- <- <-.
      assert (E' : opt_destroy false b (Some t) = Ok b1) by (simpl; rewrite E; reflexivity).
      destruct (destroy_any b (Some t) b1 qi qo Ho HI HO E') as (D & O & I). splits; simpl; auto; tauto.
    + injection H as <- <- <-. splits; simpl; auto; tauto.
Qed.

Lemma use_any W b t op b' t' qi qo :
  okx (Some t) -> rep (b_in b) qi -> rep (b_out b) qo -> tx_step false W b t op = Ok (b', t') ->
  okx (Some t') /\ (t_final t = true -> t_final t' = true) /\ b_delims b' = b_delims b /\ (exists qo', rep (b_out b') qo') /\
  rep (b_in b') (drop_lines (b_delims b) (if Bool.eqb (t_final t) (t_final t') then 0 else 1) qi).
Proof.
  intros Ho HI HO H. destruct (t_alive t) eqn:Ea.
  - destruct (tx_run_any W [op] b t qi qo Ea HI HO) as (b1 & t1 & qo1 & E & A1 & D1 & O1 & F1 & I1).
    cbn [tx_run] in E. rewrite H in E. cbn [bind] in E. injection E as <- <-. splits; eauto.
    + simpl. auto.
    + destruct (Bool.eqb _ _); [exact I1|]. rewrite drop_one_line. exact I1.
  - assert (Hf : t_final t = true) by (destruct (t_final t) eqn:Ef; [reflexivity|specialize (Ho Ef); congruence]).
    destruct t as [al ln qd fi]; simpl in *; subst.
    destruct op; cbn [tx_step] in H;
      unfold tx_outgoing_char, tx_outgoing, tx_commit, tx_abort, tx_undo, tx_finalize, deref, sassert in H; simpl in H; try discriminate;
      injection H as <- <-; simpl; splits; eauto; discriminate.
Qed.

Lemma opens_upd l i o x : nth_error l i = Some o ->
  length (filter open (upd l i x)) + (if open o then 1 else 0) = length (filter open l) + (if open x then 1 else 0).
Proof.
  revert i. induction l as [|a l IH]; intros [|i] H; try discriminate; simpl in *.
  - injection H as ->. destruct (open o), (open x); simpl; lia.
  - specialize (IH i H). destruct (open a); simpl; lia.
Qed.
Lemma nth_upd_ne {A} (l : list A) i j x : i <> j -> nth_error (upd l i x) j = nth_error l j.
Proof. revert i j. induction l as [|a l IH]; intros [|i] [|j] H; simpl; auto; try lia. Qed.
Lemma nth_upd_eq {A} (l : list A) i x o : nth_error l i = Some o -> nth_error (upd l i x) i = Some x.
Proof. revert i. induction l as [|a l IH]; intros [|i] H; simpl in *; try discriminate; auto. Qed.
Lemma forall_upd {A} (P : A -> Prop) (l : list A) i x : Forall P l -> P x -> Forall P (upd l i x).
Proof. revert i. induction l as [|a l IH]; intros [|i] H Hx; simpl; auto; inversion H; constructor; auto. Qed.
Lemma forall_nth {A} (P : A -> Prop) (l : list A) i x : Forall P l -> nth_error l i = Some x -> P x.
Proof. intros H E. rewrite Forall_forall in H. apply H. eapply nth_error_In; eauto. Qed.

Lemma xvar_ok w i o : xvar w i = Ok o -> nth_error (xv w) i = Some o.
Proof. unfold xvar. destruct (nth_error (xv w) i); [congruence|discriminate]. Qed.
Lemma xtx_ok w i t : xtx w i = Ok t -> nth_error (xv w) i = Some (Some t).
Proof.
  unfold xtx. intros H. apply bind_ok in H as (o & E & H). apply xvar_ok in E. destruct o; [|discriminate]. congruence.
Qed.

Lemma step_any W w op r w' qi qo :
  sinv w qi qo -> xstep W false w op = Ok (r, w') ->
  exists k qo', sinv w' (drop_lines (b_delims (xb w)) k qi) qo' /\ b_delims (xb w') = b_delims (xb w) /\
    makes op r + opens w = k + overwrites w op r + opens w' /\ k <= 1.
Proof.
  intros (HI & HO & HV) H. destruct op as [i|i j|i|i op|i]; cbn [xstep] in H.
  - apply bind_ok in H as (o & Eo & H). apply xvar_ok in Eo. pose proof (forall_nth _ _ _ _ HV Eo) as Ho.
    apply bind_ok in H as (n & En & H). rewrite (new_transaction_rep _ _ _ HI) in En.
    assert (Hn : okx n /\ open n = match n with Some _ => true | None => false end).
    { destruct (first_line _ qi) as [[l rest]|]; injection En as <-; simpl; auto. }
    destruct Hn as [Hn Hop]. clear En.
    apply bind_ok in H as ([[o1 n1] b1] & E1 & H).
    destruct (assign_any _ _ _ _ _ _ _ _ Ho Hn HI HO E1) as (Ho1 & Hn1 & P1 & P2 & P3 & D1 & O1 & I1).
    apply bind_ok in H as (b2 & E2 & H). injection H as <- <-.
    destruct (destroy_any _ _ _ _ _ Hn1 I1 O1 E2) as (D2 & O2 & I2). rewrite P2 in I2. simpl in I2.
    exists (match n with None => if open o then 1 else 0 | Some _ => 0 end), qo. splits.
    + split; [|split]; simpl; auto. now apply forall_upd.
    + simpl. congruence.
    + unfold opens, overwrites, open_at, has_at. simpl xv. rewrite Eo. pose proof (opens_upd (xv w) i o o1 Eo) as U.
      rewrite P1, Hop in U. destruct n as [n|], o1 as [o1|]; simpl makes; destruct (open o); try lia;
        (exfalso; destruct P3 as [P3 P3']; discriminate (P3 eq_refl) || discriminate (P3' eq_refl)).
    + destruct n; [lia|]. destruct (open o); lia.
  - apply bind_ok in H as (o & Eo & H). apply xvar_ok in Eo. apply bind_ok in H as (s & Es & H). apply xvar_ok in Es.
    pose proof (forall_nth _ _ _ _ HV Eo) as Ho. pose proof (forall_nth _ _ _ _ HV Es) as Hs.
    unfold overwrites, has_at, open_at. rewrite Eo, Es. destruct (Nat.eqb_spec i j) as [Eij|Eij].
    { injection H as <- <-. exists 0, qo. simpl. splits; auto. split; [|split]; auto. }
    apply bind_ok in H as ([[o1 s1] b1] & E1 & H). injection H as <- <-.
    destruct (assign_any _ _ _ _ _ _ _ _ Ho Hs HI HO E1) as (Ho1 & Hn1 & P1 & P2 & P3 & D1 & O1 & I1).
    exists (match s with None => if open o then 1 else 0 | Some _ => 0 end), qo. splits.
    + split; [|split]; simpl; auto. apply forall_upd; auto. apply forall_upd; auto.
    + exact D1.
    + unfold opens. simpl xv. pose proof (opens_upd (xv w) j s s1 Es) as U1.
      assert (Eo' : nth_error (upd (xv w) j s1) i = Some o) by (rewrite nth_upd_ne by auto; exact Eo).
      pose proof (opens_upd _ i o o1 Eo') as U2. rewrite P1 in U2. rewrite P2 in U1. simpl makes. 
      cbn [negb andb]. destruct s as [s|]; cbn [andb].
      * destruct (open o), (open (Some s)); cbn [andb]; lia.
      * cbn in U1, U2. cbn [andb]. destruct (open o); cbn; lia.
    + destruct s; [lia|]. destruct (open o); lia.
  - apply bind_ok in H as (o & Eo & H). apply xvar_ok in Eo. pose proof (forall_nth _ _ _ _ HV Eo) as Ho.
    apply bind_ok in H as (b2 & E2 & H). injection H as <- <-.
    destruct (destroy_any _ _ _ _ _ Ho HI HO E2) as (D2 & O2 & I2). exists (if open o then 1 else 0), qo. splits.
    + split; [|split]; simpl; auto. now apply forall_upd.
    + exact D2.
    + unfold opens. simpl. pose proof (opens_upd (xv w) i o None Eo) as U. simpl in U. destruct (open o); lia.
    + destruct (open o); lia.
  - apply bind_ok in H as (t & Et & H). apply xtx_ok in Et. pose proof (forall_nth _ _ _ _ HV Et) as Ho.
    apply bind_ok in H as ([b2 t2] & E2 & H). injection H as <- <-.
    destruct (use_any _ _ _ _ _ _ _ _ Ho HI HO E2) as (Ht2 & F2 & D2 & (qo2 & O2) & I2).
    exists (if Bool.eqb (t_final t) (t_final t2) then 0 else 1), qo2. splits.
    + split; [|split]; simpl; auto. now apply forall_upd.
    + exact D2.
    + unfold opens. simpl. pose proof (opens_upd (xv w) i (Some t) (Some t2) Et) as U. simpl open in U.
      destruct (t_final t), (t_final t2); simpl in *; first [lia | discriminate (F2 eq_refl)].
    + destruct (Bool.eqb _ _); lia.
  - apply bind_ok in H as (t & Et & H). apply xtx_ok in Et. apply bind_ok in H as (l & E2 & H). injection H as <- <-.
    exists 0, qo. simpl. splits; auto. split; [|split]; auto.
Qed.

Lemma hist_any W dbg w ops m o w' : xhist W dbg w ops m o w' -> forall qi qo, sinv w qi qo ->
  exists k qo', sinv w' (drop_lines (b_delims (xb w)) k qi) qo' /\ m + opens w = k + o + opens w'.
Proof.
  induction 1 as [w|w op r w1 ops m o w2 E H IH]; intros qi qo Hs.
  - exists 0, qo. auto.
  - apply (xstep_mono _ _ _ _ _ qi (proj1 Hs)) in E. destruct (step_any _ _ _ _ _ _ _ Hs E) as (k & qo1 & S1 & D1 & C1 & _).
    destruct (IH _ _ S1) as (k2 & qo2 & S2 & C2). rewrite D1, <- drop_add in S2. exists (k + k2), qo2. split; [exact S2|lia].
Qed.

Lemma opens_start b n : opens (xstart b n) = 0.
Proof. unfold opens, xstart. simpl. induction n; simpl; auto. Qed.
Lemma start_ok W ci co b n qi qo : bs_holds W ci co b qi qo -> sinv (xstart b n) qi qo.
Proof.
  intros H. destruct (bs_holds_rep _ _ _ _ _ _ H) as (HI & _ & HO & _). split; [|split]; simpl; auto.
  induction n; simpl; constructor; simpl; auto.
Qed.

(** Each transaction made is open, was overwritten while open, or has consumed a line. *)
Lemma account W dbg ci co b qi qo n ops m o w :
  bs_holds W ci co b qi qo -> xhist W dbg (xstart b n) ops m o w ->
  o + opens w <= m /\ holds (b_in (xb w)) (drop_lines (b_delims b) (m - o - opens w) qi).
Proof.
  intros Hb H. destruct (hist_any _ _ _ _ _ _ _ H qi qo (start_ok _ _ _ _ n _ _ Hb)) as (k & qo' & (HI & _) & C).
  rewrite opens_start in C. split; [lia|]. replace (m - o - opens w) with k by lia. now apply rep_holds.
Qed.

Lemma xrun_app W dbg a : forall w c rs w', xrun W dbg w (a ++ c) = Ok (rs, w') ->
  exists r1 w1 r2, xrun W dbg w a = Ok (r1, w1) /\ xrun W dbg w1 c = Ok (r2, w') /\ rs = r1 ++ r2.
Proof.
  induction a as [|op a IH]; intros w c rs w' H; simpl in H.
  - exists [], w, rs. auto.
  - apply bind_ok in H as ([x w1] & E & H). apply bind_ok in H as ([xs w2] & E2 & H). injection H as <- <-.
    destruct (IH _ _ _ _ E2) as (r1 & w3 & r2 & E3 & E4 & ->). exists (x :: r1), w3, r2. simpl. rewrite E. simpl. rewrite E3. auto.
Qed.
Lemma shown_app a c : shown (a ++ c) = shown a ++ shown c.
Proof. unfold shown. apply flat_map_app. Qed.

Lemma upd_upd {A} (l : list A) i x y : upd (upd l i x) i y = upd l i y.
Proof. revert i. induction l as [|a l IH]; intros [|i]; simpl; auto. now rewrite IH. Qed.

Lemma uses_run W dbg i ws : forall b vs t rs w', nth_error vs i = Some (Some t) ->
  xrun W dbg (mkXW b vs) (map (XUse i) ws) = Ok (rs, w') ->
  exists b' t' , tx_run dbg W b t ws = Ok (b', t') /\ xb w' = b' /\ nth_error (xv w') i = Some (Some t') /\ length (xv w') = length vs /\ shown rs = [] /\
    (forall j, j <> i -> nth_error (xv w') j = nth_error vs j).
Proof.
  induction ws as [|op ws IH]; intros b vs t rs w' Hn H; simpl in H.
  - injection H as <- <-. exists b, t. simpl. splits; auto.
  - apply bind_ok in H as ([x w1] & E & H). apply bind_ok in H as ([xs w2] & E2 & H). injection H as <- <-.
    apply bind_ok in E as (t0 & E0 & E). unfold xtx, xvar in E0. simpl in E0. rewrite Hn in E0. simpl in E0. injection E0 as <-.
    apply bind_ok in E as ([b1 t1] & E1 & E). injection E as <- <-. simpl in E1.
    destruct (IH _ _ t1 _ _ (nth_upd_eq vs i (Some t1) _ Hn) E2) as (b' & t' & R & B & N & L & Sh & O).
    exists b', t'. cbn [tx_run]. rewrite E1. cbn [bind]. splits; auto.
    + rewrite L. apply upd_length.
    + intros j Hj. rewrite O by exact Hj. apply nth_upd_ne. auto.
Qed.

(** One pass: whatever v[i] held before, the stream stays as it is and the transaction in v[i] afterwards shows the next line. *)
Lemma pass_run W dbg i ws w qi qo line rest rs w' :
  sinv w qi qo -> nth_error (xv w) i <> None -> first_line (b_delims (xb w)) qi = Some (line, rest) -> Forall queues ws ->
  xrun W dbg w (pass i ws) = Ok (rs, w') ->
  exists t, shown rs = [line] /\ nth_error (xv w') i = Some (Some t) /\ t_alive t = true /\ t_final t = false /\
    sinv w' qi (tx_written (length (buf (b_out (xb w)))) qo ws) /\ b_delims (xb w') = b_delims (xb w) /\
    length (buf (b_out (xb w'))) = length (buf (b_out (xb w))) /\
    t_queued t = length (tx_written (length (buf (b_out (xb w)))) qo ws) - length qo.
Proof.
  intros (HI & HO & HV) Hi Ef Hws H. destruct (nth_error (xv w) i) as [o|] eqn:Eo; [|congruence].
  unfold pass in H. cbn [xrun] in H. apply bind_ok in H as ([x w1] & E & H). cbn [xstep] in E. unfold xvar in E. rewrite Eo in E. cbn [bind] in E.
  rewrite (new_transaction_rep _ _ _ HI), Ef in E. cbn [bind] in E.
  set (fresh := mkTx true (Some (rtail (b_in (xb w)), length line)) 0 false) in *.
  assert (E' : w1 = mkXW (xb w) (upd (xv w) i (Some fresh)) /\ x = XHas true).
  { destruct o; simpl in E; injection E as <- <-; auto. }
  destruct E' as [-> ->]. clear E.
  apply bind_ok in H as ([xs w2] & E2 & H). injection H as <- <-. apply bind_ok in E2 as ([x3 w3] & E3 & E2).
  pose proof (nth_upd_eq (xv w) i (Some fresh) _ Eo) as Hn.
  cbn [xstep] in E3. unfold xtx, xvar in E3. cbn [xv] in E3. rewrite Hn in E3. cbn [bind] in E3.
  apply bind_ok in E3 as (l & E3 & E4). injection E4 as <- <-.
  apply bind_ok in E2 as ([ys w4] & E4 & E2). injection E2 as <- <-.
  destruct (uses_run _ _ _ _ _ _ _ _ _ Hn E4) as (b' & t' & R & B & N & L & Sh & Oth).
  apply incoming_mono in E3. unfold tx_incoming, sassert in E3. simpl in E3.
  pose proof (view_rep (b_delims (xb w)) (b_in (xb w)) qi HI) as V. rewrite Ef in V. destruct V as [_ V]. rewrite V in E3.
  assert (l = line) as -> by (destruct (_ <=? _); [congruence|discriminate]).
  apply tx_run_mono in R.
  assert (Hw : Forall writes_only ws) by (eapply Forall_impl; [|exact Hws]; intros []; simpl; auto).
  destruct (tx_writes_rep W ws (xb w) fresh qo Hw eq_refl eq_refl HO) as (b2 & E5 & HO2 & I2 & D2 & L2).
  rewrite R in E5. injection E5 as -> ->.
  exists (mkTx true (t_line fresh) (t_queued fresh + (length (tx_written (length (buf (b_out (xb w)))) qo ws) - length qo)) false).
  simpl. rewrite Sh. splits; auto; try congruence.
  split; [|split]; rewrite ?B, ?I2; auto.
  apply Forall_forall. intros z Hz. apply In_nth_error in Hz as (j & Hj). destruct (Nat.eq_dec j i) as [->|Hj'].
  - rewrite N in Hj. injection Hj as <-. simpl. auto.
  - rewrite Oth in Hj by exact Hj'. rewrite nth_upd_ne in Hj by auto. eapply forall_nth; eauto.
Qed.

Lemma stuck W dbg i rounds : forall w qi qo line rest rs w',
  sinv w qi qo -> nth_error (xv w) i <> None -> first_line (b_delims (xb w)) qi = Some (line, rest) -> Forall (Forall queues) rounds ->
  xrun W dbg w (flat_map (pass i) rounds) = Ok (rs, w') ->
  shown rs = repeat line (length rounds) /\ holds (b_in (xb w')) qi.
Proof.
  induction rounds as [|ws rounds IH]; intros w qi qo line rest rs w' Hs Hi Ef HF H.
  - injection H as <- <-. split; [reflexivity|]. apply rep_holds. exact (proj1 Hs).
  - inversion HF as [|? ? H1 H2]; subst. cbn [flat_map] in H. apply xrun_app in H as (r1 & w1 & r2 & E1 & E2 & ->).
    destruct (pass_run _ _ _ _ _ _ _ _ _ _ _ Hs Hi Ef H1 E1) as (t & Sh & N & _ & _ & S1 & D1 & _).
    rewrite <- D1 in Ef. assert (N' : nth_error (xv w1) i <> None) by congruence.
    destruct (IH w1 qi _ line rest r2 w' S1 N' Ef H2 E2) as [Sh2 Hh].
    rewrite shown_app, Sh, Sh2. auto.
Qed.

Lemma lines_first d q :
  match first_line d q with
  | Some (l, rest) => fst (lines_of d q) = l :: fst (lines_of d rest)
  | None => fst (lines_of d q) = []
  end.
Proof.
  induction q as [|c q IH]; simpl; [reflexivity|]. destruct (existsb _ d); simpl.
  - destruct (lines_of d q). reflexivity.
  - destruct (first_line d q) as [[l rest]|].
    + destruct (lines_of d q) as [ls rem]. simpl in IH. subst ls. reflexivity.
    + destruct (lines_of d q) as [ls rem]. simpl in IH. subst ls. reflexivity.
Qed.

Lemma ends_drop W dbg i op w qi qo t r w' :
  sinv w qi qo -> nth_error (xv w) i = Some (Some t) -> t_alive t = true -> t_final t = false -> ends i op ->
  xstep W dbg w op = Ok (r, w') ->
  exists qo', sinv w' (drop_lines (b_delims (xb w)) 1 qi) qo' /\ b_delims (xb w') = b_delims (xb w) /\ r = XUnit /\ nth_error (xv w') i <> None.
Proof.
  intros Hs Hn Ha Hf He H. apply (xstep_mono _ _ _ _ _ qi (proj1 Hs)) in H. destruct Hs as (HI & HO & HV).
  assert (U : forall op1, tx_step false W (xb w) t op1 = tx_step false W (xb w) t op1) by reflexivity.
  assert (HU : forall op1, op1 = TCommit \/ op1 = TAbort -> xstep W false w (XUse i op1) = Ok (r, w') ->
     exists qo', sinv w' (drop_lines (b_delims (xb w)) 1 qi) qo' /\ b_delims (xb w') = b_delims (xb w) /\ r = XUnit /\ nth_error (xv w') i <> None).
  { intros op1 Hop E. cbn [xstep] in E. unfold xtx, xvar in E. rewrite Hn in E. cbn [bind] in E.
    apply bind_ok in E as ([b1 t1] & E1 & E). injection E as <- <-.
    destruct (use_any W _ t op1 b1 t1 qi qo (fun _ => Ha) HI HO E1) as (Ht & _ & D & (qo1 & O1) & I1).
    assert (Hf1 : t_final t1 = true).
    { destruct Hop as [-> | ->]; cbn [tx_step] in E1; unfold tx_commit, tx_abort in E1.
      - apply bind_ok in E1 as (u & _ & E1). destruct (tx_finalize_rep (xb w) (mkTx (t_alive t) (t_line t) 0 (t_final t)) qi Ha Hf HI) as (b2 & E2 & _).
        rewrite E2 in E1. injection E1 as _ <-. reflexivity.
      - apply bind_ok in E1 as (u & _ & E1). destruct (tx_undo_rep W (xb w) t qo Ha HO) as (b0 & qo0 & E0 & I0 & _). rewrite E0 in E1. cbn [bind] in E1.
        rewrite <- I0 in HI. destruct (tx_finalize_rep b0 t qi Ha Hf HI) as (b2 & E2 & _). rewrite E2 in E1. injection E1 as _ <-. reflexivity. }
    rewrite Hf, Hf1 in I1. cbn [Bool.eqb] in I1. exists qo1. simpl. splits; auto.
    - split; [|split]; auto. simpl. apply forall_upd; auto.
    - rewrite (nth_upd_eq _ _ _ _ Hn). discriminate. }
  destruct He as [-> | [-> | ->]]; [now apply (HU TCommit); auto|now apply (HU TAbort); auto|].
  cbn [xstep] in H. unfold xvar in H. rewrite Hn in H. cbn [bind] in H. apply bind_ok in H as (b1 & E1 & H). injection H as <- <-.
  destruct (destroy_any (xb w) (Some t) b1 qi qo (fun _ => Ha) HI HO E1) as (D & O1 & I1). simpl open in I1. rewrite Hf in I1. cbn [negb] in I1.
  exists qo. simpl xb. simpl xv. splits; auto.
  - split; [|split]; auto. simpl. apply forall_upd; simpl; auto.
  - rewrite (nth_upd_eq _ _ _ _ Hn). discriminate.
Qed.

Lemma serve W dbg i rounds : forall w qi qo rs w',
  sinv w qi qo -> nth_error (xv w) i <> None -> Forall (fun p => Forall queues (fst p) /\ ends i (snd p)) rounds ->
  length rounds <= length (fst (lines_of (b_delims (xb w)) qi)) ->
  xrun W dbg w (flat_map (fun p => pass i (fst p) ++ [snd p]) rounds) = Ok (rs, w') ->
  shown rs = firstn (length rounds) (fst (lines_of (b_delims (xb w)) qi)) /\ holds (b_in (xb w')) (drop_lines (b_delims (xb w)) (length rounds) qi).
Proof.
  induction rounds as [|[ws e] rounds IH]; intros w qi qo rs w' Hs Hi HF Hl H.
  - injection H as <- <-. split; [reflexivity|]. apply rep_holds. exact (proj1 Hs).
  - inversion HF as [|? ? [H1 H1'] H2]; subst. cbn [flat_map fst snd] in *.
    pose proof (lines_first (b_delims (xb w)) qi) as LF. destruct (first_line (b_delims (xb w)) qi) as [[line rest]|] eqn:Ef.
    2:{ rewrite LF in Hl. simpl in Hl. lia. }
    apply xrun_app in H as (r1 & w1 & r2 & E1 & E2 & ->). apply xrun_app in E1 as (r3 & w3 & r4 & E3 & E4 & ->).
    destruct (pass_run _ _ _ _ _ _ _ _ _ _ _ Hs Hi Ef H1 E3) as (t & Sh & N & A & F & S1 & D1 & _).
    cbn [xrun] in E4. apply bind_ok in E4 as ([x w4] & E4 & E5). injection E5 as <- <-.
    destruct (ends_drop _ _ _ _ _ _ _ _ _ _ S1 N A F H1' E4) as (qo4 & S4 & D4 & -> & N4).
    rewrite D1, drop_one_line, Ef in S4. rewrite D1 in D4.
    rewrite LF in *. simpl in Hl. rewrite <- D4 in LF.
    destruct (IH w4 rest qo4 r2 w' S4 N4 H2) as [Sh2 Hh]; auto; [rewrite D4; lia|].
    rewrite D4 in *. rewrite !shown_app, Sh, Sh2. simpl length. cbn [firstn]. split; [reflexivity|].
    simpl drop_lines. rewrite Ef. exact Hh.
Qed.

(** Output queued through a transaction that was overwritten *)
Lemma kept W i ws w qi qo line rest rs w' :
  sinv w qi qo -> nth_error (xv w) i <> None -> first_line (b_delims (xb w)) qi = Some (line, rest) -> Forall queues ws ->
  length (tx_written (length (buf (b_out (xb w)))) qo ws) < length (buf (b_out (xb w))) ->
  xrun W false w (pass i ws ++ [XTake i; XUse i TAbort]) = Ok (rs, w') ->
  holds (b_out (xb w')) (tx_written (length (buf (b_out (xb w)))) qo ws) /\ holds (b_in (xb w')) rest.
Proof.
  intros Hs Hi Ef Hws Hroom H. apply xrun_app in H as (r1 & w1 & r2 & E1 & E2 & ->).
  destruct (pass_run _ _ _ _ _ _ _ _ _ _ _ Hs Hi Ef Hws E1) as (t & _ & N & A & F & (HI & HO & HV) & D1 & L1 & _).
  cbn [xrun] in E2. apply bind_ok in E2 as ([x w2] & E2 & E3). cbn [xstep] in E2. unfold xvar in E2. rewrite N in E2. cbn [bind] in E2.
  rewrite (new_transaction_rep _ _ _ HI), D1, Ef in E2. simpl in E2. injection E2 as <- <-.
  apply bind_ok in E3 as ([xs w3] & E3 & E4). injection E4 as <- <-.
  apply bind_ok in E3 as ([x3 w4] & E3 & E4). injection E4 as <- <-.
  cbn [xstep] in E3. unfold xtx, xvar in E3. cbn [xv] in E3. rewrite (nth_upd_eq _ _ _ _ N) in E3. cbn [bind xb] in E3.
  apply bind_ok in E3 as ([b5 t5] & E5 & E3). injection E3 as <- <-. cbn [tx_step] in E5. unfold tx_abort, sassert in E5. simpl negb in E5. cbn [bind] in E5.
  match type of E5 with context [tx_undo W (xb w1) ?u 0] => set (fresh := u) in * end.
  destruct (tx_undo_rep W (xb w1) fresh _ eq_refl HO) as (b0 & qo0 & E0 & I0 & D0 & _ & R0 & Q0). rewrite E0 in E5. cbn [bind] in E5.
  rewrite <- I0 in HI. destruct (tx_finalize_rep b0 fresh qi eq_refl eq_refl HI) as (b2 & E2 & O2 & _ & _ & I2). rewrite E2 in E5. injection E5 as <- <-.
  simpl xb. rewrite D0, D1, Ef in I2. split; [|now apply rep_holds]. rewrite O2. apply rep_holds.
  rewrite Q0 in R0 by (right; lia). simpl in R0. rewrite Nat.sub_0_r, firstn_all in R0. exact R0.
Qed.

Lemma start_at b n i : i < n -> nth_error (xv (xstart b n)) i <> None.
Proof. intros H. apply nth_error_Some. simpl. now rewrite repeat_length. Qed.
Lemma serve_start W dbg ci co b qi qo n i rounds rs w :
  bs_holds W ci co b qi qo -> i < n -> Forall (fun p => Forall queues (fst p) /\ ends i (snd p)) rounds ->
  length rounds <= length (fst (lines_of (b_delims b) qi)) ->
  xrun W dbg (xstart b n) (flat_map (fun p => pass i (fst p) ++ [snd p]) rounds) = Ok (rs, w) ->
  shown rs = firstn (length rounds) (fst (lines_of (b_delims b) qi)) /\ holds (b_in (xb w)) (drop_lines (b_delims b) (length rounds) qi).
Proof. intros Hb Hi HF Hl H. exact (serve W dbg i rounds (xstart b n) qi qo rs w (start_ok _ _ _ _ n _ _ Hb) (start_at b n i Hi) HF Hl H). Qed.
Lemma stuck_start W dbg ci co b qi qo n i rounds line rest rs w :
  bs_holds W ci co b qi qo -> i < n -> first_line (b_delims b) qi = Some (line, rest) -> Forall (Forall queues) rounds ->
  xrun W dbg (xstart b n) (flat_map (pass i) rounds) = Ok (rs, w) ->
  shown rs = repeat line (length rounds) /\ holds (b_in (xb w)) qi.
Proof.
  intros Hb Hi Ef HF H. exact (stuck W dbg i rounds (xstart b n) qi qo line rest rs w (start_ok _ _ _ _ n _ _ Hb) (start_at b n i Hi) Ef HF H).
Qed.
Lemma kept_start W ci co b qi qo n i ws line rest rs w :
  bs_holds W ci co b qi qo -> i < n -> first_line (b_delims b) qi = Some (line, rest) -> Forall queues ws ->
  length (tx_written co qo ws) < co ->
  xrun W false (xstart b n) (pass i ws ++ [XTake i; XUse i TAbort]) = Ok (rs, w) ->
  holds (b_out (xb w)) (tx_written co qo ws) /\ holds (b_in (xb w)) rest.
Proof.
  intros Hb Hi Ef HF Hl H. destruct (bs_holds_rep _ _ _ _ _ _ Hb) as (_ & _ & _ & <-).
  exact (kept W i ws (xstart b n) qi qo line rest rs w (start_ok _ _ _ _ n _ _ Hb) (start_at b n i Hi) Ef HF Hl H).
Qed.
