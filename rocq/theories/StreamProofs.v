(** Proofs about BufferedStream and Transaction. *)
From Coq Require Import List Arith ZArith Lia Bool Ascii.
From Verif Require Import Base RingOps RingModel RingSpec RingProofs LineModel LineSpec LineProofs StreamModel StreamSpec.
Import ListNotations.

Lemma first_line_none delims q : first_line delims q = None <-> no_delim delims q.
Proof.
  unfold no_delim. induction q as [|c q IH]; simpl; [split; auto|].
  destruct (existsb (Ascii.eqb c) delims) eqn:E.
  - split; [discriminate|]. intros H; inversion H; congruence.
  - destruct (first_line delims q) as [[l rest]|].
    + split; [discriminate|]. intros H; inversion H; subst. apply IH in H3. discriminate.
    + split; auto. intros _. constructor; [exact E|]. apply IH; reflexivity.
Qed.

(** Input buffers: overrun implies full. *)
Lemma in_reach_over W cap r q :
  in_reachable W cap r -> holds r q ->
  rep r q /\ length (buf r) = cap /\ (over r = 0%Z \/ length q = cap).
Proof.
  intros (Hc & dbg & ops & r0 & xs & E & Hops & Er) Hh.
  assert (reachable W cap r) as Hr by (split; [exact Hc|]; exists dbg, NUL, ops, r0, xs; auto).
  destruct (reachable_rep W cap r q Hr Hh) as [HR L]. splits; auto.
  assert (forall ops r0 q0 xs r, Forall in_op ops -> rep r0 q0 -> length (buf r0) = cap ->
            (over r0 = 0%Z \/ length q0 = cap) -> ring_run W r0 ops = Ok (xs, r) ->
            exists q, rep r q /\ (over r = 0%Z \/ length q = cap)) as G.
  { clear. induction ops as [|op ops IH]; intros r0 q0 xs r Hops HR L Ho Er; simpl in Er.
    - inversion Er; subst. eauto.
    - inversion Hops as [|? ? Hop Hops']; subst. destruct op; simpl in Hop; try contradiction.
      + destruct rollover; [|contradiction]. simpl in Er.
        destruct (le_lt_dec (length (buf r0)) (length q0)) as [H|H].
        * pose proof (rep_len _ _ HR).
          destruct (push_full_rollover W r0 q0 v HR ltac:(lia)) as (r1 & E1 & HR1 & L1 & _).
          rewrite E1 in Er; simpl in Er. destruct (ring_run W r1 ops) as [[xs1 r2]| | | |] eqn:E2; try discriminate.
          inversion Er; subst. eapply IH; eauto. right. rewrite app_length.
          pose proof (rep_cap _ _ HR). destruct q0; simpl in *; lia.
        * destruct (push_room W r0 q0 v true HR H) as (r1 & E1 & HR1 & L1 & O1).
          rewrite E1 in Er; simpl in Er. destruct (ring_run W r1 ops) as [[xs1 r2]| | | |] eqn:E2; try discriminate.
          inversion Er; subst. eapply IH; eauto. left. rewrite O1. destruct Ho; [assumption|lia].
      + simpl in Er. destruct q0 as [|x q0].
        * rewrite (pop_rep_nil r0 HR) in Er. simpl in Er.
          destruct (ring_run W r0 ops) as [[xs1 r2]| | | |] eqn:E2; try discriminate.
          inversion Er; subst. eapply IH; eauto.
        * destruct (pop_rep_cons r0 x q0 HR) as (r1 & E1 & HR1 & B1 & O1). rewrite E1 in Er; simpl in Er.
          destruct (ring_run W r1 ops) as [[xs1 r2]| | | |] eqn:E2; try discriminate.
          inversion Er; subst. eapply IH; eauto. congruence. }
  destruct (ring_new_rep dbg cap NUL Hc) as (r1 & E1 & HR1 & L1 & O1).
  rewrite E in E1; inversion E1; subst r1.
  destruct (G ops r0 [] xs r Hops HR1 L1 (or_introl O1) Er) as (q' & HR' & Ho).
  rewrite (rep_unique _ _ _ HR HR'). exact Ho.
Qed.

Section Pull.
Variable W : Z.
Variable delims : list ascii.
Context {S : Type}.
Variable st : stream_ops S.

Local Notation nodel := (no_delim delims).
Local Notation fline := (first_line delims).

Lemma removelast_app' {A} (q : list A) c l : removelast (q ++ c :: l) = q ++ removelast (c :: l).
Proof. apply removelast_app. discriminate. Qed.

Lemma pull_loop_spec : forall l fuel r q s last n,
  rep r q -> source st s l -> length l < fuel ->
  (over r = 0%Z \/ (nodel q /\ length q = length (buf r)) \/ (is_delim delims last = true /\ length q = length (buf r))) ->
  (is_delim delims last = true -> is_delim delims NUL = true \/ fline q <> None) ->
  exists l1 l2 r' s', l = l1 ++ l2 /\ pull_loop W st delims fuel r s last n = Ok (n + length l1, r', s') /\
    rep r' (lastn (length (buf r)) (q ++ l1)) /\ length (buf r') = length (buf r) /\ source st s' l2 /\
    (length (buf r) < length (q ++ l1) -> nodel (removelast (q ++ l1))) /\
    (length (q ++ l1) <= length (buf r) -> over r' = over r) /\
    (l2 <> [] -> full r' = true /\
       (is_delim delims NUL = true \/ fline (lastn (length (buf r)) (q ++ l1)) <> None)).
Proof.
  induction l as [|c l IH]; intros fuel r q s last n HR Hs Hf Hj Hd; simpl in Hs, Hf.
  - destruct fuel as [|fuel]; [lia|]. simpl. rewrite Hs. simpl.
    pose proof (rep_len _ _ HR).
    exists [], [], r, s. rewrite !app_nil_r, lastn_all, Nat.add_0_r by lia. splits; auto; try lia.
  - destruct fuel as [|fuel]; [lia|]. destruct Hs as (Ha & s1 & Er & Hs). simpl.
    destruct (Nat.eqb_spec (s_available st s) 0) as [|_]; [lia|].
    rewrite (has_line_rep delims r q HR). simpl.
    pose proof (rep_len _ _ HR) as Hl. pose proof (rep_cap _ _ HR) as Hcap.
    rewrite (rep_is_full r q HR).
    destruct (Nat.eqb_spec (length q) (length (buf r))) as [Hfull|Hnf]; simpl.
    + destruct (is_delim delims last || (overrun_space r =? 0)%Z && match fline q with Some _ => true | None => false end) eqn:Eb.
      * exists [], (c :: l), r, s. rewrite app_nil_r, lastn_all, Nat.add_0_r by lia.
        splits; auto; simpl; try lia; eauto.
        intros _. rewrite (rep_is_full r q HR), Hfull, Nat.eqb_refl. split; [reflexivity|].
        apply orb_prop in Eb as [Eb|Eb]; [auto|]. right. destruct (fline q); [discriminate|]. rewrite andb_false_r in Eb. discriminate.
      * apply orb_false_iff in Eb as [Eb1 Eb2].
        assert (nodel q) as Hq.
        { destruct Hj as [Hj|[[Hj _]|[Hj _]]]; [|exact Hj|congruence].
          unfold overrun_space in Eb2. rewrite Hj in Eb2. simpl in Eb2. apply first_line_none.
          destruct (fline q); [discriminate|reflexivity]. }
        rewrite Er. simpl.
        destruct (push_full_rollover W r q c HR Hfull) as (r1 & E1 & HR1 & L1 & _). rewrite E1. simpl.
        assert (length (tl q ++ [c]) = length (buf r)) as Lq.
        { rewrite app_length. destruct q; simpl in *; lia. }
        destruct (IH fuel r1 (tl q ++ [c]) s1 c (Datatypes.S n) HR1 Hs ltac:(lia))
          as (l1 & l2 & r' & s' & -> & E & HR' & L' & Hs' & Hlost & Hov & Hstop).
        { right. destruct (is_delim delims c) eqn:Ec; [right; split; auto; lia|left; split; [|lia]].
          apply Forall_app. split; [|constructor; auto].
          destruct q; simpl; [constructor|]. now inversion Hq. }
        { intros Ec. right. intros H. apply first_line_none in H. unfold no_delim in H.
          rewrite Forall_app in H. destruct H as [_ H]. inversion H; subst. unfold is_delim in Ec. congruence. }
        exists (c :: l1), l2, r', s'. rewrite L1 in *.
        assert (lastn (length (buf r)) (q ++ c :: l1) = lastn (length (buf r)) ((tl q ++ [c]) ++ l1)) as EQ.
        { rewrite <- Hfull. rewrite <- (lastn_push_full q c) by lia. rewrite lastn_app_lastn, <- app_assoc. reflexivity. }
        rewrite EQ. splits; auto.
        -- rewrite E. f_equal. f_equal. f_equal. simpl. lia.
        -- intros _. rewrite removelast_app'. destruct l1 as [|c1 l1].
           ++ simpl. rewrite app_nil_r. exact Hq.
           ++ assert (length (buf r) < length ((tl q ++ [c]) ++ c1 :: l1)) as Hlt
                by (rewrite app_length, Lq; simpl; lia).
              specialize (Hlost Hlt). rewrite <- app_assoc in Hlost. change ([c] ++ c1 :: l1) with (c :: c1 :: l1) in Hlost.
              rewrite removelast_app' in Hlost. apply Forall_app in Hlost as [_ Hlost]. apply Forall_app. auto.
        -- rewrite app_length. simpl. intros. lia.
    + assert (over r = 0%Z) as Ho by (destruct Hj as [?|[[_ ?]|[_ ?]]]; [assumption|contradiction|contradiction]).
      rewrite Er. simpl.
      destruct (push_room W r q c true HR ltac:(lia)) as (r1 & E1 & HR1 & L1 & O1). rewrite E1. simpl.
      destruct (IH fuel r1 (q ++ [c]) s1 c (Datatypes.S n) HR1 Hs ltac:(lia))
        as (l1 & l2 & r' & s' & -> & E & HR' & L' & Hs' & Hlost & Hov & Hstop).
      { left. congruence. }
      { intros Ec. right. intros H. apply first_line_none in H. unfold no_delim in H.
        rewrite Forall_app in H. destruct H as [_ H]. inversion H; subst. unfold is_delim in Ec. congruence. }
      exists (c :: l1), l2, r', s'. rewrite L1, <- app_assoc in *. simpl in *. splits; auto.
      * rewrite E. f_equal. f_equal. f_equal. lia.
      * intros. rewrite Hov by assumption. exact O1.
Qed.

(** When everything fits, the start state does not matter. *)
Lemma pull_loop_fits : forall l fuel r q s last n,
  rep r q -> source st s l -> length l < fuel -> length q + length l <= length (buf r) ->
  exists r' s', pull_loop W st delims fuel r s last n = Ok (n + length l, r', s') /\
    rep r' (q ++ l) /\ length (buf r') = length (buf r) /\ source st s' [].
Proof.
  induction l as [|c l IH]; intros fuel r q s last n HR Hs Hf Hfit; simpl in Hs, Hf, Hfit.
  - destruct fuel as [|fuel]; [lia|]. simpl. rewrite Hs. simpl. exists r, s. rewrite app_nil_r, Nat.add_0_r. auto.
  - destruct fuel as [|fuel]; [lia|]. destruct Hs as (Ha & s1 & Er & Hs). simpl.
    destruct (Nat.eqb_spec (s_available st s) 0) as [|_]; [lia|].
    rewrite (has_line_rep delims r q HR). simpl. rewrite (rep_is_full r q HR).
    destruct (Nat.eqb_spec (length q) (length (buf r))); [lia|]. simpl. rewrite Er. simpl.
    destruct (push_room W r q c true HR ltac:(lia)) as (r1 & E1 & HR1 & L1 & O1). rewrite E1. simpl.
    destruct (IH fuel r1 (q ++ [c]) s1 c (Datatypes.S n) HR1 Hs ltac:(lia)) as (r' & s' & E & HR' & L' & Hs').
    { rewrite app_length, L1. simpl. lia. }
    exists r', s'. rewrite <- app_assoc in HR'. simpl in HR'. splits; auto; [|lia].
    rewrite E. f_equal. f_equal. f_equal. simpl. lia.
Qed.

End Pull.

Lemma pull_fits W delims cap r q S (st : stream_ops S) s l fuel :
  reachable W cap r -> holds r q -> source st s l -> length l < fuel -> length q + length l <= cap ->
  exists r' s', pull_in_data W st delims fuel r s = Ok (length l, r', s') /\ holds r' (q ++ l) /\ source st s' [].
Proof.
  intros Hr Hh Hs Hf Hfit. destruct (reachable_rep W cap r q Hr Hh) as [HR L].
  destruct (pull_loop_fits W delims st l fuel r q s NUL 0 HR Hs Hf ltac:(lia)) as (r' & s' & E & HR' & _ & Hs').
  exists r', s'. splits; auto. now apply rep_holds.
Qed.

Lemma pull_overflow W delims cap r q S (st : stream_ops S) s l fuel :
  in_reachable W cap r -> holds r q -> source st s l -> length l < fuel ->
  existsb (Ascii.eqb NUL) delims = false ->
  (overrun_space r = 0%Z \/ has_line delims r = Ok false) ->
  exists l1 l2 r' s', l = l1 ++ l2 /\ pull_in_data W st delims fuel r s = Ok (length l1, r', s') /\
    holds r' (lastn cap (q ++ l1)) /\ source st s' l2 /\
    (cap < length (q ++ l1) -> no_delim delims (removelast (q ++ l1))) /\
    (l2 <> [] -> full r' = true /\ has_line delims r' = Ok true).
Proof.
  intros Hr Hh Hs Hf Hn Hsafe. destruct (in_reach_over W cap r q Hr Hh) as (HR & L & Ho).
  destruct (pull_loop_spec W delims st l fuel r q s NUL 0 HR Hs Hf) as (l1 & l2 & r' & s' & -> & E & HR' & L' & Hs' & Hlost & _ & Hstop).
  - destruct Ho as [Ho|Ho]; [auto|]. destruct Hsafe as [H|H]; [auto|]. right. left. split; [|congruence].
    rewrite (has_line_rep delims r q HR) in H. apply first_line_none. destruct (first_line delims q); [discriminate|reflexivity].
  - unfold is_delim. congruence.
  - exists l1, l2, r', s'. rewrite L in *. splits; auto.
    + now apply rep_holds.
    + intros H. destruct (Hstop H) as [H1 H2]. split; [exact H1|]. destruct H2 as [H2|H2]; [unfold is_delim in H2; congruence|].
      rewrite (has_line_rep delims r' _ HR'). destruct (first_line delims _); congruence.
Qed.

(** ** Input histories *)

Lemma list_source l : source list_stream l l.
Proof. induction l; simpl; auto. split; [lia|]. eauto. Qed.

Lemma source_list_stream s : forall l, source list_stream s l -> s = l.
Proof.
  induction s as [|c s IH]; intros [|x l] H; simpl in *; try (destruct H; lia); auto; try discriminate.
  destruct H as (_ & s' & E & H). inversion E; subst. f_equal. auto.
Qed.

Lemma lines_of_nodelim_app delims q : forall x, no_delim delims q ->
  lines_of delims (q ++ x) =
  match fst (lines_of delims x) with
  | [] => ([], q ++ snd (lines_of delims x))
  | l :: ls => ((q ++ l) :: ls, snd (lines_of delims x))
  end.
Proof.
  induction q as [|c q IH]; intros x H; simpl.
  - destruct (lines_of delims x) as [[|l ls] rem]; reflexivity.
  - inversion H as [|? ? Hc Hq]; subst. rewrite (IH x Hq), Hc. destruct (fst (lines_of delims x)); reflexivity.
Qed.

Lemma fits_no_overflow delims cap q x :
  fits delims cap (q ++ x) -> no_delim delims q -> length q = cap -> x = [].
Proof.
  intros [H1 H2] Hq Hl. destruct x as [|c x]; [reflexivity|exfalso].
  rewrite (lines_of_nodelim_app delims q (c :: x) Hq) in H1, H2. simpl in H1, H2.
  destruct (lines_of delims x) as [ls rem].
  destruct (existsb (Ascii.eqb c) delims); simpl in *.
  - inversion H1; subst. rewrite app_nil_r in *. lia.
  - destruct ls as [|l ls]; simpl in *.
    + rewrite app_length in H2. simpl in H2. lia.
    + inversion H1; subst. rewrite app_length in *. simpl in *. lia.
Qed.

Lemma lines_of_app_rest delims q line rest x :
  first_line delims q = Some (line, rest) ->
  lines_of delims (q ++ x) = (line :: fst (lines_of delims (rest ++ x)), snd (lines_of delims (rest ++ x))).
Proof.
  intros H. apply lines_of_first. revert line rest H; induction q as [|c q IH]; intros line rest H; simpl in *; [discriminate|].
  destruct (existsb (Ascii.eqb c) delims).
  - inversion H; subst. reflexivity.
  - destruct (first_line delims q) as [[l' r']|]; [|discriminate]. inversion H; subst. now rewrite (IH l' rest eq_refl).
Qed.

Lemma in_run_spec W delims cap m : forall ops r q src,
  rep r q -> length (buf r) = cap -> cap <= m -> over r = 0%Z ->
  fits delims cap (q ++ src ++ arrivals ops) ->
  exists ls r' q' src', in_run W delims m r src ops = Ok (ls, r', src') /\ rep r' q' /\
    length (buf r') = cap /\
    fst (lines_of delims (q ++ src ++ arrivals ops)) = ls ++ fst (lines_of delims (q' ++ src')) /\
    snd (lines_of delims (q ++ src ++ arrivals ops)) = snd (lines_of delims (q' ++ src')).
Proof.
  induction ops as [|op ops IH]; intros r q src HR L Hm Ho Hfit; simpl.
  - exists [], r, q, src. rewrite app_nil_r. auto.
  - destruct op as [s| |]; simpl in *.
    + destruct (IH r q (src ++ s) HR L Hm Ho) as (ls & r' & q' & src' & E & HR' & L' & F1 & F2).
      { rewrite <- app_assoc. exact Hfit. }
      rewrite E; simpl. exists ls, r', q', src'. rewrite <- app_assoc in F1, F2. auto.
    + unfold pull_in_data.
      destruct (pull_loop_spec W delims list_stream src (length src + 1) r q src NUL 0 HR (list_source src) ltac:(lia))
        as (l1 & l2 & r1 & s1 & -> & E1 & HR1 & L1 & Hs1 & Hlost & Hov & _); [auto| |].
      { intros; auto. }
      rewrite E1; simpl. apply source_list_stream in Hs1; subst s1. rewrite L in *.
      assert (length (q ++ l1) <= cap) as Hle.
      { destruct (le_lt_dec (length (q ++ l1)) cap) as [|Hgt]; [assumption|exfalso].
        specialize (Hlost Hgt).
        assert (q ++ l1 <> []) as Hne by (intros H; rewrite H in Hgt; simpl in Hgt; lia).
        destruct (@exists_last _ (q ++ l1) Hne) as (y & c & Ey). rewrite Ey in Hlost, Hgt.
        rewrite removelast_last in Hlost. rewrite app_length in Hgt. simpl in Hgt.
        assert (fits delims cap (firstn cap y ++ (skipn cap y ++ c :: l2 ++ arrivals ops))) as Hf2.
        { rewrite app_assoc, firstn_skipn. rewrite <- app_assoc, app_assoc, Ey, <- app_assoc in Hfit. exact Hfit. }
        apply fits_no_overflow in Hf2.
        - destruct (skipn cap y); discriminate.
        - unfold no_delim in *. rewrite <- (firstn_skipn cap y) in Hlost. apply Forall_app in Hlost. tauto.
        - rewrite firstn_length. lia. }
      rewrite lastn_all in HR1 by exact Hle.
      destruct (IH r1 (q ++ l1) l2 HR1 ltac:(lia) Hm) as (ls & r' & q' & src' & E & HR' & L' & F1 & F2).
      { rewrite Hov; auto. }
      { rewrite <- app_assoc in Hfit. rewrite <- app_assoc. exact Hfit. }
      rewrite E; simpl. exists ls, r', q', src'. rewrite <- app_assoc in F1, F2. rewrite <- app_assoc. auto.
    + rewrite (has_line_rep delims r q HR). simpl.
      destruct (first_line delims q) as [[line rest]|] eqn:Ef.
      * destruct (get_next_line_rep delims r q (repeat NUL m) m HR) as (n & out & r1 & E1 & B1 & H1).
        { rewrite repeat_length. lia. }
        rewrite Ef in H1. destruct (first_line_app delims q line rest Ef) as (d & Eq & _ & _).
        pose proof (rep_len _ _ HR) as Hl. rewrite Eq, app_length in Hl. simpl in Hl.
        destruct (Nat.leb_spec (length line + 1) m); [|lia]. destruct H1 as (-> & -> & HR1).
        rewrite E1; simpl.
        assert (firstn (length line) (line ++ NUL :: skipn (length line + 1) (repeat NUL m)) = line) as ->.
        { rewrite firstn_app, Nat.sub_diag, firstn_all. simpl. now rewrite app_nil_r. }
        pose proof (lines_of_app_rest delims q line rest (src ++ arrivals ops) Ef) as Fl.
        assert (over r1 = 0%Z) as Ho1.
        { revert E1. unfold get_next_line, discovered. rewrite (lonl_rep delims r q HR), Ef. simpl.
          rewrite Nat.add_1_r. simpl. destruct (Nat.ltb_spec m (Datatypes.S (length line))); [lia|]. rewrite Nat.sub_0_r.
          destruct (line_loop_rep line r (repeat NUL m) 0 (d :: rest)) as (r2 & E2 & HR2 & _);
            [rewrite <- Eq; exact HR|rewrite repeat_length; lia|].
          rewrite E2; simpl. destruct (pop_rep_cons r2 d rest HR2) as (r3 & E3 & _ & _ & O3). rewrite E3; simpl.
          destruct (wr _ _ _) eqn:Ew; simpl; try discriminate. intros E4; inversion E4; subst. exact O3. }
        destruct (IH r1 rest src HR1 ltac:(congruence) Hm Ho1) as (ls & r' & q' & src' & E & HR' & L' & F1 & F2).
        { unfold fits in *. rewrite Fl in Hfit. simpl in Hfit. destruct Hfit as [Hf1 Hf2]. split; [now inversion Hf1|exact Hf2]. }
        rewrite E; simpl. exists (line :: ls), r', q', src'. rewrite Fl. simpl. rewrite F1, F2. auto.
      * simpl. destruct (IH r q src HR L Hm Ho Hfit) as (ls & r' & q' & src' & E & HR' & L' & F1 & F2).
        rewrite E; simpl. exists ls, r', q', src'. auto.
Qed.

Lemma in_history W delims dbg cap m ops r0 :
  1 <= cap -> cap <= m -> ring_new dbg cap NUL = Ok r0 -> fits delims cap (arrivals ops) ->
  exists ls r q src, in_run W delims m r0 [] ops = Ok (ls, r, src) /\ holds r q /\
    fst (lines_of delims (arrivals ops)) = ls ++ fst (lines_of delims (q ++ src)) /\
    snd (lines_of delims (arrivals ops)) = snd (lines_of delims (q ++ src)).
Proof.
  intros Hc Hm E Hfit. destruct (ring_new_rep dbg cap NUL Hc) as (r & E' & HR & L & O).
  rewrite E in E'; inversion E'; subst r0.
  destruct (in_run_spec W delims cap m ops r [] [] HR L Hm O Hfit) as (ls & r' & q & src & E2 & HR2 & _ & F1 & F2).
  exists ls, r', q, src. splits; auto. now apply rep_holds.
Qed.

(** ** Output *)

Lemma push_out_spec {S} (st : stream_ops S) Inv : reliable st Inv -> forall q fuel r s n,
  rep r q -> Inv s -> length q < fuel ->
  exists k r' s', push_out_loop st fuel r s n = Ok (n + k, r', s') /\ k <= length q /\
    sent st s (firstn k q) s' /\ rep r' (skipn k q) /\ length (buf r') = length (buf r) /\ Inv s' /\
    (k = length q \/ s_room st s' = 0).
Proof.
  intros Hrel. induction q as [|c q IH]; intros fuel r s n HR HI Hf; (destruct fuel as [|fuel]; [simpl in Hf; lia|]); simpl.
  - exists 0, r, s. rewrite (pop_rep_nil r HR). simpl. rewrite Nat.add_0_r.
    destruct (s_room st s =? 0); splits; auto.
  - destruct (Nat.eqb_spec (s_room st s) 0) as [E0|N0].
    + exists 0, r, s. rewrite Nat.add_0_r. simpl. splits; auto. lia.
    + destruct (pop_rep_cons r c q HR) as (r1 & E1 & HR1 & B1 & _). rewrite E1; simpl.
      destruct (Hrel s c HI ltac:(lia)) as (s1 & Ew & HI1). rewrite Ew; simpl.
      destruct (IH fuel r1 s1 (Datatypes.S n) HR1 HI1 ltac:(simpl in Hf; lia)) as (k & r' & s' & E & Hk & Hsent & HR' & L' & HI' & Hend).
      exists (Datatypes.S k), r', s'. simpl. splits; auto; try lia; try congruence.
      * rewrite E. f_equal. f_equal. f_equal. lia.
      * eauto.
Qed.

Lemma push_out_exact W cap r q S (st : stream_ops S) Inv s fuel :
  reachable W cap r -> holds r q -> reliable st Inv -> Inv s -> length q < fuel ->
  exists k r' s', push_out_data st fuel r s = Ok (k, r', s') /\ k <= length q /\
    sent st s (firstn k q) s' /\ holds r' (skipn k q) /\ (k = length q \/ s_room st s' = 0).
Proof.
  intros Hr Hh Hrel HI Hf. destruct (reachable_rep W cap r q Hr Hh) as [HR L].
  destruct (push_out_spec st Inv Hrel q fuel r s 0 HR HI Hf) as (k & r' & s' & E & Hk & Hs & HR' & _ & _ & Hend).
  exists k, r', s'. splits; auto. now apply rep_holds.
Qed.

Lemma logged_reliable {S} (st : stream_ops S) Inv : reliable st Inv -> reliable (logged st) (fun p => Inv (fst p)).
Proof.
  intros H [s d] c HI Hr. simpl in *. destruct (H s c HI Hr) as (s' & E & HI'). rewrite E; simpl.
  eexists; split; [reflexivity|exact HI'].
Qed.

Lemma sent_logged {S} (st : stream_ops S) : forall l p p', sent (logged st) p l p' -> snd p' = snd p ++ l.
Proof.
  induction l as [|c l IH]; intros p p' H; simpl in *.
  - subst. now rewrite app_nil_r.
  - destruct H as (p1 & E & H). destruct (s_write st (fst p) c) as [[b s1]| | | |]; try discriminate.
    simpl in E. inversion E; subst. simpl in *. rewrite (IH _ _ H). simpl. now rewrite <- app_assoc.
Qed.

Lemma out_run_spec {S} W (st : stream_ops S) Inv : reliable st Inv -> forall ops r q s,
  rep r q -> Inv s -> (forall f s, In (ODevice f) ops -> Inv s -> Inv (f s)) ->
  exists a d r' q' s', out_run W st r s ops = Ok (a, d, r', s') /\ rep r' q' /\ q ++ a = d ++ q'.
Proof.
  intros Hrel. induction ops as [|op ops IH]; intros r q s HR HI Hdev; cbn [out_run].
  - exists [], [], r, q, s. rewrite app_nil_r. auto.
  - assert (forall f s, In (ODevice f) ops -> Inv s -> Inv (f s)) as Hdev' by (intros; eapply Hdev; [right|]; eauto).
    destruct op as [bytes| |f].
    + destruct (push_n_plain W bytes r q HR) as (r1 & E1 & HR1 & L1 & _). rewrite E1. simpl.
      destruct (IH r1 _ s HR1 HI Hdev') as (a & d & r' & q' & s' & E & HR' & F). rewrite E; simpl.
      exists (firstn (Nat.min (length bytes) (length (buf r) - length q)) bytes ++ a), d, r', q', s'. splits; auto.
      rewrite firstn_min_length, app_assoc. exact F.
    + destruct (push_out_spec (logged st) _ (logged_reliable st Inv Hrel) q (capacity r + 1) r (s, []) 0 HR HI)
        as (k & r1 & [s1 d1] & E1 & Hk & Hs1 & HR1 & L1 & HI1 & _).
      { unfold capacity. pose proof (rep_len _ _ HR). lia. }
      unfold push_out_data. rewrite E1. cbn [bind].
      apply sent_logged in Hs1. simpl in Hs1. subst d1.
      destruct (IH r1 _ s1 HR1 HI1 Hdev') as (a & d & r' & q' & s' & E & HR' & F). simpl. rewrite E; simpl.
      exists a, (firstn k q ++ d), r', q', s'. splits; auto.
      rewrite <- app_assoc, <- F, app_assoc, firstn_skipn. reflexivity.
    + simpl. destruct (IH r q (f s) HR) as (a & d & r' & q' & s' & E & HR' & F); auto.
      { apply Hdev; [left; reflexivity|exact HI]. }
      rewrite E; simpl. exists a, d, r', q', s'. auto.
Qed.

Lemma out_history W dbg cap r0 S (st : stream_ops S) Inv s ops :
  1 <= cap -> ring_new dbg cap NUL = Ok r0 -> reliable st Inv -> Inv s ->
  (forall f s, In (ODevice f) ops -> Inv s -> Inv (f s)) ->
  exists a d r q s', out_run W st r0 s ops = Ok (a, d, r, s') /\ holds r q /\ a = d ++ q.
Proof.
  intros Hc E Hrel HI Hdev. destruct (ring_new_rep dbg cap NUL Hc) as (r & E' & HR & L & O).
  rewrite E in E'; inversion E'; subst r0.
  destruct (out_run_spec W st Inv Hrel ops r [] s HR HI Hdev) as (a & d & r' & q & s' & E2 & HR2 & F).
  exists a, d, r', q, s'. splits; auto. now apply rep_holds.
Qed.

(** Any stream whose write returns: what a refused write costs. *)
Lemma push_out_any {S} (st : stream_ops S) :
  (forall s c, exists b s', s_write st s c = Ok (b, s')) -> forall q fuel r s n,
  rep r q -> length q < fuel ->
  exists k r' s1 s', push_out_loop st fuel r s n = Ok (n + k, r', s') /\ k <= length q /\
    sent st s (firstn k q) s1 /\ length (buf r') = length (buf r) /\
    ((rep r' (skipn k q) /\ s' = s1 /\ (k = length q \/ s_room st s1 = 0)) \/
     (exists c, nth_error q k = Some c /\ 0 < s_room st s1 /\ s_write st s1 c = Ok (false, s') /\
                rep r' (skipn (Datatypes.S k) q))).
Proof.
  intros Htot. induction q as [|c q IH]; intros fuel r s n HR Hf; (destruct fuel as [|fuel]; [simpl in Hf; lia|]); simpl.
  - exists 0, r, s, s. rewrite (pop_rep_nil r HR). simpl. rewrite Nat.add_0_r.
    destruct (s_room st s =? 0); splits; auto.
  - destruct (Nat.eqb_spec (s_room st s) 0) as [E0|N0].
    + exists 0, r, s, s. rewrite Nat.add_0_r. simpl. splits; auto. lia.
    + destruct (pop_rep_cons r c q HR) as (r1 & E1 & HR1 & B1 & _). rewrite E1; simpl.
      destruct (Htot s c) as ([|] & s1 & Ew); rewrite Ew; simpl.
      * destruct (IH fuel r1 s1 (Datatypes.S n) HR1 ltac:(simpl in Hf; lia)) as (k & r' & s2 & s' & E & Hk & Hsent & L' & Hend).
        exists (Datatypes.S k), r', s2, s'. simpl. splits; auto; try lia; try congruence.
        -- rewrite E. f_equal. f_equal. f_equal. lia.
        -- eauto.
        -- destruct Hend as [(H1 & H2 & H3)|H]; [left|right; exact H]. splits; auto. destruct H3; [left; lia|auto].
      * exists 0, r1, s, s1. rewrite Nat.add_0_r. simpl. splits; auto; try lia; try congruence.
        right. exists c. splits; auto. lia.
Qed.

Lemma push_out_any_exact W cap r q S (st : stream_ops S) s fuel :
  reachable W cap r -> holds r q -> (forall s c, exists b s', s_write st s c = Ok (b, s')) -> length q < fuel ->
  exists k r' s1 s', push_out_data st fuel r s = Ok (k, r', s') /\ k <= length q /\
    sent st s (firstn k q) s1 /\
    ((holds r' (skipn k q) /\ s' = s1 /\ (k = length q \/ s_room st s1 = 0)) \/
     (exists c, nth_error q k = Some c /\ 0 < s_room st s1 /\ s_write st s1 c = Ok (false, s') /\
                holds r' (skipn (k + 1) q))).
Proof.
  intros Hr Hh Ht Hf. destruct (reachable_rep W cap r q Hr Hh) as [HR L].
  destruct (push_out_any st Ht q fuel r s 0 HR Hf) as (k & r' & s1 & s' & E & Hk & Hs & _ & Hend).
  exists k, r', s1, s'. splits; auto. destruct Hend as [(H1 & H2 & H3)|(c & H1 & H2 & H3 & H4)]; [left|right].
  - splits; auto. now apply rep_holds.
  - exists c. rewrite Nat.add_1_r. splits; auto. now apply rep_holds.
Qed.

(** ** Transactions *)

Lemma sassert_mono dbg c u : sassert dbg c = Ok u -> sassert false c = Ok u.
Proof. unfold sassert. destruct c, dbg; simpl; congruence. Qed.

Lemma bind_ok {A B} (x : outcome A) (f : A -> outcome B) y : bind x f = Ok y -> exists a, x = Ok a /\ f a = Ok y.
Proof. destruct x; simpl; try discriminate. eauto. Qed.

Lemma tx_finalize_mono dbg b t x : tx_finalize dbg b t = Ok x -> tx_finalize false b t = Ok x.
Proof.
  unfold tx_finalize. intros H. apply bind_ok in H as (u & Hu & H). apply sassert_mono in Hu. rewrite Hu. exact H.
Qed.

Lemma tx_step_mono dbg W b t op x : tx_step dbg W b t op = Ok x -> tx_step false W b t op = Ok x.
Proof.
  destruct op; simpl; intros H.
  - apply bind_ok in H as ([[n b'] t'] & H1 & H). unfold tx_outgoing_char in *.
    apply bind_ok in H1 as (u1 & Hu1 & H1). apply bind_ok in H1 as (u2 & Hu2 & H1). apply bind_ok in H1 as (u3 & Hu3 & H1).
    rewrite (sassert_mono _ _ _ Hu1), Hu2, (sassert_mono _ _ _ Hu3). cbn [bind].
    cbn [bind] in H1. rewrite H1. exact H.
  - apply bind_ok in H as ([[n b'] t'] & H1 & H). unfold tx_outgoing in *.
    apply bind_ok in H1 as (u1 & Hu1 & H1). apply bind_ok in H1 as (u2 & Hu2 & H1). apply bind_ok in H1 as (u3 & Hu3 & H1).
    rewrite (sassert_mono _ _ _ Hu1), Hu2, (sassert_mono _ _ _ Hu3). cbn [bind].
    cbn [bind] in H1. rewrite H1. exact H.
  - unfold tx_commit in *. apply bind_ok in H as (u1 & Hu1 & H). rewrite (sassert_mono _ _ _ Hu1). cbn [bind].
    now apply tx_finalize_mono in H.
  - unfold tx_abort in *. apply bind_ok in H as (u1 & Hu1 & H). apply bind_ok in H as (b' & Hb & H).
    rewrite (sassert_mono _ _ _ Hu1). cbn [bind]. rewrite Hb. cbn [bind]. now apply tx_finalize_mono in H.
  - exact H.
Qed.

Lemma tx_run_mono dbg W : forall ops b t x, tx_run dbg W b t ops = Ok x -> tx_run false W b t ops = Ok x.
Proof.
  induction ops as [|op ops IH]; intros b t x H; simpl in *; [exact H|].
  apply bind_ok in H as ([b1 t1] & H1 & H). apply tx_step_mono in H1. rewrite H1. simpl. now apply IH.
Qed.

Lemma tx_destroy_mono dbg b t x : tx_destroy dbg b t = Ok x -> tx_destroy false b t = Ok x.
Proof. unfold tx_destroy. destruct (t_final t); auto. apply tx_finalize_mono. Qed.

Lemma new_transaction_rep dbg b qi : rep (b_in b) qi ->
  new_transaction dbg b =
  Ok (match first_line (b_delims b) qi with
      | None => None
      | Some (line, _) => Some (mkTx true (Some (rtail (b_in b), length line)) 0 false)
      end).
Proof.
  intros HR. unfold new_transaction. rewrite (lonl_rep _ _ _ HR). simpl.
  destruct (first_line (b_delims b) qi) as [[line rest]|] eqn:E; [|reflexivity].
  destruct (Nat.ltb_spec 0 (length line + 1)); [|lia]. unfold tx_new. simpl.
  unfold sassert. destruct (Nat.ltb_spec 0 (length line + 1)); [|lia]. simpl.
  unfold get_next_line_view, discovered. rewrite (lonl_rep _ _ _ HR). simpl.
  destruct (Nat.eqb_spec (length line + 1) 0); [lia|].
  unfold peek_ptr. rewrite (rep_used _ _ HR).
  destruct (first_line_app _ _ _ _ E) as (d & -> & _ & _).
  destruct (Nat.leb_spec (length (line ++ d :: rest)) 0) as [H1|H1]; [rewrite app_length in H1; simpl in H1; lia|].
  simpl. rewrite Nat.add_0_r, Nat.mod_small by (apply (rep_tail _ _ HR)).
  replace (length line + 1 - 1) with (length line) by lia. reflexivity.
Qed.

Lemma tx_outc_rep W b t c qo :
  t_alive t = true -> rep (b_out b) qo ->
  exists b' t', tx_step false W b t (TOutC c) = Ok (b', t') /\
    let acc := firstn (length (buf (b_out b)) - length qo) [c] in
    rep (b_out b') (qo ++ acc) /\ length (buf (b_out b')) = length (buf (b_out b)) /\ b_in b' = b_in b /\ b_delims b' = b_delims b /\
    t' = mkTx true (t_line t) (t_queued t + length acc) (t_final t).
Proof.
  intros Ha HR. destruct t as [al ln qd fi]. simpl in Ha; subst al.
  simpl. unfold tx_outgoing_char, sassert, deref. simpl. pose proof (rep_len _ _ HR) as Hl.
  assert ((if negb fi then Ok tt else Ok tt) = Ok tt) as -> by (destruct fi; reflexivity).
  assert ((if 0 <? free_space (b_out b) then Ok tt else Ok tt) = Ok tt) as -> by (destruct (0 <? _); reflexivity).
  simpl. rewrite (rep_free _ _ HR).
  destruct (Nat.eqb_spec (length (buf (b_out b)) - length qo) 0) as [E|E].
  - rewrite E. eexists; eexists; split; [reflexivity|]. simpl. rewrite app_nil_r, Nat.add_0_r. auto.
  - destruct (push_room W (b_out b) qo c false HR ltac:(lia)) as (r1 & E1 & HR1 & L1 & _). rewrite E1. simpl.
    eexists; eexists; split; [reflexivity|]. rewrite firstn_all2 by (simpl; lia). simpl. auto.
Qed.

Lemma tx_out_rep W b t s qo :
  t_alive t = true -> rep (b_out b) qo ->
  exists b' t', tx_step false W b t (TOut s) = Ok (b', t') /\
    let acc := firstn (length (buf (b_out b)) - length qo) s in
    rep (b_out b') (qo ++ acc) /\ length (buf (b_out b')) = length (buf (b_out b)) /\ b_in b' = b_in b /\ b_delims b' = b_delims b /\
    t' = mkTx true (t_line t) (t_queued t + length acc) (t_final t).
Proof.
  intros Ha HR. destruct t as [al ln qd fi]. simpl in Ha; subst al.
  simpl. unfold tx_outgoing, sassert, deref. simpl. pose proof (rep_len _ _ HR) as Hl. rewrite (rep_free _ _ HR).
  set (room := length (buf (b_out b)) - length qo).
  assert (firstn (Nat.min room (length s)) s = firstn room s) as -> by (rewrite Nat.min_comm; apply firstn_min_length).
  destruct (push_n_plain W (firstn room s) (b_out b) qo HR) as (r1 & E1 & HR1 & L1 & _). fold room in E1, HR1.
  rewrite firstn_firstn, Nat.min_id in HR1.
  assert (Nat.min (length (firstn room s)) room = length (firstn room s)) as Em by (rewrite firstn_length; lia).
  rewrite Em in E1.
  destruct fi; simpl; (destruct (length s <? room); simpl; rewrite E1; simpl; eexists; eexists; (split; [reflexivity|]); simpl; auto).
Qed.

Lemma tx_written_app cap : forall ops qo, exists acc, tx_written cap qo ops = qo ++ acc.
Proof.
  induction ops as [|op ops IH]; intros qo; simpl; [exists []; now rewrite app_nil_r|].
  destruct op; auto.
  - destruct (IH (qo ++ firstn (cap - length qo) [c])) as (acc & ->). rewrite <- app_assoc. eauto.
  - destruct (IH (qo ++ firstn (cap - length qo) s)) as (acc & ->). rewrite <- app_assoc. eauto.
Qed.

Lemma tx_writes_rep W : forall ops b t qo,
  Forall writes_only ops -> t_alive t = true -> t_final t = false -> rep (b_out b) qo ->
  exists b', let q' := tx_written (length (buf (b_out b))) qo ops in
    tx_run false W b t ops = Ok (b', mkTx true (t_line t) (t_queued t + (length q' - length qo)) false) /\
    rep (b_out b') q' /\ b_in b' = b_in b /\ b_delims b' = b_delims b /\
    length (buf (b_out b')) = length (buf (b_out b)).
Proof.
  induction ops as [|op ops IH]; intros b t qo Hops Ha Hf HR.
  - exists b. cbn [tx_written tx_run]. destruct t as [al ln qd fi]; simpl in *; subst.
    rewrite Nat.sub_diag, Nat.add_0_r. auto.
  - inversion Hops as [|? ? Hop Hops']; subst. cbn [tx_run tx_written].
    destruct op; simpl in Hop; try contradiction.
    + destruct (tx_outc_rep W b t c qo Ha HR) as (b1 & t1 & E1 & HR1 & L1 & I1 & D1 & ->). rewrite E1. cbn [bind].
      destruct (IH b1 (mkTx true (t_line t) (t_queued t + length (firstn (length (buf (b_out b)) - length qo) [c])) (t_final t))
                   _ Hops' eq_refl Hf HR1) as (b' & E & HR' & I' & D' & L'). rewrite L1 in *.
      exists b'. destruct (tx_written_app (length (buf (b_out b))) ops (qo ++ firstn (length (buf (b_out b)) - length qo) [c])) as (acc & Ea).
      rewrite Ea in *. splits; auto; try congruence. rewrite E. f_equal. f_equal. simpl t_line; simpl t_queued. f_equal.
      rewrite !app_length. lia.
    + destruct (tx_out_rep W b t s qo Ha HR) as (b1 & t1 & E1 & HR1 & L1 & I1 & D1 & ->). rewrite E1. cbn [bind].
      destruct (IH b1 (mkTx true (t_line t) (t_queued t + length (firstn (length (buf (b_out b)) - length qo) s)) (t_final t))
                   _ Hops' eq_refl Hf HR1) as (b' & E & HR' & I' & D' & L'). rewrite L1 in *.
      exists b'. destruct (tx_written_app (length (buf (b_out b))) ops (qo ++ firstn (length (buf (b_out b)) - length qo) s)) as (acc & Ea).
      rewrite Ea in *. splits; auto; try congruence. rewrite E. f_equal. f_equal. simpl t_line; simpl t_queued. f_equal.
      rewrite !app_length. lia.
    + simpl. destruct t as [al ln qd fi]; simpl in *; subst.
      destruct (IH b (mkTx true ln qd false) qo Hops' eq_refl eq_refl HR) as (b' & H). exists b'. exact H.
Qed.

Lemma tx_finalize_rep b t qi :
  t_alive t = true -> t_final t = false -> rep (b_in b) qi ->
  exists b', tx_finalize false b t = Ok (b', mkTx true None 0 true) /\ b_out b' = b_out b /\ b_delims b' = b_delims b /\
    length (buf (b_in b')) = length (buf (b_in b)) /\
    rep (b_in b') (match first_line (b_delims b) qi with Some (_, rest) => rest | None => qi end).
Proof.
  intros Ha Hf HR. unfold tx_finalize. rewrite Hf. simpl. unfold deref. rewrite Ha. simpl.
  destruct (drop_next_line_rep (b_delims b) (b_in b) qi HR) as (bo & r1 & E1 & B1 & H1). rewrite E1. simpl.
  eexists. split; [reflexivity|]. simpl. splits; auto; [congruence|].
  destruct (first_line (b_delims b) qi) as [[l rest]|]; destruct H1 as [_ H1]; subst; auto.
Qed.

Lemma tx_undo_rep W b t qo :
  t_alive t = true -> rep (b_out b) qo ->
  exists b' qo', tx_undo W b t 0 = Ok b' /\ b_in b' = b_in b /\ b_delims b' = b_delims b /\
    length (buf (b_out b')) = length (buf (b_out b)) /\ rep (b_out b') qo' /\
    ((1 <= t_queued t \/ length qo < length (buf (b_out b))) -> qo' = firstn (length qo - t_queued t) qo).
Proof.
  intros Ha HR. unfold tx_undo, deref. rewrite Ha. simpl.
  pose proof (rep_len _ _ HR) as Hl.
  destruct (le_lt_dec 1 (t_queued t)) as [H1|H1].
  - destruct (drop_last_rep W (b_out b) qo (t_queued t) HR (or_introl H1)) as (r1 & E1 & HR1 & B1). rewrite E1; simpl.
    eexists; eexists; split; [reflexivity|]. simpl. splits; eauto. congruence.
  - destruct (lt_dec (length qo) (length (buf (b_out b)))) as [H2|H2].
    + destruct (drop_last_rep W (b_out b) qo (t_queued t) HR (or_intror H2)) as (r1 & E1 & HR1 & B1). rewrite E1; simpl.
      eexists; eexists; split; [reflexivity|]. simpl. splits; eauto. congruence.
    + destruct (zero_drop_full W (b_out b) qo HR ltac:(lia)) as (r1 & r2 & E1 & HR1 & B1 & _).
      replace (t_queued t) with 0 by lia. rewrite E1; simpl.
      eexists; eexists; split; [reflexivity|]. simpl. splits; eauto; [congruence|lia].
Qed.

(** Any use of a transaction in a release build: the input loses its first line at the first finalization, once. *)
Lemma tx_run_any W : forall ops b t qi qo,
  t_alive t = true -> rep (b_in b) qi -> rep (b_out b) qo ->
  exists b' t' qo', tx_run false W b t ops = Ok (b', t') /\ t_alive t' = true /\ b_delims b' = b_delims b /\
    rep (b_out b') qo' /\
    (t_final t = true -> t_final t' = true) /\
    rep (b_in b') (if Bool.eqb (t_final t) (t_final t') then qi
                   else match first_line (b_delims b) qi with Some (_, rest) => rest | None => qi end).
Proof.
  induction ops as [|op ops IH]; intros b t qi qo Ha HI HO.
  - exists b, t, qo. simpl. rewrite eqb_reflx. splits; auto.
  - cbn [tx_run]. destruct op.
    + destruct (tx_outc_rep W b t c qo Ha HO) as (b1 & t1 & E1 & HR1 & L1 & I1 & D1 & ->). rewrite E1. cbn [bind].
      rewrite <- I1 in HI.
      destruct (IH b1 (mkTx true (t_line t) (t_queued t + length (firstn (length (buf (b_out b)) - length qo) [c])) (t_final t))
                   qi _ eq_refl HI HR1) as (b' & t' & qo' & E & Ha' & D' & HO' & F' & HI').
      rewrite D1 in *. exists b', t', qo'. simpl in *. splits; auto.
    + destruct (tx_out_rep W b t s qo Ha HO) as (b1 & t1 & E1 & HR1 & L1 & I1 & D1 & ->). rewrite E1. cbn [bind].
      rewrite <- I1 in HI.
      destruct (IH b1 (mkTx true (t_line t) (t_queued t + length (firstn (length (buf (b_out b)) - length qo) s)) (t_final t))
                   qi _ eq_refl HI HR1) as (b' & t' & qo' & E & Ha' & D' & HO' & F' & HI').
      rewrite D1 in *. exists b', t', qo'. simpl in *. splits; auto.
    + simpl tx_step. unfold tx_commit, sassert.
      assert ((if negb (t_final t) then Ok tt else Ok tt) = Ok tt) as -> by (destruct (negb _); reflexivity). cbn [bind].
      destruct (t_final t) eqn:Ef.
      * unfold tx_finalize, sassert. simpl.
        destruct (IH b (mkTx (t_alive t) (t_line t) 0 true) qi qo Ha HI HO) as (b' & t' & qo' & E & Ha' & D' & HO' & F' & HI').
        exists b', t', qo'. simpl in *. splits; auto.
      * destruct (tx_finalize_rep b (mkTx (t_alive t) (t_line t) 0 false) qi Ha eq_refl HI) as (b1 & E1 & O1 & D1 & _ & HR1).
        rewrite E1. cbn [bind]. rewrite <- O1 in HO.
        destruct (IH b1 (mkTx true None 0 true) _ qo eq_refl HR1 HO) as (b' & t' & qo' & E & Ha' & D' & HO' & F' & HI').
        exists b', t', qo'. simpl in *. rewrite F' in * by reflexivity. simpl in *. splits; auto. congruence.
    + simpl tx_step. unfold tx_abort, sassert.
      assert ((if negb (t_final t) then Ok tt else Ok tt) = Ok tt) as -> by (destruct (negb _); reflexivity). cbn [bind].
      destruct (tx_undo_rep W b t qo Ha HO) as (b0 & qo0 & E0 & I0 & D0 & L0 & HR0 & _). rewrite E0. cbn [bind].
      rewrite <- I0 in HI.
      destruct (t_final t) eqn:Ef.
      * unfold tx_finalize, sassert. rewrite Ef. simpl.
        destruct (IH b0 t qi qo0 Ha HI HR0) as (b' & t' & qo' & E & Ha' & D' & HO' & F' & HI').
        exists b', t', qo'. rewrite Ef, D0 in *. splits; auto.
      * destruct (tx_finalize_rep b0 t qi Ha Ef HI) as (b1 & E1 & O1 & D1 & _ & HR1).
        rewrite E1. cbn [bind]. rewrite <- O1 in HR0.
        destruct (IH b1 (mkTx true None 0 true) _ qo0 eq_refl HR1 HR0) as (b' & t' & qo' & E & Ha' & D' & HO' & F' & HI').
        exists b', t', qo'. simpl in *. rewrite F' in * by reflexivity. simpl in *. rewrite D0 in *. splits; auto. congruence.
    + simpl. destruct t as [al ln qd fi]; simpl in *; subst.
      destruct (IH b (mkTx true ln qd fi) qi qo eq_refl HI HO) as (b' & H). exists b'. exact H.
Qed.

Lemma bs_holds_rep W ci co b qi qo : bs_holds W ci co b qi qo ->
  rep (b_in b) qi /\ length (buf (b_in b)) = ci /\ rep (b_out b) qo /\ length (buf (b_out b)) = co.
Proof.
  intros (H1 & H2 & H3 & H4). destruct (reachable_rep W ci _ _ H1 H2). destruct (reachable_rep W co _ _ H3 H4). auto.
Qed.

(** A whole life in a release build. *)
Lemma tx_life_release W ci co b qi qo ops :
  bs_holds W ci co b qi qo ->
  match first_line (b_delims b) qi with
  | None => tx_life false W b ops = Ok None
  | Some (_, rest) => exists b', tx_life false W b ops = Ok (Some b') /\ holds (b_in b') rest
  end.
Proof.
  intros H. destruct (bs_holds_rep _ _ _ _ _ _ H) as (HI & _ & HO & _).
  unfold tx_life. rewrite (new_transaction_rep false b qi HI). simpl.
  destruct (first_line (b_delims b) qi) as [[line rest]|] eqn:Ef; [|reflexivity]. simpl.
  destruct (tx_run_any W ops b (mkTx true (Some (rtail (b_in b), length line)) 0 false) qi qo eq_refl HI HO)
    as (b1 & t1 & qo1 & E1 & Ha1 & D1 & HO1 & F1 & HI1). rewrite E1. simpl in *.
  unfold tx_destroy. destruct (t_final t1) eqn:Et; simpl in *.
  - eexists; split; [reflexivity|]. rewrite Ef in HI1. now apply rep_holds.
  - destruct (tx_finalize_rep b1 t1 qi Ha1 Et HI1) as (b2 & E2 & _ & _ & _ & HR2). rewrite E2. simpl.
    rewrite D1, Ef in HR2. eexists; split; [reflexivity|]. now apply rep_holds.
Qed.

Lemma tx_life_mono dbg W b ops x : tx_life dbg W b ops = Ok x -> tx_life false W b ops = Ok x.
Proof.
  unfold tx_life. intros H. apply bind_ok in H as (t & Ht & H).
  assert (new_transaction false b = Ok t) as ->.
  { unfold new_transaction in *. apply bind_ok in Ht as (n & -> & Ht). simpl. destruct (0 <? n); [|exact Ht].
    apply bind_ok in Ht as (t0 & Ht0 & Ht). unfold tx_new in *. cbn [bind] in *.
    apply bind_ok in Ht0 as (u1 & Hu1 & Ht0). rewrite (sassert_mono _ _ _ Hu1). cbn [bind].
    apply bind_ok in Ht0 as (v & Hv & Ht0). rewrite Hv. cbn [bind].
    apply bind_ok in Ht0 as (u2 & Hu2 & Ht0). rewrite (sassert_mono _ _ _ Hu2). cbn [bind]. inversion Ht0; subst. exact Ht. }
  cbn [bind]. destruct t as [t|]; [|exact H].
  apply bind_ok in H as ([b1 t1] & H1 & H). rewrite (tx_run_mono _ _ _ _ _ _ H1). cbn [bind].
  apply bind_ok in H as ([b2 t2] & H2 & H). rewrite (tx_destroy_mono _ _ _ _ H2). exact H.
Qed.

Lemma tx_consumes W dbg ci co b qi qo ops :
  bs_holds W ci co b qi qo ->
  match first_line (b_delims b) qi with
  | None => new_transaction dbg b = Ok None
  | Some (_, rest) =>
      (exists b', tx_life false W b ops = Ok (Some b')) /\
      (forall x, tx_life dbg W b ops = Ok x -> exists b', x = Some b' /\ holds (b_in b') rest)
  end.
Proof.
  intros H. pose proof (tx_life_release W ci co b qi qo ops H) as HL.
  destruct (first_line (b_delims b) qi) as [[line rest]|] eqn:Ef.
  - destruct HL as (b' & E & Hh). split; [eauto|]. intros x Hx. apply tx_life_mono in Hx. rewrite E in Hx. inversion Hx; subst. eauto.
  - destruct (bs_holds_rep _ _ _ _ _ _ H) as (HI & _). rewrite (new_transaction_rep dbg b qi HI), Ef. reflexivity.
Qed.

Lemma tx_shows W dbg ci co b qi qo ops line rest t b1 t1 :
  bs_holds W ci co b qi qo -> first_line (b_delims b) qi = Some (line, rest) ->
  new_transaction dbg b = Ok (Some t) -> Forall writes_only ops -> tx_run dbg W b t ops = Ok (b1, t1) ->
  exists off, t_line t = Some (off, length line) /\
    tx_incoming dbg b1 t1 = if off + length line <=? ci then Ok line else UB.
Proof.
  intros H Ef Et Hops Er. destruct (bs_holds_rep _ _ _ _ _ _ H) as (HI & LI & HO & _).
  rewrite (new_transaction_rep dbg b qi HI), Ef in Et. inversion Et; subst t. clear Et.
  exists (rtail (b_in b)). split; [reflexivity|].
  apply tx_run_mono in Er.
  destruct (tx_writes_rep W ops b (mkTx true (Some (rtail (b_in b), length line)) 0 false) qo Hops eq_refl eq_refl HO)
    as (b2 & E2 & _ & I2 & _). rewrite E2 in Er. inversion Er; subst b2 t1.
  unfold tx_incoming. simpl. rewrite I2. pose proof (view_rep (b_delims b) (b_in b) qi HI) as V. rewrite Ef in V.
  rewrite <- LI. apply V.
Qed.

Lemma tx_abort_exact W dbg ci co b qi qo ops t b1 t1 :
  bs_holds W ci co b qi qo -> new_transaction dbg b = Ok (Some t) -> Forall writes_only ops ->
  tx_run dbg W b t ops = Ok (b1, t1) ->
  (length qo < length (tx_written co qo ops) \/ length qo < co) ->
  exists b2 t2, tx_abort dbg W b1 t1 = Ok (b2, t2) /\ holds (b_out b2) qo /\ t_final t2 = true.
Proof.
  intros H Et Hops Er Hq. destruct (bs_holds_rep _ _ _ _ _ _ H) as (HI & LI & HO & LO).
  rewrite (new_transaction_rep dbg b qi HI) in Et.
  destruct (first_line (b_delims b) qi) as [[line rest]|] eqn:Ef; inversion Et; subst t. clear Et.
  apply tx_run_mono in Er.
  destruct (tx_writes_rep W ops b (mkTx true (Some (rtail (b_in b), length line)) 0 false) qo Hops eq_refl eq_refl HO)
    as (b2 & E2 & HO2 & I2 & D2 & L2). rewrite E2 in Er. inversion Er; subst b2 t1. rewrite LO in *.
  destruct (tx_written_app co ops qo) as (acc & Ea). rewrite Ea in *.
  unfold tx_abort, sassert. cbn [t_final negb]. cbn [bind].
  match goal with |- context [tx_undo W b1 ?t 0] => set (t1 := t) end.
  destruct (tx_undo_rep W b1 t1 _ eq_refl HO2) as (b3 & qo3 & E3 & I3 & D3 & L3 & HR3 & Hd).
  rewrite E3. cbn [bind].
  destruct (tx_finalize_rep b3 t1 qi eq_refl eq_refl) as (b4 & E4 & O4 & _).
  { rewrite I3, I2. exact HI. }
  assert (tx_finalize dbg b3 t1 = tx_finalize false b3 t1) as -> by reflexivity.
  rewrite E4. eexists; eexists; split; [reflexivity|]. split; [|reflexivity].
  rewrite O4. apply rep_holds. rewrite Hd in HR3.
  - subst t1. simpl in HR3. rewrite app_length in HR3.
    replace (length qo + length acc - (length qo + length acc - length qo)) with (length qo) in HR3 by lia.
    rewrite firstn_app, Nat.sub_diag, firstn_all in HR3. simpl in HR3. rewrite app_nil_r in HR3. exact HR3.
  - subst t1. simpl. rewrite app_length in *. destruct acc; simpl in *; [right|left]; lia.
Qed.

Lemma tx_keeps W dbg ci co b qi qo ops tl x :
  bs_holds W ci co b qi qo -> Forall writes_only ops -> tl = [] \/ tl = [TCommit] ->
  tx_life dbg W b (ops ++ tl) = Ok (Some x) -> holds (b_out x) (tx_written co qo ops).
Proof.
  intros H Hops Htl Hl. destruct (bs_holds_rep _ _ _ _ _ _ H) as (HI & LI & HO & LO).
  apply tx_life_mono in Hl. unfold tx_life in Hl. rewrite (new_transaction_rep false b qi HI) in Hl. cbn [bind] in Hl.
  destruct (first_line (b_delims b) qi) as [[line rest]|] eqn:Ef; [|discriminate].
  destruct (tx_writes_rep W ops b (mkTx true (Some (rtail (b_in b), length line)) 0 false) qo Hops eq_refl eq_refl HO)
    as (b2 & E2 & HO2 & I2 & D2 & L2). rewrite LO in *.
  assert (forall ops1 ops2 b t, tx_run false W b t (ops1 ++ ops2) =
            '(b', t') <- tx_run false W b t ops1 ;; tx_run false W b' t' ops2) as Happ.
  { induction ops1 as [|op ops1 IH]; intros; simpl; [reflexivity|].
    destruct (tx_step false W b0 t op) as [[b' t']| | | |]; simpl; auto. }
  rewrite Happ, E2 in Hl. cbn [bind] in Hl.
  match goal with _ : context [tx_run false W b2 ?t tl] |- _ => set (t1 := t) in * end.
  rewrite <- I2 in HI.
  destruct Htl as [-> | ->]; cbn [tx_run bind tx_step] in Hl.
  - unfold tx_destroy in Hl. cbn [t_final t1] in Hl.
    destruct (tx_finalize_rep b2 t1 qi eq_refl eq_refl HI) as (b3 & E3 & O3 & _). simpl in Hl. fold t1 in Hl. rewrite E3 in Hl.
    cbn [bind] in Hl. inversion Hl; subst. rewrite O3. now apply rep_holds.
  - unfold tx_commit, sassert in Hl. cbn [t_final t1 negb bind] in Hl.
    destruct (tx_finalize_rep b2 (mkTx true (t_line t1) 0 false) qi eq_refl eq_refl HI) as (b3 & E3 & O3 & _).
    simpl in Hl, E3. rewrite E3 in Hl. cbn [bind] in Hl. unfold tx_destroy in Hl. simpl in Hl.
    inversion Hl; subst. rewrite O3. now apply rep_holds.
Qed.

(** ** MockStream *)

Lemma mock_source W : forall l s, rep (m_in s) l -> source (mock_stream W) s l.
Proof.
  induction l as [|c l IH]; intros s HR; simpl.
  - now rewrite (rep_used _ _ HR).
  - rewrite (rep_used _ _ HR). split; [simpl; lia|].
    destruct (pop_rep_cons (m_in s) c l HR) as (r1 & E1 & HR1 & _). rewrite E1. simpl. eexists; split; [reflexivity|].
    apply IH. exact HR1.
Qed.

Lemma mock_reliable W : reliable (mock_stream W) (fun s => exists q, rep (m_out s) q).
Proof.
  intros s c (q & HR) Hroom. simpl in *. rewrite (rep_free _ _ HR) in Hroom.
  destruct (push_room W (m_out s) q c false HR ltac:(lia)) as (r1 & E1 & HR1 & _). rewrite E1. simpl.
  eexists; split; [reflexivity|]. simpl. eauto.
Qed.

Lemma mock_sent W : forall l s q s', rep (m_out s) q -> sent (mock_stream W) s l s' -> rep (m_out s') (q ++ l) /\ m_in s' = m_in s.
Proof.
  induction l as [|c l IH]; intros s q s' HR H; simpl in H.
  - subst. rewrite app_nil_r. auto.
  - destruct H as (s1 & E & H). pose proof (rep_len _ _ HR) as Hl.
    destruct (le_lt_dec (length (buf (m_out s))) (length q)).
    + rewrite (push_full_refused W _ _ c HR ltac:(lia)) in E. simpl in E. discriminate.
    + destruct (push_room W (m_out s) q c false HR ltac:(lia)) as (r1 & E1 & HR1 & _). rewrite E1 in E. simpl in E.
      inversion E; subst. destruct (IH (mkMock (m_in s) r1) (q ++ [c]) s' HR1 H) as [H1 H2]. rewrite <- app_assoc in H1. auto.
Qed.

Lemma mock_loopback W ci co s qi qo bytes :
  reachable W ci (m_in s) -> holds (m_in s) qi -> reachable W co (m_out s) -> holds (m_out s) qo ->
  (exists s', mock_inject W s bytes = Ok s' /\ holds (m_in s') (qi ++ firstn (ci - length qi) bytes) /\ m_out s' = m_out s) /\
  source (mock_stream W) s qi /\
  (forall l s', sent (mock_stream W) s l s' -> holds (m_out s') (qo ++ l) /\ m_in s' = m_in s) /\
  (forall l, length qo + length l <= co -> exists s', sent (mock_stream W) s l s') /\
  (exists s', mock_extract s = Ok (map Some qo, s') /\ holds (m_out s') [] /\ m_in s' = m_in s).
Proof.
  intros H1 H2 H3 H4. destruct (reachable_rep _ _ _ _ H1 H2) as [RI LI]. destruct (reachable_rep _ _ _ _ H3 H4) as [RO LO].
  splits.
  - unfold mock_inject. destruct (push_n_plain W bytes (m_in s) qi RI) as (r1 & E1 & HR1 & _). rewrite E1. simpl.
    eexists; split; [reflexivity|]. simpl. rewrite LI in HR1. split; [now apply rep_holds|reflexivity].
  - now apply mock_source.
  - intros l s' Hs. destruct (mock_sent W l s qo s' RO Hs) as [HR HI]. split; [now apply rep_holds|exact HI].
  - clear H1 H2 H3 H4 RI LI. intros l. revert s qo RO LO. induction l as [|c l IH]; intros s qo RO LO Hl; simpl in *; [eauto|].
    destruct (push_room W (m_out s) qo c false RO ltac:(lia)) as (r1 & E1 & HR1 & L1 & _).
    destruct (IH (mkMock (m_in s) r1) (qo ++ [c]) HR1 ltac:(simpl; congruence)) as (s' & Hs).
    { rewrite app_length. simpl. lia. }
    exists s'. eexists. rewrite E1. simpl. split; [reflexivity|exact Hs].
  - unfold mock_extract. rewrite (rep_used _ _ RO).
    destruct (pop_n_rep (m_out s) qo (length qo) RO) as (r1 & E1 & HR1 & _).
    rewrite Nat.ltb_irrefl, firstn_all, skipn_all in *. rewrite E1. simpl.
    eexists; split; [reflexivity|]. simpl. split; [now apply rep_holds|reflexivity].
Qed.
