(** Proofs about the server. *)
From Coq Require Import List Arith ZArith Bool Ascii Lia.
From Verif Require Import Base RingOps RingModel RingSpec RingProofs LineModel LineSpec LineProofs StreamModel StreamSpec StreamProofs ServeModel ServeSpec.
Import ListNotations.

(** ** The serial line *)
Lemma serial_source w : source serial w (w_rx w).
Proof.
  destruct w as [rx room tx]. cbn [w_rx]. revert room tx. induction rx as [|c rx IH]; intros room tx; [reflexivity|].
  split; [cbn; lia|]. eexists. split; [reflexivity|]. apply IH.
Qed.
Lemma source_serial l : forall w, source serial w l -> w_rx w = l.
Proof.
  induction l as [|c l IH]; intros w H; cbn in H; [destruct (w_rx w); [reflexivity|discriminate]|].
  destruct H as (_ & w' & E & H). apply IH in H. destruct (w_rx w) as [|x rx]; [discriminate|]. injection E as -> <-. cbn in H. now subst.
Qed.
Lemma serial_reliable : reliable serial (fun _ => True).
Proof. intros w c _ H. cbn in *. destruct (w_room w); [lia|]. eauto. Qed.
Lemma serial_sent l : forall w w', sent serial w l w' -> w_rx w' = w_rx w /\ w_room w' + length l = w_room w /\ w_tx w' = w_tx w ++ l.
Proof.
  induction l as [|c l IH]; intros w w' H; cbn in H; [subst; rewrite app_nil_r; cbn; auto|].
  destruct H as (w1 & E & H). apply IH in H as (H1 & H2 & H3). destruct (w_room w) as [|n] eqn:R; [discriminate|].
  injection E as <-. cbn in *. rewrite H1, H3, <- app_assoc. repeat split. lia.
Qed.
Lemma pull_keeps W delims fuel : forall r w last n x, pull_loop W serial delims fuel r w last n = Ok x -> w_room (snd x) = w_room w /\ w_tx (snd x) = w_tx w.
Proof.
  induction fuel as [|fuel IH]; intros r w last n x; cbn [pull_loop]; [discriminate|].
  destruct (_ =? 0); [intros E; injection E as <-; auto|].
  destruct (has_line delims r) as [h| | | |]; try discriminate. cbn [bind].
  destruct (_ && _); [intros E; injection E as <-; auto|]. cbn [serial s_read].
  destruct (w_rx w) as [|c rx]; cbn [bind]; [intros E; injection E as <-; auto|].
  destruct (push W r c true) as [[b r1]| | | |]; try discriminate. cbn [bind]. intros E. apply IH in E. exact E.
Qed.

(** ** Where the oldest byte is stored *)
Lemma push_tail W (r : ring ascii) q c r' b : rep r q -> length q < length (buf r) -> push W r c true = Ok (b, r') -> rtail r' = rtail r.
Proof.
  intros HR L E. pose proof (rep_is_full _ _ HR) as F. unfold full in F. rewrite (proj2 (Nat.eqb_neq _ _)) in F by lia.
  unfold push in E. rewrite F in E. cbn [andb] in E. destruct (wr (buf r) (rhead r) c) as [x| | | |]; try discriminate. cbn [bind] in E.
  destruct (_ =? rtail r); injection E as <- <-; reflexivity.
Qed.
Lemma pull_count W delims fuel : forall r w last n x, pull_loop W serial delims fuel r w last n = Ok x -> n <= fst (fst x).
Proof.
  induction fuel as [|fuel IH]; intros r w last n x; cbn [pull_loop]; [discriminate|].
  destruct (_ =? 0); [intros E; injection E as <-; auto|].
  destruct (has_line delims r) as [h| | | |]; try discriminate. cbn [bind].
  destruct (_ && _); [intros E; injection E as <-; auto|]. cbn [serial s_read].
  destruct (w_rx w) as [|c rx]; cbn [bind]; [intros E; injection E as <-; auto|].
  destruct (push W r c true) as [[b r1]| | | |]; try discriminate. cbn [bind]. intros E. apply IH in E. lia.
Qed.
Lemma pull_tail W delims fuel : forall r q w last n x, rep r q -> pull_loop W serial delims fuel r w last n = Ok x ->
  length q + fst (fst x) <= length (buf r) + n -> rtail (snd (fst x)) = rtail r.
Proof.
  induction fuel as [|fuel IH]; intros r q w last n x HR; cbn [pull_loop]; [discriminate|].
  destruct (_ =? 0); [intros E; injection E as <-; auto|].
  destruct (has_line delims r) as [h| | | |]; try discriminate. cbn [bind].
  destruct (_ && _); [intros E; injection E as <-; auto|]. cbn [serial s_read].
  destruct (w_rx w) as [|c rx]; cbn [bind]; [intros E; injection E as <-; auto|].
  destruct (push W r c true) as [[b r1]| | | |] eqn:P; try discriminate. cbn [bind]. intros E L. pose proof (pull_count _ _ _ _ _ _ _ _ E).
  assert (length q < length (buf r)) as Lq by lia. rewrite <- (push_tail W r q c r1 b HR Lq P).
  destruct (push_room W r q c true HR Lq) as (r2 & P2 & HR2 & L2 & _). rewrite P in P2. injection P2 as -> <-.
  apply (IH r1 (q ++ [c]) _ _ _ x HR2 E). rewrite app_length, L2. cbn [length]. lia.
Qed.
Lemma pop_tail (r : ring ascii) v r' : pop r = Ok (Some v, r') -> rtail r' = (rtail r + 1) mod length (buf r) /\ buf r' = buf r.
Proof.
  unfold pop. destruct (empty r); [discriminate|]. destruct (rd (buf r) (rtail r)); try discriminate. cbn [bind]. intros E. injection E as <- <-. split; reflexivity.
Qed.
Lemma drop_loop_tail l : forall r rest r', rep r (l ++ rest) -> drop_loop r (length l) = Ok r' -> l <> [] -> rtail r' = (rtail r + length l) mod length (buf r).
Proof.
  induction l as [|c l IH]; intros r rest r' HR E N; [contradiction|]. cbn [length drop_loop app] in *.
  destruct (pop_rep_cons r c (l ++ rest) HR) as (r1 & E1 & HR1 & B1 & _). rewrite E1 in E. cbn [bind] in E.
  apply pop_tail in E1 as [T1 _]. destruct l as [|c' l].
  - cbn in E. injection E as <-. exact T1.
  - rewrite (IH r1 rest r' HR1 E) by discriminate. rewrite T1, B1. rewrite Nat.add_mod_idemp_l by (pose proof (rep_len _ _ HR); cbn in *; lia).
    f_equal. lia.
Qed.

(** ** One line *)
Section Run.
Variable W : Z.
Variable dbg : bool.
Variable reply : list ascii -> list ascii.
Variable most need ci co : nat.
Variable delims : list ascii.
Hypothesis Hreply : forall l, length (reply l) <= most.

(** [b] holds the bytes [q] of requests and [qo] of answers; [p] bytes of requests have been taken out *)
Record state (b : bstream) (q qo : list ascii) (p : nat) : Prop := mkState {
  s_in : rep (b_in b) q; s_out : rep (b_out b) qo; s_ci : length (buf (b_in b)) = ci; s_co : length (buf (b_out b)) = co;
  s_over : over (b_in b) = 0%Z; s_delims : b_delims b = delims; s_pos : rtail (b_in b) = p mod ci }.
(** What serving one line does; [view]: it is read in place *)
Definition serves (view : bool) (serve : bstream -> outcome (list (list ascii) * bstream)) : Prop := forall b q qo p, state b q qo p ->
  match first_line delims q with
  | Some (line, rest) => if need <=? co - length qo
      then if view && (ci <? p mod ci + length line) then serve b = UB
           else exists b', serve b = Ok ([line], b') /\ state b' rest (qo ++ reply line) (p + length line + 1)
      else serve b = Ok ([], b)
  | None => serve b = Ok ([], b)
  end.

Lemma drop_over r q line rest : rep r q -> first_line delims q = Some (line, rest) ->
  exists r', drop_next_line delims r None = Ok (true, r') /\ rep r' rest /\ buf r' = buf r /\ over r' = 0%Z /\ rtail r' = (rtail r + length line + 1) mod length (buf r).
Proof.
  intros HR Ef. destruct (first_line_app delims q line rest Ef) as (d & Eq & _ & _). unfold drop_next_line, discovered. rewrite (lonl_rep delims r q HR), Ef. cbn [bind].
  rewrite Nat.add_1_r. cbn [Nat.eqb]. cbn [Nat.sub]. rewrite Nat.sub_0_r. rewrite Eq in HR.
  destruct (drop_loop_rep line r (d :: rest) HR) as (r1 & E1 & HR1 & B1). rewrite E1. cbn [bind].
  destruct (pop_rep_cons r1 d rest HR1) as (r2 & E2 & HR2 & B2 & O2). rewrite E2. cbn [bind]. exists r2. splits; auto; [congruence|].
  apply pop_tail in E2 as [T2 _]. rewrite T2, B1. destruct line as [|c line].
  - cbn in E1. injection E1 as <-. now rewrite Nat.add_0_r.
  - rewrite (drop_loop_tail (c :: line) r (d :: rest) r1 HR E1) by discriminate. apply Nat.add_mod_idemp_l. pose proof (rep_cap _ _ HR). lia.
Qed.
Lemma line_loop_tail l : forall r rest out i out' r', rep r (l ++ rest) -> line_loop r out i (length l) = Ok (out', r') -> l <> [] -> rtail r' = (rtail r + length l) mod length (buf r).
Proof.
  induction l as [|c l IH]; intros r rest out i out' r' HR E N; [contradiction|]. cbn [length line_loop app] in *.
  destruct (pop_rep_cons r c (l ++ rest) HR) as (r1 & E1 & HR1 & B1 & _). rewrite E1 in E. cbn [bind] in E.
  apply pop_tail in E1 as [T1 _]. destruct (wr out i c) as [o1| | | |]; try discriminate. cbn [bind] in E. destruct l as [|c' l].
  - cbn in E. injection E as <- <-. exact T1.
  - rewrite (IH r1 rest _ _ _ r' HR1 E) by discriminate. rewrite T1, B1. rewrite Nat.add_mod_idemp_l by (pose proof (rep_cap _ _ HR); lia).
    f_equal. lia.
Qed.
Lemma get_over m r q line rest : rep r q -> first_line delims q = Some (line, rest) -> length q <= m ->
  exists out r', get_next_line delims r (repeat NUL m) m None = Ok (length line, out, r') /\ firstn (length line) out = line /\ rep r' rest /\ buf r' = buf r /\ over r' = 0%Z /\
    rtail r' = (rtail r + length line + 1) mod length (buf r).
Proof.
  intros HR Ef Hm. destruct (first_line_app delims q line rest Ef) as (d & Eq & _ & _).
  assert (length line + 1 <= m) as L by (rewrite Eq, app_length in Hm; cbn in Hm; lia).
  destruct (get_next_line_rep delims r q (repeat NUL m) m HR) as (n & out & r1 & E1 & B1 & H1); [rewrite repeat_length; lia|].
  rewrite Ef in H1. destruct (Nat.leb_spec (length line + 1) m); [|lia]. destruct H1 as (-> & -> & HR1).
  assert (over r1 = 0%Z /\ rtail r1 = (rtail r + length line + 1) mod length (buf r)) as [O T].
  { revert E1. unfold get_next_line, discovered. rewrite (lonl_rep delims r q HR), Ef. cbn [bind].
    rewrite Nat.add_1_r. cbn [Nat.eqb orb]. destruct (Nat.ltb_spec m (S (length line))); [lia|]. cbn [Nat.sub]. rewrite Nat.sub_0_r.
    destruct (line_loop_rep line r (repeat NUL m) 0 (d :: rest)) as (r2 & E2 & HR2 & B2); [rewrite <- Eq; exact HR|rewrite repeat_length; lia|].
    rewrite E2. cbn [bind]. destruct (pop_rep_cons r2 d rest HR2) as (r3 & E3 & _ & _ & O3). rewrite E3. cbn [bind].
    destruct (wr _ _ _); try discriminate. cbn [bind]. intros E4. injection E4 as _ <-. split; [exact O3|].
    apply pop_tail in E3 as [T3 _]. rewrite T3, B2. rewrite Eq in HR. destruct line as [|c line].
    + cbn in E2. injection E2 as <-. now rewrite Nat.add_0_r.
    + rewrite (line_loop_tail (c :: line) r (d :: rest) _ _ _ r2 HR E2) by discriminate. apply Nat.add_mod_idemp_l. pose proof (rep_cap _ _ HR). lia. }
  exists (line ++ NUL :: skipn (length line + 1) (repeat NUL m)), r1. splits; auto.
  rewrite firstn_app, Nat.sub_diag, firstn_all. cbn [firstn]. apply app_nil_r.
Qed.

Lemma serve_copy_serves m : need = most -> ci <= m -> most <= co -> serves false (serve_copy W reply most m).
Proof.
  intros En Hm Hco b q qo p [HI HO LI LO OV HD HP]. unfold serve_copy. rewrite (rep_free _ _ HO), LO, HD. pose proof (rep_len _ _ HI) as Lq. rewrite LI in Lq.
  rewrite (has_line_rep delims _ _ HI). destruct (first_line delims q) as [[line rest]|] eqn:Ef.
  - destruct (Nat.leb_spec need (co - length qo)) as [H1|H1]; destruct (Nat.ltb_spec (co - length qo) most) as [H2|H2]; try lia; [|reflexivity]. cbn [bind andb].
    destruct (get_over m _ _ _ _ HI Ef ltac:(lia)) as (out & r' & E & F & HR & B & O & T). rewrite E. cbn [bind]. rewrite F.
    destruct (push_n_plain W (reply line) (b_out b) qo HO) as (o & E2 & HR2 & L2 & _). cbv zeta in *. rewrite E2. cbn [bind].
    eexists. split; [reflexivity|]. rewrite LO in HR2. rewrite firstn_all2 in HR2 by (pose proof (Hreply line); lia). split; cbn [b_in b_out b_delims]; auto; try congruence.
    rewrite T, HP, LI, <- Nat.add_assoc, Nat.add_mod_idemp_l, Nat.add_assoc by (pose proof (rep_cap _ _ HI); lia). reflexivity.
  - destruct (_ <? _); reflexivity.
Qed.
Lemma serve_tx_serves : need = S most -> serves true (serve_tx W dbg reply most).
Proof.
  intros En b q qo p [HI HO LI LO OV HD HP]. unfold serve_tx. rewrite (rep_free _ _ HO), LO. rewrite (new_transaction_rep dbg b q HI), HD.
  destruct (first_line delims q) as [[line rest]|] eqn:Ef; cbn [bind]; [|destruct (_ <=? _); reflexivity].
  destruct (Nat.leb_spec need (co - length qo)) as [H1|H1]; destruct (Nat.leb_spec (co - length qo) most) as [H2|H2]; try lia; [|reflexivity].
  unfold tx_incoming. cbn [t_final t_line negb]. unfold sassert at 1. cbn [bind].
  pose proof (view_rep delims (b_in b) q HI) as V. rewrite Ef in V. destruct V as [_ V]. rewrite V, LI, HP. cbn [andb].
  destruct (Nat.leb_spec (p mod ci + length line) ci) as [H3|H3]; destruct (Nat.ltb_spec ci (p mod ci + length line)) as [H4|H4]; try lia; [|reflexivity].
  cbn [bind]. unfold tx_outgoing. cbn [t_final t_alive negb]. unfold sassert, deref. cbn [bind t_alive]. rewrite (rep_free _ _ HO), LO.
  pose proof (Hreply line) as Hr. destruct (Nat.ltb_spec (length (reply line)) (co - length qo)); [|lia]. cbn [bind].
  rewrite Nat.min_r by lia. rewrite firstn_all.
  destruct (push_n_plain W (reply line) (b_out b) qo HO) as (o & E2 & HR2 & L2 & _). cbv zeta in *. rewrite E2. cbn [bind].
  rewrite LO in HR2. rewrite firstn_all2 in HR2 by lia. unfold tx_commit, tx_finalize, sassert, deref. cbn [t_final t_alive negb bind b_in b_delims b_out]. rewrite HD.
  destruct (drop_over _ _ _ _ HI Ef) as (r' & E3 & HR3 & B3 & O3 & T3). rewrite E3. cbn [bind]. unfold tx_destroy. cbn [t_final bind].
  eexists. split; [reflexivity|]. split; cbn [b_in b_out b_delims]; auto; try congruence.
  rewrite T3, HP, LI, <- Nat.add_assoc, Nat.add_mod_idemp_l, Nat.add_assoc by (pose proof (rep_cap _ _ HI); lia). reflexivity.
Qed.

(** ** Any order of events *)
Lemma pull_state serve b q qo p w fut : state b q qo p -> fits delims ci (q ++ w_rx w ++ fut) ->
  exists b' l1 w', vstep W serve b w VPull = Ok ([], b', w') /\ state b' (q ++ l1) qo p /\ w_rx w = l1 ++ w_rx w' /\ w_room w' = w_room w /\ w_tx w' = w_tx w /\
    (w_rx w' = [] \/ first_line delims (q ++ l1) <> None).
Proof.
  intros [HI HO LI LO OV HD HP] Hfit. cbn [vstep]. unfold pull_in_data. rewrite HD.
  destruct (pull_loop_spec W delims serial (w_rx w) (length (w_rx w) + 1) (b_in b) q w NUL 0 HI (serial_source w) ltac:(lia))
    as (l1 & l2 & r1 & w1 & El & E1 & HR1 & L1 & Hs1 & Hlost & Hov & Hend); [auto|auto|].
  pose proof (pull_keeps _ _ _ _ _ _ _ _ E1) as [K1 K2]. cbn [snd] in K1, K2. rewrite E1. cbn [bind]. apply source_serial in Hs1. rewrite LI in *.
  assert (length (q ++ l1) <= ci) as Hle.
  { destruct (le_lt_dec (length (q ++ l1)) ci) as [|Hgt]; [assumption|exfalso]. specialize (Hlost Hgt).
    assert (q ++ l1 <> []) as Hne by (intros H; rewrite H in Hgt; cbn in Hgt; lia).
    destruct (@exists_last _ (q ++ l1) Hne) as (y & c & Ey). rewrite Ey in Hlost, Hgt.
    rewrite removelast_last in Hlost. rewrite app_length in Hgt. cbn in Hgt.
    assert (fits delims ci (firstn ci y ++ (skipn ci y ++ c :: l2 ++ fut))) as Hf2.
    { rewrite app_assoc, firstn_skipn. rewrite El in Hfit. rewrite <- app_assoc, app_assoc, Ey, <- app_assoc in Hfit. exact Hfit. }
    apply fits_no_overflow in Hf2.
    - destruct (skipn ci y); discriminate.
    - unfold no_delim in *. rewrite <- (firstn_skipn ci y) in Hlost. apply Forall_app in Hlost. tauto.
    - rewrite firstn_length. lia. }
  pose proof (pull_tail _ _ _ _ _ _ _ _ _ HI E1) as PT. cbn [fst snd] in PT. pose proof Hle as Hle2. rewrite app_length in Hle2. rewrite LI in PT.
  rewrite lastn_all in HR1 by exact Hle. eexists _, l1, w1. split; [reflexivity|].
  split; [split; cbn [b_in b_out b_delims]; auto; [rewrite Hov; auto|rewrite PT; [exact HP|lia]]|].
  split; [congruence|]. split; [exact K1|]. split; [exact K2|]. rewrite Hs1. destruct l2 as [|c l2]; [left; reflexivity|right].
  destruct (Hend ltac:(discriminate)) as [Hfull _]. rewrite (rep_is_full _ _ HR1), L1 in Hfull. apply Nat.eqb_eq in Hfull.
  intros N. apply first_line_none in N. assert (c :: l2 ++ fut = []) as X; [|discriminate].
  apply (fits_no_overflow delims ci (q ++ l1)); auto. rewrite El in Hfit. rewrite <- !app_assoc in Hfit. rewrite <- app_assoc. exact Hfit.
Qed.
Lemma push_state serve b q qo p w : state b q qo p ->
  exists b' k w', vstep W serve b w VPush = Ok ([], b', w') /\ state b' q (skipn k qo) p /\ w_rx w' = w_rx w /\ w_tx w' = w_tx w ++ firstn k qo /\
    (length qo <= w_room w -> skipn k qo = []).
Proof.
  intros [HI HO LI LO OV HD HP]. cbn [vstep]. unfold push_out_data. pose proof (rep_len _ _ HO) as Lq.
  destruct (push_out_spec serial (fun _ => True) serial_reliable qo (capacity (b_out b) + 1) (b_out b) w 0 HO I ltac:(unfold capacity; lia))
    as (k & r' & w' & E & Hk & Hs & HR & L & _ & Hend). rewrite E. cbn [bind]. apply serial_sent in Hs as (S1 & S2 & S3). rewrite firstn_length in S2.
  eexists _, k, w'. split; [reflexivity|]. split; [split; cbn [b_in b_out b_delims]; auto; congruence|]. split; [exact S1|]. split; [exact S3|].
  intros Hr. cbn [serial s_room] in Hend. apply skipn_all2. lia.
Qed.
(** The bytes of [ls] with their delimiters *)
Definition extent (ls : list (list ascii)) : nat := list_sum (map (fun l => length l + 1) ls).
Lemma straight_app l1 : forall n l2, straight ci n (l1 ++ l2) <-> straight ci n l1 /\ straight ci (n + extent l1) l2.
Proof.
  induction l1 as [|l l1 IH]; intros n l2; cbn [app straight]; [unfold extent; cbn; rewrite Nat.add_0_r; tauto|].
  rewrite IH. unfold extent. cbn [map list_sum fold_right]. fold (list_sum (map (fun l => length l + 1) l1)).
  replace (n + length l + 1 + list_sum (map (fun l => length l + 1) l1)) with (n + (length l + 1 + list_sum (map (fun l => length l + 1) l1))) by lia. tauto.
Qed.
Lemma serve_run view serve : serves view serve -> forall ops b q qo p w fut, state b q qo p -> fits delims ci (q ++ w_rx w ++ received ops ++ fut) ->
  (view = true /\ ~ straight ci p (fst (lines_of delims (q ++ w_rx w ++ received ops ++ fut))) /\ vrun W serve b w ops = UB) \/
  exists ls b' w' q' qo', vrun W serve b w ops = Ok (ls, b', w') /\ state b' q' qo' (p + extent ls) /\ w_tx w' ++ qo' = w_tx w ++ qo ++ concat (map reply ls) /\
    fst (lines_of delims (q ++ w_rx w ++ received ops ++ fut)) = ls ++ fst (lines_of delims (q' ++ w_rx w' ++ fut)) /\
    snd (lines_of delims (q ++ w_rx w ++ received ops ++ fut)) = snd (lines_of delims (q' ++ w_rx w' ++ fut)) /\
    fits delims ci (q' ++ w_rx w' ++ fut) /\ (view = true -> straight ci p ls).
Proof.
  intros SV. induction ops as [|op ops IH]; intros b q qo p w fut St Hfit.
  - right. exists [], b, w, q, qo. cbn. rewrite !app_nil_r, Nat.add_0_r. splits; auto.
  - destruct op as [s|n| | |]; cbn [vrun received] in *.
    + cbn [vstep bind]. destruct (IH b q qo p (mkWire (w_rx w ++ s) (w_room w) (w_tx w)) fut St) as [(U & N & E)|(ls & b' & w' & q' & qo' & E & St' & T & F)].
      { cbn [w_rx]. rewrite <- !app_assoc in *. exact Hfit. }
      * left. split; [exact U|]. cbn [w_rx] in N. rewrite <- !app_assoc in *. split; [exact N|]. rewrite E. reflexivity.
      * right. exists ls, b', w', q', qo'. rewrite E. cbn [bind app]. cbn [w_rx w_tx] in *. rewrite <- !app_assoc in *. auto.
    + cbn [vstep bind]. destruct (IH b q qo p (mkWire (w_rx w) (w_room w + n) (w_tx w)) fut St Hfit) as [(U & N & E)|(ls & b' & w' & q' & qo' & E & H)].
      * left. split; [exact U|]. split; [exact N|]. rewrite E. reflexivity.
      * right. exists ls, b', w', q', qo'. rewrite E. cbn [bind app]. auto.
    + destruct (pull_state serve b q qo p w (received ops ++ fut) St Hfit) as (b1 & l1 & w1 & E1 & St1 & X & _ & T1 & _).
      rewrite E1. cbn [bind].
      rewrite X in Hfit |- *. rewrite <- !app_assoc in *. rewrite (app_assoc q l1) in *.
      destruct (IH b1 (q ++ l1) qo p w1 fut St1 Hfit) as [(U & N & E)|(ls & b' & w' & q' & qo' & E & St' & T & F)].
      * left. split; [exact U|]. split; [exact N|]. rewrite E. reflexivity.
      * right. exists ls, b', w', q', qo'. rewrite E. cbn [bind app]. rewrite <- T1. auto.
    + cbn [vstep]. specialize (SV b q qo p St) as V. destruct (first_line delims q) as [[line rest]|] eqn:Ef.
      * destruct (need <=? co - length qo).
        -- pose proof (lines_of_app_rest delims q line rest (w_rx w ++ received ops ++ fut) Ef) as Fl.
           assert (view && (ci <? p mod ci + length line) = true \/ (view = true -> p mod ci + length line <= ci)) as [G|G].
           { destruct view; [|right; discriminate]. cbn [andb]. destruct (Nat.ltb_spec ci (p mod ci + length line)); [now left|right; lia]. }
           { rewrite G in V. left. apply andb_prop in G as [G1 G2]. apply Nat.ltb_lt in G2. split; [exact G1|]. rewrite Fl. cbn [fst straight].
             split; [lia|]. rewrite V. reflexivity. }
           destruct (view && (ci <? p mod ci + length line)) eqn:G'; [apply andb_prop in G' as [G1 G2]; apply Nat.ltb_lt in G2; specialize (G G1); lia|].
           destruct V as (b1 & E1 & St1). rewrite E1. cbn [bind].
           destruct (IH b1 rest (qo ++ reply line) _ w fut St1) as [(U & N & E)|(ls & b' & w' & q' & qo' & E & St' & T & F1 & F2 & F3 & F4)].
           { unfold fits in *. rewrite Fl in Hfit. cbn [fst snd] in Hfit. destruct Hfit as [Hf1 Hf2]. split; [now inversion Hf1|exact Hf2]. }
           ++ left. split; [exact U|]. rewrite Fl. cbn [fst straight]. split; [tauto|]. rewrite E. reflexivity.
           ++ right. exists (line :: ls), b', w', q', qo'. rewrite E. cbn [bind app map concat]. rewrite Fl. cbn [fst snd]. rewrite F1. splits; auto.
              ** revert St'. unfold extent. cbn [map list_sum fold_right]. fold (list_sum (map (fun l => length l + 1) ls)).
                 now replace (p + (length line + 1 + list_sum (map (fun l => length l + 1) ls))) with (p + length line + 1 + list_sum (map (fun l => length l + 1) ls)) by lia.
              ** rewrite T, <- !app_assoc. reflexivity.
              ** intros Hv. cbn [straight]. auto.
        -- rewrite V. cbn [bind]. destruct (IH b q qo p w fut St Hfit) as [(U & N & E)|(ls & b' & w' & q' & qo' & E & H)].
           ++ left. split; [exact U|]. split; [exact N|]. rewrite E. reflexivity.
           ++ right. exists ls, b', w', q', qo'. rewrite E. cbn [bind app]. auto.
      * rewrite V. cbn [bind]. destruct (IH b q qo p w fut St Hfit) as [(U & N & E)|(ls & b' & w' & q' & qo' & E & H)].
        -- left. split; [exact U|]. split; [exact N|]. rewrite E. reflexivity.
        -- right. exists ls, b', w', q', qo'. rewrite E. cbn [bind app]. auto.
    + destruct (push_state serve b q qo p w St) as (b1 & k & w1 & E1 & St1 & X & T1 & _).
      rewrite E1. cbn [bind]. rewrite <- X in Hfit |- *.
      destruct (IH b1 q (skipn k qo) p w1 fut St1 Hfit) as [(U & N & E)|(ls & b' & w' & q' & qo' & E & St' & T & F)].
      * left. split; [exact U|]. split; [exact N|]. rewrite E. reflexivity.
      * right. exists ls, b', w', q', qo'. rewrite E. cbn [bind app]. splits; try apply F; auto.
        rewrite T, T1, <- app_assoc. f_equal. now rewrite app_assoc, firstn_skipn.
Qed.

(** ** A server that goes on answers everything *)
Lemma vrun_app serve ops1 : forall b w ops2, vrun W serve b w (ops1 ++ ops2) =
  ('(ls1, b1, w1) <- vrun W serve b w ops1 ;; '(ls2, b2, w2) <- vrun W serve b1 w1 ops2 ;; Ok (ls1 ++ ls2, b2, w2)).
Proof.
  induction ops1 as [|op ops1 IH]; intros b w ops2; cbn [app vrun bind].
  - destruct (vrun W serve b w ops2) as [[[? ?] ?]| | | |]; reflexivity.
  - destruct (vstep W serve b w op) as [[[ls b1] w1]| | | |]; try reflexivity. cbn [bind]. rewrite IH.
    destruct (vrun W serve b1 w1 ops1) as [[[ls1 b2] w2]| | | |]; try reflexivity. cbn [bind].
    destruct (vrun W serve b2 w2 ops2) as [[[ls2 b3] w3]| | | |]; try reflexivity. cbn [bind]. now rewrite app_assoc.
Qed.
Lemma vrun_cons serve b w op ops ls b1 w1 : vstep W serve b w op = Ok (ls, b1, w1) ->
  vrun W serve b w (op :: ops) = ('(ls2, b2, w2) <- vrun W serve b1 w1 ops ;; Ok (ls ++ ls2, b2, w2)).
Proof. intros E. cbn [vrun]. rewrite E. reflexivity. Qed.
(** The line empties and the server pushes: nothing is left to be sent *)
Lemma flush_state serve b q qo p w ops : state b q qo p -> exists b' w', vrun W serve b w (VRoom co :: VPush :: ops) = vrun W serve b' w' ops /\
  state b' q [] p /\ w_rx w' = w_rx w /\ w_tx w' = w_tx w ++ qo.
Proof.
  intros St. rewrite (vrun_cons serve b w (VRoom co) _ [] b (mkWire (w_rx w) (w_room w + co) (w_tx w)) eq_refl).
  destruct (push_state serve b q qo p (mkWire (w_rx w) (w_room w + co) (w_tx w)) St) as (b1 & k & w1 & E1 & St1 & X & T & D). cbn [w_rx w_tx w_room] in *.
  assert (skipn k qo = []) as K. { apply D. pose proof (rep_len _ _ (s_out _ _ _ _ St)) as L. rewrite (s_co _ _ _ _ St) in L. lia. }
  rewrite (vrun_cons serve _ _ VPush ops _ _ _ E1). exists b1, w1. rewrite K in St1. split; [destruct (vrun W serve b1 w1 ops) as [[[? ?] ?]| | | |]; reflexivity|].
  split; [exact St1|]. split; [exact X|]. rewrite T. f_equal. transitivity (firstn k qo ++ skipn k qo); [rewrite K; now rewrite app_nil_r|apply firstn_skipn].
Qed.
Lemma serve_rounds view serve n : serves view serve -> need <= co -> forall b q qo p w, state b q qo p -> fits delims ci (q ++ w_rx w) ->
  length (fst (lines_of delims (q ++ w_rx w))) <= n ->
  (view = true /\ ~ straight ci p (fst (lines_of delims (q ++ w_rx w))) /\ vrun W serve b w (rounds co n) = UB) \/
  exists b' w', vrun W serve b w (rounds co n) = Ok (fst (lines_of delims (q ++ w_rx w)), b', w') /\
    w_tx w' = w_tx w ++ qo ++ concat (map reply (fst (lines_of delims (q ++ w_rx w)))) /\ (view = true -> straight ci p (fst (lines_of delims (q ++ w_rx w)))).
Proof.
  intros SV Hco. induction n as [|n IH]; intros b q qo p w St Hfit Hn.
  - right. cbn [rounds]. destruct (flush_state serve b q qo p w [] St) as (b1 & w1 & E1 & St1 & X & T). rewrite E1.
    destruct (fst (lines_of delims (q ++ w_rx w))); [|cbn in Hn; lia]. exists b1, w1. split; [reflexivity|]. cbn [map concat straight]. rewrite app_nil_r. auto.
  - cbn [rounds round app]. destruct (flush_state serve b q qo p w (VPull :: VServe :: rounds co n) St) as (b1 & w1 & E1 & St1 & X & T). rewrite E1.
    rewrite <- X in *. destruct (pull_state serve b1 q [] p w1 [] St1) as (b2 & l1 & w2 & E2 & St2 & X2 & _ & T2 & P2); [now rewrite app_nil_r|].
    rewrite (vrun_cons serve _ _ VPull _ _ _ _ E2). rewrite X2, app_assoc in Hfit, Hn |- *. set (q2 := q ++ l1) in *.
    specialize (SV b2 q2 [] p St2) as V. destruct (first_line delims q2) as [[line rest]|] eqn:Ef.
    + cbn [length] in V. rewrite Nat.sub_0_r in V. destruct (Nat.leb_spec need co); [|lia].
      pose proof (lines_of_app_rest delims q2 line rest (w_rx w2) Ef) as Fl. rewrite Fl in Hn |- *. cbn [fst snd length straight] in *.
      destruct (view && (ci <? p mod ci + length line)) eqn:G.
      { left. apply andb_prop in G as [G1 G2]. apply Nat.ltb_lt in G2. split; [exact G1|]. split; [lia|]. cbn [vrun vstep]. rewrite V. reflexivity. }
      assert (view = true -> p mod ci + length line <= ci) as G'. { intros Hv. rewrite Hv in G. cbn [andb] in G. apply Nat.ltb_ge in G. exact G. }
      destruct V as (b3 & E3 & St3).
      assert (vstep W serve b2 w2 VServe = Ok ([line], b3, w2)) as E3' by (cbn [vstep]; rewrite E3; reflexivity).
      rewrite (vrun_cons serve _ _ VServe _ _ _ _ E3').
      destruct (IH b3 rest ([] ++ reply line) _ w2 St3) as [(Hv & N & E)|(b' & w' & E & T' & S')].
      { unfold fits in *. rewrite Fl in Hfit. cbn [fst snd] in Hfit. destruct Hfit as [Hf1 Hf2]. split; [now inversion Hf1|exact Hf2]. }
      { lia. }
      * left. split; [exact Hv|]. split; [tauto|]. rewrite E. reflexivity.
      * right. rewrite E. cbn [bind app]. exists b', w'. split; [reflexivity|]. split; [|intros Hv; auto].
        rewrite T', T2, T. cbn [map concat app]. now rewrite <- !app_assoc.
    + assert (vstep W serve b2 w2 VServe = Ok ([], b2, w2)) as E3' by (cbn [vstep]; rewrite V; reflexivity).
      rewrite (vrun_cons serve _ _ VServe _ _ _ _ E3'). destruct P2 as [P2|P2]; [|contradiction]. rewrite P2, app_nil_r in *.
      assert (fst (lines_of delims q2) = []) as N.
      { apply first_line_none in Ef. pose proof (lines_of_nodelim_app delims q2 [] Ef) as L. rewrite app_nil_r in L. rewrite L. reflexivity. }
      rewrite N in *. destruct (IH b2 q2 [] p w2 St2) as [(_ & Hx & _)|(b' & w' & E & T' & _)]; [rewrite P2, app_nil_r; exact Hfit|rewrite P2, app_nil_r, N; cbn; lia| |].
      { exfalso. apply Hx. rewrite P2, app_nil_r, N. exact I. }
      rewrite P2, app_nil_r, N in *. right. rewrite E. cbn [bind app]. exists b', w'. split; [reflexivity|]. split; [|intros _; exact I].
      rewrite T', T2, T. cbn [map concat app]. now rewrite !app_nil_r.
Qed.
End Run.

(** ** From the beginning *)
Definition quiet : wire := mkWire [] 0 [].
Lemma new_state dbg delims ci co b0 : 1 <= ci -> 1 <= co -> bs_new dbg delims ci co = Ok b0 -> state ci co delims b0 [] [] 0.
Proof.
  intros Hi Ho. unfold bs_new, line_new, ring_new. rewrite !(proj2 (Nat.ltb_lt _ _)) by lia. destruct (ring_new_rep dbg ci NUL Hi) as (r & E & HR & L & O). destruct (ring_new_rep dbg co NUL Ho) as (r' & E' & HR' & L' & _).
  unfold ring_new in E, E'. rewrite (proj2 (Nat.ltb_lt _ _)) in E by lia. rewrite (proj2 (Nat.ltb_lt _ _)) in E' by lia. unfold sassert in *. cbn [bind] in *. injection E as <-. injection E' as <-.
  intros E. injection E as <-. split; auto. cbn. symmetry. apply Nat.mod_0_l. lia.
Qed.
Lemma copy_server W dbg delims ci co m reply most ops b0 : 1 <= ci <= m -> 1 <= co -> most <= co -> (forall l, length (reply l) <= most) ->
  bs_new dbg delims ci co = Ok b0 -> fits delims ci (received ops) ->
  exists ls b w q qo, vrun W (serve_copy W reply most m) b0 quiet ops = Ok (ls, b, w) /\ holds (b_in b) q /\ holds (b_out b) qo /\
    w_tx w ++ qo = concat (map reply ls) /\ fst (lines_of delims (received ops)) = ls ++ fst (lines_of delims (q ++ w_rx w)) /\
    snd (lines_of delims (received ops)) = snd (lines_of delims (q ++ w_rx w)).
Proof.
  intros Hi Ho Hm Hr E Hfit. pose proof (new_state dbg delims ci co b0 ltac:(lia) Ho E) as St.
  pose proof (serve_copy_serves W reply most most ci co delims Hr m eq_refl ltac:(lia) Hm) as SV.
  destruct (serve_run W reply most ci co delims false _ SV ops b0 [] [] 0 quiet [] St) as [[U _]|(ls & b & w & q & qo & R & [HI HO _ _ _ _ _] & T & F1 & F2 & _)].
  { cbn. rewrite app_nil_r. exact Hfit. }
  { discriminate. }
  cbn [app quiet w_rx w_tx] in *. rewrite !app_nil_r in *. exists ls, b, w, q, qo. splits; auto using rep_holds.
Qed.
Lemma server_done W reply need ci co delims view serve ops n b0 : serves reply need ci co delims view serve -> need <= co -> state ci co delims b0 [] [] 0 ->
  fits delims ci (received ops) -> length (fst (lines_of delims (received ops))) <= n ->
  (view = true /\ ~ straight ci 0 (fst (lines_of delims (received ops))) /\ vrun W serve b0 quiet (ops ++ rounds co n) = UB) \/
  exists b w, vrun W serve b0 quiet (ops ++ rounds co n) = Ok (fst (lines_of delims (received ops)), b, w) /\
    w_tx w = concat (map reply (fst (lines_of delims (received ops)))) /\ (view = true -> straight ci 0 (fst (lines_of delims (received ops)))).
Proof.
  intros SV Hm St Hfit Hn. rewrite vrun_app.
  destruct (serve_run W reply need ci co delims view _ SV ops b0 [] [] 0 quiet [] St) as [(U & N & R)|(ls & b & w & q & qo & R & St' & T & F1 & _ & F3 & F4)].
  { cbn. rewrite app_nil_r. exact Hfit. }
  { left. cbn [app quiet w_rx] in N. rewrite app_nil_r in N. split; [exact U|]. split; [exact N|]. rewrite R. reflexivity. }
  cbn [app quiet w_rx w_tx] in *. rewrite !app_nil_r in *. rewrite R. cbn [bind]. rewrite F1.
  destruct (serve_rounds W reply need ci co delims view _ n SV Hm b q qo _ w St' F3) as [(U & N & R')|(b' & w' & R' & T' & S')]; [rewrite F1, app_length in Hn; lia| |].
  - left. split; [exact U|]. split; [rewrite straight_app; tauto|]. rewrite R'. reflexivity.
  - right. exists b', w'. rewrite R'. cbn [bind]. split; [reflexivity|]. split; [rewrite T', app_assoc, T, map_app, concat_app; reflexivity|].
    intros Hv. apply straight_app. auto.
Qed.
Lemma copy_server_done W dbg delims ci co m reply most ops n b0 : 1 <= ci <= m -> 1 <= co -> most <= co -> (forall l, length (reply l) <= most) ->
  bs_new dbg delims ci co = Ok b0 -> fits delims ci (received ops) -> length (fst (lines_of delims (received ops))) <= n ->
  exists b w, vrun W (serve_copy W reply most m) b0 quiet (ops ++ rounds co n) = Ok (fst (lines_of delims (received ops)), b, w) /\
    w_tx w = concat (map reply (fst (lines_of delims (received ops)))).
Proof.
  intros Hi Ho Hm Hr E Hfit Hn. pose proof (new_state dbg delims ci co b0 ltac:(lia) Ho E) as St.
  pose proof (serve_copy_serves W reply most most ci co delims Hr m eq_refl ltac:(lia) Hm) as SV.
  destruct (server_done W reply most ci co delims false _ ops n b0 SV Hm St Hfit Hn) as [[U _]|(b & w & H1 & H2 & _)]; [discriminate|eauto].
Qed.
Lemma tx_server W dbg delims ci co reply most ops b0 : 1 <= ci -> 1 <= co -> (forall l, length (reply l) <= most) ->
  bs_new dbg delims ci co = Ok b0 -> fits delims ci (received ops) ->
  (~ straight ci 0 (fst (lines_of delims (received ops))) /\ vrun W (serve_tx W dbg reply most) b0 quiet ops = UB) \/
  exists ls b w q qo, straight ci 0 ls /\ vrun W (serve_tx W dbg reply most) b0 quiet ops = Ok (ls, b, w) /\ holds (b_in b) q /\ holds (b_out b) qo /\
    w_tx w ++ qo = concat (map reply ls) /\ fst (lines_of delims (received ops)) = ls ++ fst (lines_of delims (q ++ w_rx w)) /\
    snd (lines_of delims (received ops)) = snd (lines_of delims (q ++ w_rx w)).
Proof.
  intros Hi Ho Hr E Hfit. pose proof (new_state dbg delims ci co b0 ltac:(lia) Ho E) as St.
  pose proof (serve_tx_serves W dbg reply most (S most) ci co delims Hr eq_refl) as SV.
  destruct (serve_run W reply (S most) ci co delims true _ SV ops b0 [] [] 0 quiet [] St) as [(_ & N & U)|(ls & b & w & q & qo & R & [HI HO _ _ _ _ _] & T & F1 & F2 & _ & F4)].
  { cbn. rewrite app_nil_r. exact Hfit. }
  - left. cbn [app quiet w_rx] in N. rewrite app_nil_r in N. split; [exact N|exact U].
  - right. cbn [app quiet w_rx w_tx] in *. rewrite !app_nil_r in *. exists ls, b, w, q, qo. splits; auto using rep_holds.
Qed.
Lemma tx_server_done W dbg delims ci co reply most ops n b0 : 1 <= ci -> most < co -> (forall l, length (reply l) <= most) ->
  bs_new dbg delims ci co = Ok b0 -> fits delims ci (received ops) -> length (fst (lines_of delims (received ops))) <= n ->
  (straight ci 0 (fst (lines_of delims (received ops))) ->
   exists b w, vrun W (serve_tx W dbg reply most) b0 quiet (ops ++ rounds co n) = Ok (fst (lines_of delims (received ops)), b, w) /\
     w_tx w = concat (map reply (fst (lines_of delims (received ops))))) /\
  (~ straight ci 0 (fst (lines_of delims (received ops))) -> vrun W (serve_tx W dbg reply most) b0 quiet (ops ++ rounds co n) = UB).
Proof.
  intros Hi Ho Hr E Hfit Hn. pose proof (new_state dbg delims ci co b0 Hi ltac:(lia) E) as St.
  pose proof (serve_tx_serves W dbg reply most (S most) ci co delims Hr eq_refl) as SV.
  destruct (server_done W reply (S most) ci co delims true _ ops n b0 SV Ho St Hfit Hn) as [(_ & N & U)|(b & w & H1 & H2 & H3)].
  - split; [contradiction|auto].
  - split; [eauto|intros N; exfalso; auto].
Qed.
