(** Proofs about client and server. *)
From Coq Require Import List Arith ZArith Bool Ascii Lia.
From Verif Require Import Base RingOps RingModel RingSpec RingProofs LineModel LineSpec LineProofs StreamModel StreamSpec StreamProofs ServeModel ServeSpec ServeProofs
  LinkModel LinkSpec.
Import ListNotations.

Section Lines.
Variable delims : list ascii.
Variable d : ascii.
Hypothesis Hd : existsb (Ascii.eqb d) delims = true.

Definition ended (l : list ascii) : list ascii := l ++ [d].
Definition bytes (ls : list (list ascii)) : list ascii := concat (map ended ls).
Lemma bytes_app l1 l2 : bytes (l1 ++ l2) = bytes l1 ++ bytes l2.
Proof. unfold bytes. now rewrite map_app, concat_app. Qed.
Lemma bytes_one l : bytes [l] = ended l.
Proof. unfold bytes. cbn. apply app_nil_r. Qed.

Lemma lines_of_bytes ls : Forall (no_delim delims) ls -> lines_of delims (bytes ls) = (ls, []).
Proof.
  induction 1 as [|l ls Hl _ IH]; [reflexivity|]. unfold bytes in *. cbn [map concat]. unfold ended at 1. rewrite <- app_assoc.
  cbn [app]. induction Hl as [|c l Hc _ IHl]; cbn [app lines_of].
  - rewrite IH, Hd. reflexivity.
  - rewrite IHl, Hc. reflexivity.
Qed.
Lemma bytes_fits cap ls : Forall (proper delims cap) ls -> fits delims cap (bytes ls).
Proof.
  intros H. unfold fits. rewrite lines_of_bytes by (revert H; apply Forall_impl; unfold proper; tauto).
  split; [revert H; apply Forall_impl; unfold proper; tauto|cbn; lia].
Qed.
Lemma bytes_first ls q x line rest : Forall (no_delim delims) ls -> q ++ x = bytes ls -> first_line delims q = Some (line, rest) ->
  exists ls', ls = line :: ls' /\ rest ++ x = bytes ls'.
Proof.
  intros Hls E Ef. pose proof (lines_of_app_rest delims q line rest x Ef) as L. rewrite E, lines_of_bytes in L by exact Hls.
  injection L as L _. destruct ls as [|l ls]; [discriminate|]. injection L as -> L. exists ls. split; [reflexivity|].
  destruct (first_line_app delims q line rest Ef) as (c & -> & _). unfold bytes, ended in E. cbn [map concat] in E. rewrite <- !app_assoc in E. apply app_inv_head in E.
  cbn [app] in E. injection E as _ E. exact E.
Qed.
Lemma bytes_none ls q : Forall (no_delim delims) ls -> q = bytes ls -> first_line delims q = None -> ls = [].
Proof.
  intros Hls -> N. apply first_line_none in N. pose proof (lines_of_nodelim_app delims _ [] N) as L. rewrite app_nil_r, lines_of_bytes in L by exact Hls.
  cbn in L. now injection L.
Qed.

(** ** One step *)
Section Run.
Variable W : Z.
Variable answer : list ascii -> list ascii.
Variable most ma mb cia coa cib cob : nat.
Hypothesis Hma : cia <= ma.
Hypothesis Hmb : cib <= mb.
Hypothesis Hmost : most + 1 <= cob.
Hypothesis Hanswer : forall l, proper delims cia (answer l) /\ length (answer l) <= most.

Let reply := fun l => answer l ++ [d].
Let Hreply : forall l, length (reply l) <= most + 1.
Proof. intros l. unfold reply. rewrite app_length. cbn. destruct (Hanswer l) as [_ H]. lia. Qed.

(** [s] with requests [rq] and answers [an] that are under way *)
Definition sound (s : link) (rq an : list (list ascii)) : Prop :=
  exists qa qoa pa qb qob pb,
    state cia coa delims (k_a s) qa qoa pa /\ state cib cob delims (k_b s) qb qob pb /\
    qb ++ w_rx (k_wb s) ++ w_tx (k_wa s) ++ qoa = bytes rq /\ qa ++ w_rx (k_wa s) ++ w_tx (k_wb s) ++ qob = bytes an /\
    Forall (proper delims cib) rq /\ Forall (proper delims cia) an.

Lemma proper_nd cap ls : Forall (proper delims cap) ls -> Forall (no_delim delims) ls.
Proof. apply Forall_impl. unfold proper. tauto. Qed.

Lemma read_state b q qo p : state cia coa delims b q qo p ->
  match first_line delims q with
  | Some (line, rest) => exists b', read_line ma b = Ok ([line], b') /\ state cia coa delims b' rest qo (p + length line + 1)
  | None => read_line ma b = Ok ([], b)
  end.
Proof.
  intros [HI HO LI LO OV HDl HP]. unfold read_line. rewrite HDl, (has_line_rep delims _ _ HI). pose proof (rep_len _ _ HI) as Lq. rewrite LI in Lq.
  destruct (first_line delims q) as [[line rest]|] eqn:Ef; [|reflexivity]. cbn [bind].
  destruct (get_over delims ma _ _ _ _ HI Ef ltac:(lia)) as (out & r' & E & F & HR & B & O & T). rewrite E. cbn [bind]. rewrite F.
  eexists. split; [reflexivity|]. split; cbn [b_in b_out b_delims]; auto; try congruence.
  rewrite T, HP, LI, <- Nat.add_assoc, Nat.add_mod_idemp_l, Nat.add_assoc by (pose proof (rep_cap _ _ HI); lia). reflexivity.
Qed.
Lemma send_state b q qo p l : state cia coa delims b q qo p ->
  if length l + 1 <=? coa - length qo
  then exists b', send W d l b = Ok (true, b') /\ state cia coa delims b' q (qo ++ ended l) p
  else send W d l b = Ok (false, b).
Proof.
  intros [HI HO LI LO OV HDl HP]. unfold send. rewrite (rep_free _ _ HO), LO.
  destruct (Nat.leb_spec (length l + 1) (coa - length qo)) as [H|H]; destruct (Nat.ltb_spec (coa - length qo) (length l + 1)) as [H'|H']; try lia; [|reflexivity].
  destruct (push_n_plain W (l ++ [d]) (b_out b) qo HO) as (o & E2 & HR2 & L2 & _). cbv zeta in *. rewrite E2. cbn [bind].
  eexists. split; [reflexivity|]. rewrite LO in HR2. rewrite firstn_all2 in HR2 by (rewrite app_length; cbn; lia).
  split; cbn [b_in b_out b_delims]; auto; congruence.
Qed.

(** Lines sent, answered and read in a step *)
Lemma step_sound s rq an op : sound s rq an -> asks delims cib op ->
  exists x y v s' rq' an', kstep W d answer most ma mb s op = Ok (x, y, s') /\ sound s' rq' an' /\ rq ++ x = v ++ rq' /\ an ++ map answer v = y ++ an'.
Proof.
  destruct s as [a wa b wb]. intros (qa & qoa & pa & qb & qob & pb & SA & SB & ER & EA & FR & FA) Hop. cbn [k_a k_wa k_b k_wb] in *.
  destruct op as [l| | |n| | |n| | |n|n]; cbn [kstep asks] in *.
  - pose proof (send_state a qa qoa pa l SA) as H. destruct (_ <=? _).
    + destruct H as (a' & -> & SA'). cbn [bind]. exists [l], [], [], (mkLink a' wa b wb), (rq ++ [l]), an. split; [reflexivity|].
      split; [|split; [reflexivity|cbn; now rewrite app_nil_r]]. exists qa, (qoa ++ ended l), pa, qb, qob, pb. cbn [k_a k_wa k_b k_wb]. splits; auto.
      * rewrite bytes_app, bytes_one, <- ER, <- !app_assoc. reflexivity.
      * apply Forall_app. auto.
    + rewrite H. cbn [bind]. exists [], [], [], (mkLink a wa b wb), rq, an. rewrite !app_nil_r. split; [reflexivity|]. split; [|auto].
      exists qa, qoa, pa, qb, qob, pb. splits; auto.
  - pose proof (read_state a qa qoa pa SA) as H. destruct (first_line delims qa) as [[line rest]|] eqn:Ef.
    + destruct H as (a' & -> & SA'). cbn [bind]. destruct (bytes_first an qa _ line rest (proper_nd _ _ FA) EA Ef) as (an' & -> & EA').
      exists [], [line], [], (mkLink a' wa b wb), rq, an'. split; [reflexivity|]. split; [|cbn; rewrite !app_nil_r; auto].
      inversion FA; subst. exists rest, qoa, (pa + length line + 1), qb, qob, pb. splits; auto.
    + rewrite H. cbn [bind]. exists [], [], [], (mkLink a wa b wb), rq, an. cbn [map app]. rewrite !app_nil_r. split; [reflexivity|]. split; [|auto].
      exists qa, qoa, pa, qb, qob, pb. splits; auto.
  - pose proof (serve_copy_serves W reply (most + 1) (most + 1) cib cob delims Hreply mb eq_refl Hmb Hmost b qb qob pb SB) as H.
    fold reply. destruct (first_line delims qb) as [[line rest]|] eqn:Ef.
    + destruct (_ <=? _).
      * cbn [andb] in H. destruct H as (b' & -> & SB'). cbn [bind]. destruct (bytes_first rq qb _ line rest (proper_nd _ _ FR) ER Ef) as (rq' & -> & ER').
        exists [], [], [line], (mkLink a wa b' wb), rq', (an ++ [answer line]). split; [reflexivity|]. split; [|cbn; rewrite !app_nil_r; auto].
        inversion FR; subst. exists qa, qoa, pa, rest, (qob ++ reply line), (pb + length line + 1). cbn [k_a k_wa k_b k_wb]. splits; auto.
        -- rewrite bytes_app, bytes_one, <- EA, <- !app_assoc. reflexivity.
        -- apply Forall_app. split; [exact FA|]. constructor; [|constructor]. apply Hanswer.
      * rewrite H. cbn [bind]. exists [], [], [], (mkLink a wa b wb), rq, an. cbn [map app]. rewrite !app_nil_r. split; [reflexivity|]. split; [|auto].
        exists qa, qoa, pa, qb, qob, pb. splits; auto.
    + rewrite H. cbn [bind]. exists [], [], [], (mkLink a wa b wb), rq, an. cbn [map app]. rewrite !app_nil_r. split; [reflexivity|]. split; [|auto].
      exists qa, qoa, pa, qb, qob, pb. splits; auto.
  - cbn [vstep bind]. eexists [], [], [], _, rq, an. cbn [map app]. rewrite !app_nil_r. split; [reflexivity|]. split; [|auto].
    exists qa, qoa, pa, qb, qob, pb. splits; auto.
  - destruct (push_state W cia coa delims nothing a qa qoa pa wa SA) as (a' & k & wa' & -> & SA' & X & T & _). cbn [bind].
    eexists [], [], [], _, rq, an. cbn [map app]. rewrite !app_nil_r. split; [reflexivity|]. split; [|auto].
    exists qa, (skipn k qoa), pa, qb, qob, pb. cbn [k_a k_wa k_b k_wb]. rewrite X, T. splits; auto. rewrite <- ER, <- (app_assoc (w_tx wa)), firstn_skipn. reflexivity.
  - destruct (pull_state W cia coa delims nothing a qa qoa pa wa (w_tx wb ++ qob) SA) as (a' & l1 & wa' & -> & SA' & X & _ & T & _).
    { rewrite EA. apply bytes_fits, FA. }
    cbn [bind]. eexists [], [], [], _, rq, an. cbn [map app]. rewrite !app_nil_r. split; [reflexivity|]. split; [|auto].
    exists (qa ++ l1), qoa, pa, qb, qob, pb. cbn [k_a k_wa k_b k_wb]. rewrite T. splits; auto. rewrite <- EA, X, <- !app_assoc. reflexivity.
  - cbn [vstep bind]. eexists [], [], [], _, rq, an. cbn [map app]. rewrite !app_nil_r. split; [reflexivity|]. split; [|auto].
    exists qa, qoa, pa, qb, qob, pb. splits; auto.
  - destruct (push_state W cib cob delims nothing b qb qob pb wb SB) as (b' & k & wb' & -> & SB' & X & T & _). cbn [bind].
    eexists [], [], [], _, rq, an. cbn [map app]. rewrite !app_nil_r. split; [reflexivity|]. split; [|auto].
    exists qa, qoa, pa, qb, (skipn k qob), pb. cbn [k_a k_wa k_b k_wb]. rewrite X, T. splits; auto. rewrite <- EA, <- (app_assoc (w_tx wb)), firstn_skipn. reflexivity.
  - destruct (pull_state W cib cob delims nothing b qb qob pb wb (w_tx wa ++ qoa) SB) as (b' & l1 & wb' & -> & SB' & X & _ & T & _).
    { rewrite ER. apply bytes_fits, FR. }
    cbn [bind]. eexists [], [], [], _, rq, an. cbn [map app]. rewrite !app_nil_r. split; [reflexivity|]. split; [|auto].
    exists qa, qoa, pa, (qb ++ l1), qob, pb. cbn [k_a k_wa k_b k_wb]. rewrite T. splits; auto. rewrite <- ER, X, <- !app_assoc. reflexivity.
  - unfold carry. set (k := match n with Some _ => _ | None => _ end). eexists [], [], [], _, rq, an. cbn [map app]. rewrite !app_nil_r. split; [reflexivity|]. split; [|auto].
    exists qa, qoa, pa, qb, qob, pb. cbn [k_a k_wa k_b k_wb w_rx w_tx]. splits; auto. rewrite <- ER, <- !app_assoc. do 2 f_equal. now rewrite app_assoc, firstn_skipn.
  - unfold carry. set (k := match n with Some _ => _ | None => _ end). eexists [], [], [], _, rq, an. cbn [map app]. rewrite !app_nil_r. split; [reflexivity|]. split; [|auto].
    exists qa, qoa, pa, qb, qob, pb. cbn [k_a k_wa k_b k_wb w_rx w_tx]. splits; auto. rewrite <- EA, <- !app_assoc. do 2 f_equal. now rewrite app_assoc, firstn_skipn.
Qed.
Lemma run_sound ops : forall s rq an, sound s rq an -> Forall (asks delims cib) ops ->
  exists x y v s' rq' an', krun W d answer most ma mb s ops = Ok (x, y, s') /\ sound s' rq' an' /\ rq ++ x = v ++ rq' /\ an ++ map answer v = y ++ an'.
Proof.
  induction ops as [|op ops IH]; intros s rq an Hs Hops; cbn [krun].
  - exists [], [], [], s, rq, an. cbn. rewrite !app_nil_r. auto.
  - inversion Hops as [|? ? H1 H2]; subst. destruct (step_sound s rq an op Hs H1) as (x1 & y1 & v1 & s1 & rq1 & an1 & -> & S1 & R1 & A1). cbn [bind].
    destruct (IH s1 rq1 an1 S1 H2) as (x2 & y2 & v2 & s2 & rq2 & an2 & -> & S2 & R2 & A2). cbn [bind].
    exists (x1 ++ x2), (y1 ++ y2), (v1 ++ v2), s2, rq2, an2. split; [reflexivity|]. split; [exact S2|]. split.
    + rewrite app_assoc, R1, <- !app_assoc, R2. reflexivity.
    + rewrite map_app, app_assoc, A1, <- !app_assoc, A2. reflexivity.
Qed.

(** ** Everything goes on *)
Definition calm (s : link) : Prop := exists qa pa, state cia coa delims (k_a s) qa [] pa.
Lemma krun_cons s op ops x s1 y : kstep W d answer most ma mb s op = Ok (x, y, s1) ->
  krun W d answer most ma mb s (op :: ops) = ('(x2, y2, s2) <- krun W d answer most ma mb s1 ops ;; Ok (x ++ x2, y ++ y2, s2)).
Proof. intros E. cbn [krun]. rewrite E. reflexivity. Qed.
Lemma krun_silent s op ops s1 : kstep W d answer most ma mb s op = Ok ([], [], s1) -> krun W d answer most ma mb s (op :: ops) = krun W d answer most ma mb s1 ops.
Proof. intros E. rewrite (krun_cons _ _ _ _ _ _ E). destruct (krun _ _ _ _ _ _ s1 ops) as [[[? ?] ?]| | | |]; reflexivity. Qed.
Lemma flush_a a wa b wb q qo p ops : state cia coa delims a q qo p -> exists a' wa', state cia coa delims a' q [] p /\ w_rx wa' = w_rx wa /\ w_tx wa' = w_tx wa ++ qo /\
  krun W d answer most ma mb (mkLink a wa b wb) (KRoomA coa :: KPushA :: ops) = krun W d answer most ma mb (mkLink a' wa' b wb) ops.
Proof.
  intros St. destruct (push_state W cia coa delims nothing a q qo p (mkWire (w_rx wa) (w_room wa + coa) (w_tx wa)) St) as (a1 & k & w1 & E1 & St1 & X & T & D). cbn [w_rx w_tx w_room] in *.
  assert (skipn k qo = []) as K. { apply D. pose proof (rep_len _ _ (s_out _ _ _ _ _ _ _ St)) as L. rewrite (s_co _ _ _ _ _ _ _ St) in L. lia. }
  exists a1, w1. rewrite K in St1. splits; auto.
  - rewrite T. f_equal. transitivity (firstn k qo ++ skipn k qo); [rewrite K; now rewrite app_nil_r|apply firstn_skipn].
  - rewrite (krun_silent _ (KRoomA coa) _ (mkLink a (mkWire (w_rx wa) (w_room wa + coa) (w_tx wa)) b wb)) by reflexivity.
    apply krun_silent. cbn [kstep]. rewrite E1. reflexivity.
Qed.
Lemma flush_b a wa b wb q qo p ops : state cib cob delims b q qo p -> exists b' wb', state cib cob delims b' q [] p /\ w_rx wb' = w_rx wb /\ w_tx wb' = w_tx wb ++ qo /\
  krun W d answer most ma mb (mkLink a wa b wb) (KRoomB cob :: KPushB :: ops) = krun W d answer most ma mb (mkLink a wa b' wb') ops.
Proof.
  intros St. destruct (push_state W cib cob delims nothing b q qo p (mkWire (w_rx wb) (w_room wb + cob) (w_tx wb)) St) as (b1 & k & w1 & E1 & St1 & X & T & D). cbn [w_rx w_tx w_room] in *.
  assert (skipn k qo = []) as K. { apply D. pose proof (rep_len _ _ (s_out _ _ _ _ _ _ _ St)) as L. rewrite (s_co _ _ _ _ _ _ _ St) in L. lia. }
  exists b1, w1. rewrite K in St1. splits; auto.
  - rewrite T. f_equal. transitivity (firstn k qo ++ skipn k qo); [rewrite K; now rewrite app_nil_r|apply firstn_skipn].
  - rewrite (krun_silent _ (KRoomB cob) _ (mkLink a wa b (mkWire (w_rx wb) (w_room wb + cob) (w_tx wb)))) by reflexivity.
    apply krun_silent. cbn [kstep]. rewrite E1. reflexivity.
Qed.
Lemma turn_sound s rq an ops : sound s rq an -> exists y v s' rq' an',
  krun W d answer most ma mb s (turn coa cob ++ ops) = ('(x2, y2, s2) <- krun W d answer most ma mb s' ops ;; Ok (x2, y ++ y2, s2)) /\
  sound s' rq' an' /\ calm s' /\ rq = v ++ rq' /\ an ++ map answer v = y ++ an' /\ (rq ++ an <> [] -> length y = 1).
Proof.
  destruct s as [a wa b wb]. intros (qa & qoa & pa & qb & qob & pb & SA & SB & ER & EA & FR & FA). cbn [k_a k_wa k_b k_wb] in *. unfold turn. cbn [app].
  destruct (flush_a a wa b wb qa qoa pa (KToB None :: KRoomB cob :: KPushB :: KPullB :: KServe :: KRoomB cob :: KPushB :: KToA None :: KPullA :: KRead :: ops) SA)
    as (a1 & wa1 & SA1 & X1 & T1 & ->).
  set (wb1 := mkWire (w_rx wb ++ w_tx wa1) (w_room wb) (w_tx wb)). set (wa2 := mkWire (w_rx wa1) (w_room wa1) []).
  rewrite (krun_silent _ (KToB None) _ (mkLink a1 wa2 b wb1)) by (cbn [kstep carry]; rewrite skipn_all, firstn_all; reflexivity).
  destruct (flush_b a1 wa2 b wb1 qb qob pb (KPullB :: KServe :: KRoomB cob :: KPushB :: KToA None :: KPullA :: KRead :: ops) SB) as (b1 & wb2 & SB1 & X2 & T2 & ->).
  assert (qb ++ w_rx wb2 = bytes rq) as ER1. { rewrite X2. cbn [wb1 w_rx]. rewrite T1, <- ER. reflexivity. }
  destruct (pull_state W cib cob delims nothing b1 qb [] pb wb2 [] SB1) as (b2 & l1 & wb3 & E3 & SB2 & X3 & _ & T3 & P3).
  { rewrite app_nil_r, ER1. apply bytes_fits, FR. }
  rewrite (krun_silent _ KPullB _ (mkLink a1 wa2 b2 wb3)) by (cbn [kstep]; rewrite E3; reflexivity).
  rewrite X3, app_assoc in ER1.
  (* the server *)
  assert (exists v rq' qb' qob' pb' b3, serve_copy W reply (most + 1) mb b2 = Ok (v, b3) /\ state cib cob delims b3 qb' qob' pb' /\ rq = v ++ rq' /\ qb' ++ w_rx wb3 = bytes rq' /\
    qob' = bytes (map answer v) /\ (rq <> [] -> v <> [])) as (v & rq' & qb' & qob' & pb' & b3 & E4 & SB3 & -> & ER2 & EO & Hv).
  { pose proof (serve_copy_serves W reply (most + 1) (most + 1) cib cob delims Hreply mb eq_refl Hmb Hmost b2 (qb ++ l1) [] pb SB2) as H.
    destruct (first_line delims (qb ++ l1)) as [[line rest]|] eqn:Ef.
    - cbn [length] in H. rewrite Nat.sub_0_r in H. rewrite (proj2 (Nat.leb_le _ _)) in H by lia. cbn [andb] in H. destruct H as (b3 & E & SB3).
      destruct (bytes_first rq _ _ line rest (proper_nd _ _ FR) ER1 Ef) as (rq' & -> & ER').
      exists [line], rq', rest, ([] ++ reply line), (pb + length line + 1), b3. splits; auto; [|discriminate]. cbn [map]. rewrite bytes_one. reflexivity.
    - exists [], rq, (qb ++ l1), [], pb, b2. splits; auto. intros N. exfalso. apply N. destruct P3 as [P3|P3]; [|contradiction].
      rewrite P3, app_nil_r in ER1. apply (bytes_none rq _ (proper_nd _ _ FR) ER1 Ef). }
  rewrite (krun_silent _ KServe _ (mkLink a1 wa2 b3 wb3)) by (cbn [kstep]; fold reply; rewrite E4; reflexivity).
  destruct (flush_b a1 wa2 b3 wb3 qb' qob' pb' (KToA None :: KPullA :: KRead :: ops) SB3) as (b4 & wb4 & SB4 & X4 & T4 & ->).
  set (wa3 := mkWire (w_rx wa2 ++ w_tx wb4) (w_room wa2) (w_tx wa2)). set (wb5 := mkWire (w_rx wb4) (w_room wb4) []).
  rewrite (krun_silent _ (KToA None) _ (mkLink a1 wa3 b4 wb5)) by (cbn [kstep carry]; rewrite skipn_all, firstn_all; reflexivity).
  assert (qa ++ w_rx wa3 = bytes (an ++ map answer v)) as EA1.
  { cbn [wa3 wa2 w_rx]. rewrite T4, T3, T2, X1, EO, bytes_app, <- EA. cbn [wb1 w_tx]. rewrite <- !app_assoc. reflexivity. }
  assert (Forall (proper delims cia) (an ++ map answer v)) as FA1.
  { apply Forall_app. split; [exact FA|]. apply Forall_forall. intros l Hl. apply in_map_iff in Hl as (r & <- & _). apply Hanswer. }
  destruct (pull_state W cia coa delims nothing a1 qa [] pa wa3 [] SA1) as (a2 & l2 & wa4 & E5 & SA2 & X5 & _ & T5 & P5).
  { rewrite app_nil_r, EA1. apply bytes_fits, FA1. }
  rewrite (krun_silent _ KPullA _ (mkLink a2 wa4 b4 wb5)) by (cbn [kstep]; rewrite E5; reflexivity).
  rewrite X5, app_assoc in EA1. apply Forall_app in FR as [_ FR].
  (* the client *)
  pose proof (read_state a2 (qa ++ l2) [] pa SA2) as H. destruct (first_line delims (qa ++ l2)) as [[line rest]|] eqn:Ef.
  - destruct H as (a3 & E & SA3). destruct (bytes_first _ _ _ line rest (proper_nd _ _ FA1) EA1 Ef) as (an' & Ean & EA').
    exists [line], v, (mkLink a3 wa4 b4 wb5), rq', an'.
    rewrite (krun_cons _ KRead ops [] (mkLink a3 wa4 b4 wb5) [line]) by (cbn [kstep]; rewrite E; reflexivity).
    split; [reflexivity|]. split; [|split; [exists rest; eexists; exact SA3|auto]].
    exists rest, [], (pa + length line + 1), qb', [], pb'. cbn [k_a k_wa k_b k_wb wb5 w_tx w_rx]. rewrite T5. cbn [wa3 wa2 w_tx]. rewrite ?app_nil_r, X4. splits; auto.
    rewrite Ean in FA1. now inversion FA1.
  - exists [], v, (mkLink a2 wa4 b4 wb5), rq', (an ++ map answer v).
    rewrite (krun_cons _ KRead ops [] (mkLink a2 wa4 b4 wb5) []) by (cbn [kstep]; rewrite H; reflexivity).
    split; [reflexivity|]. split; [|split; [eexists; eexists; exact SA2|split; [reflexivity|split; [reflexivity|]]]].
    + exists (qa ++ l2), [], pa, qb', [], pb'. cbn [k_a k_wa k_b k_wb wb5 w_tx w_rx]. rewrite T5. cbn [wa3 wa2 w_tx]. rewrite ?app_nil_r, X4. splits; auto.
    + destruct P5 as [P5|P5]; [|contradiction]. rewrite P5, app_nil_r in EA1. pose proof (bytes_none _ _ (proper_nd _ _ FA1) EA1 Ef) as N.
      apply app_eq_nil in N as [-> N]. apply map_eq_nil in N. rewrite app_nil_r. intros M. destruct (Hv M N).
Qed.
Lemma turns_sound n : forall s rq an, sound s rq an -> length rq + length an <= n ->
  exists s', krun W d answer most ma mb s (turns coa cob n) = Ok ([], an ++ map answer rq, s') /\ sound s' [] [].
Proof.
  induction n as [|n IH]; intros s rq an Hs Hn; cbn [turns].
  - destruct rq, an; try (cbn in Hn; lia). exists s. split; [reflexivity|exact Hs].
  - destruct (turn_sound s rq an (turns coa cob n) Hs) as (y & v & s1 & rq1 & an1 & -> & S1 & _ & -> & A1 & Hy).
    assert (length rq1 + length an1 <= n) as L.
    { apply (f_equal (@length _)) in A1. rewrite !app_length, map_length in *. destruct (v ++ rq1) as [|l0 rq0] eqn:Ev.
      - apply app_eq_nil in Ev as [-> ->]. destruct an as [|l0 an0]; [cbn in *; lia|]. specialize (Hy ltac:(discriminate)). cbn [length] in *. lia.
      - specialize (Hy ltac:(discriminate)). lia. }
    destruct (IH s1 rq1 an1 S1 L) as (s2 & -> & S2). cbn [bind]. exists s2. split; [|exact S2]. rewrite map_app, (app_assoc an), A1, <- app_assoc. reflexivity.
Qed.
Lemma calls_sound ls : forall s, sound s [] [] -> calm s -> Forall (proper delims cib) ls -> Forall (proper delims coa) ls ->
  exists s', krun W d answer most ma mb s (calls coa cob ls) = Ok (ls, map answer ls, s') /\ sound s' [] [].
Proof.
  induction ls as [|l ls IH]; intros s Hs Hc H1 H2; cbn [calls].
  - exists s. split; [reflexivity|exact Hs].
  - inversion H1 as [|? ? P1 P1']; inversion H2 as [|? ? [_ P2] P2']; subst.
    destruct (step_sound s [] [] (KSend l) Hs P1) as (x & y & v & s1 & rq1 & an1 & E & S1 & R & A).
    assert (x = [l] /\ y = []) as [-> ->].
    { destruct Hc as (q & p & SA). destruct s as [a wa b wb]. cbn [k_a] in SA. pose proof (send_state a q [] p l SA) as H. cbn [length] in H.
      rewrite (proj2 (Nat.leb_le _ _)) in H by lia. destruct H as (a' & H & _). cbn [kstep] in E. rewrite H in E. cbn [bind] in E. injection E as <- <- _. auto. }
    rewrite (krun_cons _ _ _ _ _ _ E). cbn [app] in *.
    destruct (turn_sound s1 rq1 an1 (calls coa cob ls) S1) as (y2 & v2 & s2 & rq2 & an2 & -> & S2 & C2 & -> & A2 & Hy).
    destruct v as [|l0 v]; cbn [app map] in *.
    + subst an1. cbn [app] in A2. assert (length y2 = 1) as Ly by (apply Hy; rewrite <- R; discriminate). destruct y2 as [|y0 [|? ?]]; try discriminate Ly.
      destruct v2 as [|l0 v2]; [discriminate A2|]. cbn [map app] in *. injection R as <- R. symmetry in R. apply app_eq_nil in R as [-> ->]. cbn in A2. injection A2 as <- <-.
      destruct (IH s2 S2 C2 P1' P2') as (s3 & -> & S3). exists s3. split; [reflexivity|exact S3].
    + injection R as <- R. symmetry in R. apply app_eq_nil in R as [-> R]. apply app_eq_nil in R as [-> ->]. cbn in A, A2. subst an1. cbn in A2.
      assert (length y2 = 1) as Ly by (apply Hy; discriminate). destruct y2 as [|y0 [|? ?]]; try discriminate Ly. cbn in A2. injection A2 as <- <-.
      destruct (IH s2 S2 C2 P1' P2') as (s3 & -> & S3). exists s3. split; [reflexivity|exact S3].
Qed.
End Run.
End Lines.

Lemma link_sound dbg delims cia coa cib cob d s : 1 <= cia -> 1 <= coa -> 1 <= cib -> 1 <= cob -> link_new dbg delims cia coa cib cob = Ok s ->
  sound delims d cia coa cib cob s [] [] /\ calm delims cia coa s.
Proof.
  intros H1 H2 H3 H4. unfold link_new. destruct (bs_new dbg delims cia coa) as [a| | | |] eqn:Ea; try discriminate. cbn [bind].
  destruct (bs_new dbg delims cib cob) as [b| | | |] eqn:Eb; try discriminate. cbn [bind]. intros E. injection E as <-.
  apply new_state in Ea; [|lia..]. apply new_state in Eb; [|lia..]. split; [|eexists; eexists; exact Ea].
  exists [], [], 0, [], [], 0. cbn. splits; auto.
Qed.
Lemma krun_app W d answer most ma mb ops1 : forall s ops2, krun W d answer most ma mb s (ops1 ++ ops2) =
  ('(x1, y1, s1) <- krun W d answer most ma mb s ops1 ;; '(x2, y2, s2) <- krun W d answer most ma mb s1 ops2 ;; Ok (x1 ++ x2, y1 ++ y2, s2)).
Proof.
  induction ops1 as [|op ops1 IH]; intros s ops2; cbn [app krun bind].
  - destruct (krun W d answer most ma mb s ops2) as [[[? ?] ?]| | | |]; reflexivity.
  - destruct (kstep W d answer most ma mb s op) as [[[x y] s1]| | | |]; try reflexivity. cbn [bind]. rewrite IH.
    destruct (krun W d answer most ma mb s1 ops1) as [[[x1 y1] s2]| | | |]; try reflexivity. cbn [bind].
    destruct (krun W d answer most ma mb s2 ops2) as [[[x2 y2] s3]| | | |]; try reflexivity. cbn [bind]. now rewrite !app_assoc.
Qed.
Section Thms.
Variable W : Z.
Variable dbg : bool.
Variable delims : list ascii.
Variable d : ascii.
Variable answer : list ascii -> list ascii.
Variable most ma mb cia coa cib cob : nat.
Hypothesis Hd : existsb (Ascii.eqb d) delims = true.
Hypothesis Hma : cia <= ma.
Hypothesis Hmb : cib <= mb.
Hypothesis Hcoa : 1 <= coa.
Hypothesis Hcib : 1 <= cib.
Hypothesis Hmost : most + 1 <= cob.
Hypothesis Hanswer : forall l, proper delims cia (answer l) /\ length (answer l) <= most.
Lemma new_sound s0 : link_new dbg delims cia coa cib cob = Ok s0 -> sound delims d cia coa cib cob s0 [] [] /\ calm delims cia coa s0.
Proof. apply link_sound; try lia. destruct (Hanswer []) as [[_ H] _]. lia. Qed.
Lemma link_answers ops s0 : link_new dbg delims cia coa cib cob = Ok s0 -> Forall (asks delims cib) ops ->
  exists sent read s pending, krun W d answer most ma mb s0 ops = Ok (sent, read, s) /\ map answer sent = read ++ pending.
Proof.
  intros E Hops. apply new_sound in E as [E _].
  destruct (run_sound delims d Hd W answer most ma mb cia coa cib cob Hma Hmb Hmost Hanswer ops s0 [] [] E Hops) as (x & y & v & s & rq & an & R & _ & Hx & Hy).
  cbn [app] in *. exists x, y, s, (an ++ map answer rq). split; [exact R|]. rewrite Hx, map_app, Hy, app_assoc. reflexivity.
Qed.
Lemma link_all ops n s0 : link_new dbg delims cia coa cib cob = Ok s0 -> Forall (asks delims cib) ops ->
  exists sent read s, krun W d answer most ma mb s0 ops = Ok (sent, read, s) /\
    (length sent <= n -> exists s', krun W d answer most ma mb s0 (ops ++ turns coa cob n) = Ok (sent, map answer sent, s')).
Proof.
  intros E Hops. apply new_sound in E as [E _].
  destruct (run_sound delims d Hd W answer most ma mb cia coa cib cob Hma Hmb Hmost Hanswer ops s0 [] [] E Hops) as (x & y & v & s & rq & an & R & Hs & Hx & Hy).
  cbn [app] in *. exists x, y, s. split; [exact R|]. intros Hn. rewrite krun_app, R. cbn [bind].
  destruct (turns_sound delims d Hd W answer most ma mb cia coa cib cob Hma Hmb Hmost Hanswer n s rq an Hs) as (s' & R' & _).
  { apply (f_equal (@length _)) in Hy. rewrite Hx in Hn. rewrite !app_length, ?map_length in *. lia. }
  rewrite R'. cbn [bind]. exists s'. rewrite app_nil_r, app_assoc, <- Hy, <- map_app, <- Hx. reflexivity.
Qed.
Lemma link_calls ls s0 : link_new dbg delims cia coa cib cob = Ok s0 -> Forall (proper delims cib) ls -> Forall (proper delims coa) ls ->
  exists s, krun W d answer most ma mb s0 (calls coa cob ls) = Ok (ls, map answer ls, s).
Proof.
  intros E H1 H2. apply new_sound in E as [E C].
  destruct (calls_sound delims d Hd W answer most ma mb cia coa cib cob Hma Hmb Hmost Hanswer ls s0 E C H1 H2) as (s & R & _). eauto.
Qed.
End Thms.
