(** Two ring buffers, or two vectors, on one storage *)
From Coq Require Import List Arith Lia Bool ZArith Ascii.
From Verif Require Import Base RingOps RingModel RingProofs LineModel VectorModel VectorSpec VectorProofs ShareModel ShareSpec ShareProofs ShareInst.
From Verif Require WrapProofs.
From Verif Require StreamProofs.
Import ListNotations.

Section R.
Context {A : Type}.
Variable zero : A.
Variable W : Z.
Variable dbg : bool.
Notation C := (ring_cls A zero W dbg).

(** The members of a ring buffer of capacity [n] are in order: whatever the cells hold, it shows some elements. *)
Definition rP (hd : rhdr) (n : nat) : Prop := forall st : list A, length st = n -> exists q, rep (ring_of hd st) q.
Lemma rep_other (r : ring A) q (st : list A) : rep r q -> length st = length (buf r) -> exists q', rep (ring_of (hdr_of r) st) q' /\ length q' = length q.
Proof.
  intros HR El. pose proof HR as [Hc Ht Hl Hh Hf He]. destruct st as [|d st0]; [simpl in El; lia|]. set (st := d :: st0) in *.
  exists (map (fun i => nth ((rtail r + i) mod length (buf r)) st d) (seq 0 (length q))). split; [|now rewrite map_length, seq_length].
  constructor; unfold ring_of, hdr_of; cbn [buf rhead rtail rfull hhead htail hfull]; rewrite ?map_length, ?seq_length, El; auto.
  intros i Hi. rewrite nth_error_map. rewrite (nth_error_nth' (seq 0 (length q)) 0) by (rewrite seq_length; auto). rewrite seq_nth by auto. cbn [option_map Nat.add].
  apply nth_error_nth'. rewrite El. apply Nat.mod_upper_bound. lia.
Qed.
Lemma rP_of (r : ring A) q : rep r q -> rP (hdr_of r) (length (buf r)).
Proof. intros HR st El. destruct (rep_other r q st HR El) as (q' & H & _). eauto. Qed.
Lemma rP_make n e hd st : 1 <= fst n -> make C n = Ok (e, hd, st) -> rP hd (length st).
Proof.
  intros Hn E. cbn [make ring_cls] in E. destruct (ring_new_rep dbg (fst n) (snd n) Hn) as (r & E1 & HR & _). rewrite E1 in E. cbn [bind] in E. assert (hd = hdr_of r) as -> by congruence. assert (st = buf r) as -> by congruence.
  eapply rP_of; eauto.
Qed.
Lemma rP_call hd st op r hd' st' : rP hd (length st) -> call C hd st op = Ok (r, hd', st') -> rP hd' (length st').
Proof.
  intros HP E. destruct (HP st eq_refl) as (q & HR). cbn [call ring_cls] in E. destruct (step_any W _ _ op HR) as (x & r1 & q1 & E1 & HR1 & _). rewrite E1 in E. cbn [bind] in E.
  assert (hd' = hdr_of r1) as -> by congruence. assert (st' = buf r1) as -> by congruence. eapply rP_of; eauto.
Qed.
Lemma ring_view ops xs h i hd st : Forall sized ops -> srun C nothing ops = Ok (xs, h) -> view h i = Some (Mine hd st) -> exists q, rep (ring_of hd st) q.
Proof.
  intros Hf E Hv. unfold view in Hv. destruct (nth_error (sobjs h) i) as [[a|]|] eqn:Eo; try discriminate. pose proof (Inv_run C (ring_fixed A zero W dbg) _ _ _ _ Inv_nothing E) as HI.
  pose proof (hdr_inv C (ring_fixed A zero W dbg) rP (fun n => 1 <= fst n) (fun _ => True) rP_make (fun hd st op r hd' st' _ => rP_call hd st op r hd' st') ops xs h i a) as HP.
  assert (Hf' : Forall (okop (fun n : nat * A => 1 <= fst n) (fun _ : rop A => True)) ops) by (eapply Forall_impl; [|exact Hf]; intros []; simpl; auto).
  specialize (HP Hf' E Eo). pose proof (proj1 HI i a Eo) as Ho. unfold slive in Hv. unfold okobj in Ho. destruct (sblk a) as [b|]; [|discriminate]. destruct Ho as (f & c & F1 & F2 & _). rewrite F1 in Hv. destruct f; [discriminate|].
  assert (hd = shdr a) as -> by congruence. assert (st = c) as -> by congruence. apply HP. auto.
Qed.
Lemma shows_rep h i hd st q : Inv h -> view h i = Some (Mine hd st) -> rep (ring_of hd st) q -> ring_shows zero W dbg h i q.
Proof.
  intros HI Hv HR. split.
  - rewrite (told_view C (ring_fixed A zero W dbg) _ _ _ _ HI Hv). cbn [vrun ecall call ring_cls renews ring_step bind]. now rewrite (rep_used _ _ HR).
  - intros k. rewrite (told_view C (ring_fixed A zero W dbg) _ _ _ _ HI Hv). cbn [vrun ecall call ring_cls renews ring_step bind]. now rewrite (peek_rep _ _ _ HR).
Qed.
Lemma shows_unique h i hd st q q' : Inv h -> view h i = Some (Mine hd st) -> rep (ring_of hd st) q -> ring_shows zero W dbg h i q' -> q' = q.
Proof.
  intros HI Hv HR [_ Hs]. apply nth_error_ext. intros k. specialize (Hs k). rewrite (told_view C (ring_fixed A zero W dbg) _ _ _ _ HI Hv) in Hs. cbn [vrun ecall call ring_cls renews ring_step bind] in Hs.
  rewrite (peek_rep _ _ _ HR) in Hs. cbn [bind] in Hs. congruence.
Qed.
(** The cell a push writes, seen with the old members *)
Lemma write_room (r : ring A) q v : rep r q -> length q < length (buf r) -> rep (mkRing (upd (buf r) (rhead r) v) (rhead r) (rtail r) (over r) (rfull r)) q.
Proof.
  intros [Hc Ht Hl Hh Hf He] Hlt. constructor; cbn [buf rhead rtail rfull]; rewrite ?upd_length; auto. intros i Hi. rewrite nth_error_upd_neq; auto. rewrite Hh. ringarith.
Qed.
Lemma write_full (r : ring A) q v : rep r q -> length q = length (buf r) -> rep (mkRing (upd (buf r) (rhead r) v) (rhead r) (rtail r) (over r) (rfull r)) (v :: tl q).
Proof.
  intros [Hc Ht Hl Hh Hf He] Hlt. assert (Ehd : rhead r = rtail r) by (rewrite Hh; ringarith). destruct q as [|y q]; [simpl in *; lia|].
  constructor; cbn [buf rhead rtail rfull tl]; rewrite ?upd_length; auto. intros [|i] Hi.
  - rewrite Nat.add_0_r, Nat.mod_small by lia. rewrite Ehd. cbn [nth_error]. apply nth_error_upd_eq. lia.
  - rewrite nth_error_upd_neq; [apply (He (S i)); auto|]. rewrite Ehd. cbn [length] in *. ringarith.
Qed.
Lemma push_buf (r : ring A) v ro r' : push W r v ro = Ok (true, r') -> buf r' = upd (buf r) (rhead r) v.
Proof.
  unfold push. destruct (rfull r && negb ro); [discriminate|]. unfold wr. destruct (rhead r <? length (buf r)); [|discriminate]. cbn [bind]. destruct (_ =? rtail r); [|destruct (rfull r)]; intros E;
    (match goal with H : Ok (true, ?a) = Ok (true, ?b) |- _ => assert (b = a) as -> by congruence end); reflexivity.
Qed.
Lemma push_true_view h i v ro h' : Inv h -> sstep C h (SCall i (OpPush v ro)) = Ok (SRes (RBool true), h') -> exists hd st, view h i = Some (Mine hd st).
Proof.
  intros HI E. destruct (view h i) as [[hd st|hd n]|] eqn:Ev; [eauto| |].
  - exfalso. pose proof (scall_view C h i (OpPush v ro) _ HI Ev) as S1. cbn [sstep] in E. rewrite E in S1. destruct S1 as (r & c' & E1 & E2 & _). unfold ecall in E1. cbn [renews ring_cls touches] in E1.
    destruct (hfull hd && negb ro) eqn:Ef; [|discriminate]. cbn [negb call ring_step ring_cls] in E1. unfold push in E1. cbn [rfull ring_of hfull] in E1. rewrite Ef in E1. cbn [bind] in E1. congruence.
  - unfold view in Ev. cbn [sstep] in E. unfold scall, sobjat in E. destruct (nth_error (sobjs h) i) as [[a|]|]; try discriminate. destruct (slive h a) as [[]|]; discriminate.
Qed.
Lemma push_call hd st v ro r hd' st' : call C hd st (OpPush v ro) = Ok (RBool true, hd', st') -> r = ring_of hd st -> exists r', push W r v ro = Ok (true, r') /\ hd' = hdr_of r' /\ st' = buf r'.
Proof.
  intros E ->. cbn [call ring_cls ring_step] in E. destruct (push W (ring_of hd st) v ro) as [[b r']| | | |]; try discriminate. cbn [bind] in E. exists r'. assert (b = true) as -> by congruence. split; auto. split; congruence.
Qed.
(** Pushing to a copy and then to the original: both show what the original was given. *)
Lemma ring_room ops xs h i q k h1 v h2 w h3 : Forall sized ops -> srun C nothing ops = Ok (xs, h) -> ring_shows zero W dbg h i q ->
  sstep C h (SCopy i) = Ok (SObj k, h1) -> sstep C h1 (SCall k (OpPush v false)) = Ok (SRes (RBool true), h2) ->
  sstep C h2 (SCall i (OpPush w false)) = Ok (SRes (RBool true), h3) ->
  ring_shows zero W dbg h2 k (q ++ [v]) /\ ring_shows zero W dbg h2 i q /\ ring_shows zero W dbg h3 i (q ++ [w]) /\ ring_shows zero W dbg h3 k (q ++ [w]).
Proof.
  intros Hf E Hs Ec Ep Ep2. pose proof (ring_fixed A zero W dbg) as HF. pose proof (Inv_run C HF _ _ _ _ Inv_nothing E) as HI. pose proof (Inv_step C HF _ _ _ _ HI Ec) as HI1.
  pose proof (Inv_step C HF _ _ _ _ HI1 Ep) as HI2. pose proof (Inv_step C HF _ _ _ _ HI2 Ep2) as HI3.
  destruct (push_true_view _ _ _ _ _ HI1 Ep) as (hd & st & Hv). rewrite (view_copy C _ _ _ _ Ec) in Hv. destruct (copy_twins C _ _ _ _ _ _ Hv Ec) as [HT Nik].
  destruct (ring_view ops xs h i hd st Hf E Hv) as (q0 & HR). assert (q0 = q) as -> by (symmetry; exact (shows_unique _ _ _ _ _ _ HI Hv HR Hs)).
  destruct (call_shared C _ _ _ _ _ _ _ _ _ HT Nik eq_refl Ep) as (r & hd' & st' & E1 & Er & HT2). assert (r = RBool true) as -> by congruence. destruct (push_call _ _ _ _ _ _ _ E1 eq_refl) as (r' & P1 & -> & ->).
  pose proof (push_buf _ _ _ _ P1) as Hb. cbn [buf rhead ring_of] in Hb.
  assert (Hlt : length q < length st).
  { pose proof (rep_len _ _ HR) as Hl. cbn [buf ring_of] in Hl. destruct (Nat.eq_dec (length q) (length st)) as [Eq|]; [|lia]. rewrite (push_full_refused W _ _ v HR Eq) in P1. congruence. }
  destruct (push_room W _ _ v false HR Hlt) as (r2 & P2 & HR2 & Hl2 & _). assert (r2 = r') as -> by congruence.
  destruct (call_shared C _ _ _ _ _ _ _ _ _ (twins_sym _ _ _ _ _ _ HT2) (not_eq_sym Nik) eq_refl Ep2) as (r3 & hd3 & st3 & E3 & Er3 & HT3). assert (r3 = RBool true) as -> by congruence.
  destruct (push_call _ _ _ _ _ _ _ E3 eq_refl) as (r4 & P4 & -> & ->).
  assert (HRi : rep (ring_of hd (buf r')) q) by (rewrite Hb; exact (write_room (ring_of hd st) q v HR Hlt)).
  assert (Hlt' : length q < length (buf (ring_of hd (buf r')))) by (cbn [buf ring_of]; rewrite Hb, upd_length; exact Hlt).
  destruct (push_room W _ _ w false HRi Hlt') as (r5 & P5 & HR5 & _). assert (r5 = r4) as -> by congruence.
  assert (Heq : hdr_of r4 = hdr_of r').
  { clear - P1 P4 Hb. unfold push in P1, P4. cbn [rfull buf rhead rtail over ring_of] in *. destruct (hfull hd && negb false); [discriminate|]. unfold wr in *. rewrite Hb, upd_length in P4.
    destruct (hhead hd <? length st); [|discriminate]. cbn [bind] in *. rewrite !upd_length in *. destruct (_ =? htail hd); [|destruct (hfull hd)]; apply WrapProofs.ok_inj in P1; apply WrapProofs.ok_inj in P4; apply (f_equal snd) in P1; apply (f_equal snd) in P4; cbn [snd] in P1, P4; subst; reflexivity. }
  destruct (twins_view _ _ _ _ _ _ HT2) as [V1 V2]. destruct (twins_view _ _ _ _ _ _ HT3) as [V3 V4]. splits.
  - eapply shows_rep; [eassumption|eassumption|]. destruct r'; exact HR2.
  - eapply shows_rep; [eassumption|eassumption|]. exact HRi.
  - eapply shows_rep; [eassumption|eassumption|]. destruct r4; exact HR5.
  - eapply shows_rep; [eassumption|eassumption|]. rewrite <- Heq. destruct r4; exact HR5.
Qed.
(** Rolling over in a full copy replaces the first element of the original. *)
Lemma ring_roll ops xs h i q k h1 v h2 : Forall sized ops -> srun C nothing ops = Ok (xs, h) -> ring_shows zero W dbg h i q -> told C h i [OpFull] = Ok [SRes (RBool true)] ->
  sstep C h (SCopy i) = Ok (SObj k, h1) -> sstep C h1 (SCall k (OpPush v true)) = Ok (SRes (RBool true), h2) ->
  ring_shows zero W dbg h2 k (tl q ++ [v]) /\ ring_shows zero W dbg h2 i (v :: tl q).
Proof.
  intros Hf E Hs Hfull Ec Ep. pose proof (ring_fixed A zero W dbg) as HF. pose proof (Inv_run C HF _ _ _ _ Inv_nothing E) as HI. pose proof (Inv_step C HF _ _ _ _ HI Ec) as HI1. pose proof (Inv_step C HF _ _ _ _ HI1 Ep) as HI2.
  destruct (push_true_view _ _ _ _ _ HI1 Ep) as (hd & st & Hv). rewrite (view_copy C _ _ _ _ Ec) in Hv. destruct (copy_twins C _ _ _ _ _ _ Hv Ec) as [HT Nik].
  destruct (ring_view ops xs h i hd st Hf E Hv) as (q0 & HR). assert (q0 = q) as -> by (symmetry; exact (shows_unique _ _ _ _ _ _ HI Hv HR Hs)).
  destruct (call_shared C _ _ _ _ _ _ _ _ _ HT Nik eq_refl Ep) as (r & hd' & st' & E1 & Er & HT2). assert (r = RBool true) as -> by congruence. destruct (push_call _ _ _ _ _ _ _ E1 eq_refl) as (r' & P1 & -> & ->).
  pose proof (push_buf _ _ _ _ P1) as Hb. cbn [buf rhead ring_of] in Hb.
  assert (Hlt : length q = length (buf (ring_of hd st))).
  { rewrite (told_view C HF _ _ _ _ HI Hv) in Hfull. cbn [vrun ecall call ring_cls renews ring_step bind] in Hfull. rewrite (rep_is_full _ _ HR) in Hfull. destruct (Nat.eqb_spec (length q) (length (buf (ring_of hd st)))); congruence. }
  destruct (push_full_rollover W _ _ v HR Hlt) as (r2 & P2 & HR2 & _). assert (r2 = r') as -> by congruence.
  destruct (twins_view _ _ _ _ _ _ HT2) as [V1 V2]. split.
  - eapply shows_rep; [eassumption|eassumption|]. destruct r'; exact HR2.
  - eapply shows_rep; [eassumption|eassumption|]. rewrite Hb. exact (write_full (ring_of hd st) q v HR Hlt).
Qed.
(** The copy of a ring buffer that was destroyed *)
Lemma ring_dangling ops xs h i b x q k h1 y h2 v ro : Forall sized ops -> srun C nothing ops = Ok (xs, h) -> ring_shows zero W dbg h i (x :: q) -> owner h i b ->
  sstep C h (SCopy i) = Ok (SObj k, h1) -> sstep C h1 (SDestroy i) = Ok (y, h2) ->
  told C h2 k [OpUsed] = Ok [SRes (RNat (length (x :: q)))] /\ told C h2 k [OpPop] = UB /\ told C h2 k [OpPeek 0] = UB /\ told C h2 k [OpPush v true] = UB /\
  (told C h i [OpFull] = Ok [SRes (RBool false)] -> told C h2 k [OpPush v ro] = UB).
Proof.
  intros Hf E Hs Ho Ec Ed. pose proof (ring_fixed A zero W dbg) as HF. pose proof (Inv_run C HF _ _ _ _ Inv_nothing E) as HI. pose proof (Inv_step C HF _ _ _ _ HI Ec) as HI1. pose proof (Inv_step C HF _ _ _ _ HI1 Ed) as HI2.
  assert (Hv : exists hd st, view h i = Some (Mine hd st)).
  { destruct Ho as (a & E1 & E2 & E3). pose proof (proj1 HI i a E1) as Ho. unfold okobj in Ho. rewrite E3 in Ho. destruct Ho as (f & c & F1 & F2 & F3). rewrite (F3 E2) in F1. exists (shdr a), c. unfold view, slive. now rewrite E1, E3, F1. }
  destruct Hv as (hd & st & Hv). destruct (ring_view ops xs h i hd st Hf E Hv) as (q0 & HR). assert (q0 = x :: q) as -> by (symmetry; exact (shows_unique _ _ _ _ _ _ HI Hv HR Hs)).
  pose proof (dangling_view C _ _ _ _ _ _ _ _ _ Ho Hv HI Ec Ed) as Hv2.
  assert (Hu : forall n, n = length st -> hused hd n = length (x :: q)).
  { intros n ->. rewrite <- (rep_used _ _ HR). unfold hused, used_space, full, capacity, ring_of. cbn [buf rhead rtail rfull]. now rewrite repeat_length. }
  assert (Hu2 : used_space (ring_of hd (repeat zero (length st))) = length (x :: q)).
  { rewrite <- (rep_used _ _ HR). unfold used_space, full, capacity, ring_of. cbn [buf rhead rtail rfull]. now rewrite repeat_length. }
  assert (HU : told C h2 k [OpUsed] = Ok [SRes (RNat (length (x :: q)))]) by (rewrite (told_view C HF _ _ _ _ HI2 Hv2); cbn [vrun ecall renews ring_cls touches call ring_step bind blank]; now rewrite Hu2).
  assert (HT : forall op, renews C op = false -> touches C hd (length st) op = true -> told C h2 k [op] = UB) by (intros op H1 H2; rewrite (told_view C HF _ _ _ _ HI2 Hv2); cbn [vrun]; unfold ecall; now rewrite H1, H2).
  split; [exact HU|]. split; [|split; [|split]].
  - apply HT; [reflexivity|]. cbn [touches ring_cls]. now rewrite (Hu _ eq_refl).
  - apply HT; [reflexivity|]. cbn [touches ring_cls]. now rewrite (Hu _ eq_refl).
  - apply HT; [reflexivity|]. cbn [touches ring_cls negb]. now rewrite andb_false_r.
  - intros Hn. apply HT; [reflexivity|]. rewrite (told_view C HF _ _ _ _ HI Hv) in Hn. cbn [vrun ecall call ring_cls renews ring_step bind] in Hn. unfold full, ring_of in Hn. cbn [rfull] in Hn. cbn [touches ring_cls].
    destruct (hfull hd); [congruence|reflexivity].
Qed.
End R.

Section V.
Context {A : Type}.
Variable zero : A.
Variable moved : A -> A.
Variable W : Z.
Variable dbg : bool.
Notation C := (vec_cls A zero moved W dbg).

Definition vP (hd : nat * nat) (n : nat) : Prop := fst hd <= snd hd <= n /\ (fst hd = snd hd -> fst hd = 0) /\ (Z.of_nat n < 2 ^ W)%Z.
Definition vof (hd : nat * nat) (st : list A) : vec A := mkVec st (fst hd) (snd hd).
Lemma vP_vr hd (st : list A) : vP hd (length st) -> vr W (vof hd st) (firstn (snd hd - fst hd) (skipn (fst hd) st)) (firstn (fst hd) st) (skipn (snd hd) st).
Proof.
  intros ((H1 & H2) & H3 & H4). constructor; cbn [vof vst vh vt]; auto.
  - replace (snd hd) with (snd hd - fst hd + fst hd) at 2 by lia. rewrite Nat.add_comm, <- (skipn_skipn' (snd hd - fst hd) (fst hd)), firstn_skipn. symmetry. apply firstn_skipn.
  - rewrite firstn_length. lia.
  - rewrite !firstn_length, skipn_length. lia.
  - intros E. apply (f_equal (@length A)) in E. rewrite firstn_length, skipn_length in E. cbn [length] in E. assert (fst hd = 0) as -> by lia. reflexivity.
Qed.
Lemma vr_vP (v : vec A) l pre post : vr W v l pre post -> vP (vh v, vt v) (length (vst v)).
Proof.
  intros [S1 H T E B]. unfold vP. cbn [fst snd]. rewrite H, T. split; [rewrite S1, !app_length; lia|]. split; auto. intros Hl. assert (l = []) by (destruct l; auto; cbn [length] in Hl; lia). now rewrite (E H0).
Qed.
Lemma vP_make n e hd (st : list A) : vnew_ok W n -> make C n = Ok (e, hd, st) -> vP hd (length st).
Proof.
  intros Hn E. cbn [make vec_cls] in E. destruct n as [n|n x|l|l k]; cbn [vnew_ok vec_new vec_fill_new vec_list vec_external vh vt vst] in *;
    apply WrapProofs.ok_inj in E; (assert (Eh : hd = snd (e, hd)) by reflexivity); clear Eh.
  - assert (hd = (0, 0)) as -> by congruence. assert (st = repeat zero n) as -> by congruence. unfold vP. cbn [fst snd]. rewrite repeat_length. lia.
  - assert (hd = (0, n)) as -> by congruence. assert (st = repeat x n) as -> by congruence. unfold vP. cbn [fst snd]. rewrite repeat_length. lia.
  - assert (hd = (0, length l)) as -> by congruence. assert (st = l) as -> by congruence. unfold vP. cbn [fst snd]. lia.
  - assert (hd = (0, k)) as -> by congruence. assert (st = l) as -> by congruence. unfold vP. cbn [fst snd]. lia.
Qed.
Lemma vP_call hd (st : list A) op r hd' (st' : list A) : vfits W op -> vP hd (length st) -> call C hd st op = Ok (r, hd', st') -> vP hd' (length st').
Proof.
  intros Hf HP E. cbn [call vec_cls] in E. fold (vof hd st) in E. destruct (vstep zero moved W dbg (vof hd st) op) as [[x v]| | | |] eqn:Ev; try discriminate. cbn [bind] in E.
  assert (hd' = (vh v, vt v)) as -> by congruence. assert (st' = vst v) as -> by congruence.
  destruct (vstep_any zero moved W (fun _ => True) Logic.I (fun _ => Logic.I) dbg _ _ _ _ _ _ _ (vP_vr _ _ HP) Hf Ev) as (l' & pre' & post' & HR & _). eapply vr_vP; eauto.
Qed.
Lemma vec_P ops xs h i hd (st : list A) : Forall (vsized W) ops -> srun C nothing ops = Ok (xs, h) -> view h i = Some (Mine hd st) -> vP hd (length st).
Proof.
  intros Hf E Hv. unfold view in Hv. destruct (nth_error (sobjs h) i) as [[a|]|] eqn:Eo; try discriminate. pose proof (Inv_run C (vec_fixed zero moved W dbg) _ _ _ _ Inv_nothing E) as HI.
  pose proof (hdr_inv C (vec_fixed zero moved W dbg) vP (vnew_ok W) (vfits W) vP_make vP_call ops xs h i a) as HP.
  assert (Hf' : Forall (okop (vnew_ok W) (vfits W)) ops) by (eapply Forall_impl; [|exact Hf]; intros []; simpl; auto).
  specialize (HP Hf' E Eo). pose proof (proj1 HI i a Eo) as Ho. unfold slive in Hv. unfold okobj in Ho. destruct (sblk a) as [b|]; [|discriminate]. destruct Ho as (f & c & F1 & F2 & _). rewrite F1 in Hv. destruct f; [discriminate|].
  assert (hd = shdr a) as -> by congruence. assert (st = c) as -> by congruence. first [exact HP | rewrite F2 in HP; exact HP | rewrite <- F2; exact HP].
Qed.
Lemma vec_told h i hd st op : Inv h -> view h i = Some (Mine hd st) -> renews C op = false -> told C h i [op] = ('(r, _) <- vstep zero moved W dbg (vof hd st) op ;; Ok [SRes r]).
Proof.
  intros HI Hv Er. rewrite (told_view C (vec_fixed zero moved W dbg) _ _ _ _ HI Hv). cbn [vrun]. unfold ecall. rewrite Er. cbn [call vec_cls]. fold (vof hd st). destruct (vstep zero moved W dbg (vof hd st) op) as [[]| | | |]; reflexivity.
Qed.
Lemma vshows_vr h i hd st l pre post : Inv h -> view h i = Some (Mine hd st) -> vr W (vof hd st) l pre post -> vec_shows zero moved W dbg h i l.
Proof.
  intros HI Hv HR. split.
  - rewrite (vec_told _ _ _ _ VSize HI Hv eq_refl). cbn [vstep bind]. now rewrite (vr_size _ _ _ _ _ HR).
  - intros k x Hk. rewrite (vec_told _ _ _ _ (VGet k) HI Hv eq_refl). assert (Hl : k < length l) by (apply nth_error_Some; congruence).
    destruct (vstep_ok zero moved W (fun _ => True) Logic.I (fun _ => Logic.I) dbg _ _ _ _ (VGet k) HR Hl) as (v' & pre' & post' & E & _). rewrite E. cbn [bind seq_step fst]. now rewrite (nth_error_nth _ _ _ Hk).
Qed.
Lemma vshows_unique h i hd st l pre post l' : Inv h -> view h i = Some (Mine hd st) -> vr W (vof hd st) l pre post -> vec_shows zero moved W dbg h i l' -> l' = l.
Proof.
  intros HI Hv HR [H1 H2]. destruct (vshows_vr _ _ _ _ _ _ _ HI Hv HR) as [G1 G2]. assert (El : length l' = length l) by congruence. apply nth_error_ext. intros k.
  destruct (nth_error l' k) as [x|] eqn:E1, (nth_error l k) as [y|] eqn:E2; auto.
  - specialize (H2 _ _ E1). specialize (G2 _ _ E2). congruence.
  - apply nth_error_None in E2. assert (k < length l') by (apply nth_error_Some; congruence). lia.
  - apply nth_error_None in E1. assert (k < length l) by (apply nth_error_Some; congruence). lia.
Qed.
Lemma vshows_mine h i x l : Inv h -> vec_shows zero moved W dbg h i (x :: l) -> exists hd st, view h i = Some (Mine hd st).
Proof.
  intros HI [H1 H2]. destruct (view h i) as [[hd st|hd n]|] eqn:Ev; [eauto| |].
  - exfalso. specialize (H2 0 x eq_refl). rewrite (told_view C (vec_fixed zero moved W dbg) _ _ _ _ HI Ev) in H1. rewrite (told_view C (vec_fixed zero moved W dbg) _ _ _ _ HI Ev) in H2. cbn [vrun ecall renews vec_cls touches call vstep bind] in H1, H2. destruct hd as [hh tt].
    cbn [bind length] in H1. unfold vsize in H1. cbn [vh vt fst snd] in H1. assert (E : tt - hh = S (length l)) by congruence. destruct (Nat.leb_spec tt (hh + 0)); [lia|]. rewrite andb_false_r in H2. discriminate.
  - exfalso. unfold view in Ev. unfold told in H1. cbn [map srun sstep] in H1. unfold scall, sobjat in H1. destruct (nth_error (sobjs h) i) as [[a|]|]; try discriminate. destruct (slive h a) as [[]|]; discriminate.
Qed.
Lemma pop_back_store (v : vec A) x l pre post y v' : vr W v (l ++ [x]) pre post -> l <> [] -> pop_back moved dbg v = Ok (y, v') ->
  y = x /\ v' = mkVec (pre ++ (l ++ [moved x]) ++ post) (length pre) (length pre + length l).
Proof.
  intros HR Hl E. pose proof (vr_size _ _ _ _ _ HR) as Hs. destruct HR as [S1 H T HE B]. rewrite app_length in *. cbn [length] in *. unfold pop_back in E. rewrite Hs in E.
  destruct (Nat.ltb_spec 0 (length l + 1)); [|lia]. cbn [sassert bind] in E. destruct (Nat.ltb_spec 0 (vt v)); [|lia]. assert (1 <= length l) by (destruct l; [congruence|simpl; lia]).
  destruct (Nat.eqb_spec (vt v - 1) (vh v)); [lia|]. rewrite <- app_assoc in S1. cbn [app] in S1. rewrite S1, app_assoc, rd_app in E by (rewrite app_length; lia). cbn [bind] in E.
  rewrite wr_app in E by (rewrite app_length; lia). cbn [bind] in E. split; [congruence|]. assert (v' = mkVec ((pre ++ l) ++ moved x :: post) (vh v) (vt v - 1)) as -> by congruence. f_equal; [|lia|lia].
  now rewrite <- !app_assoc.
Qed.
Lemma pop_front_store (v : vec A) x l pre post y v' : vr W v (x :: l) pre post -> pop_front moved dbg v = Ok (y, v') ->
  y = x /\ vst v' = pre ++ (moved x :: l) ++ post.
Proof.
  intros HR E. pose proof (vr_size _ _ _ _ _ HR) as Hs. destruct HR as [S1 H T HE B]. cbn [length] in *. unfold pop_front in E. rewrite Hs in E. change (0 <? S (length l)) with true in E. cbn [sassert bind] in E.
  cbn [app] in S1. rewrite S1, rd_app in E by exact H. destruct (vt v =? vh v + 1); cbn [bind] in E; rewrite wr_app in E by exact H; cbn [bind] in E; (split; [congruence|]).
  - assert (v' = mkVec (pre ++ moved x :: l ++ post) 0 0) as -> by congruence. reflexivity.
  - assert (v' = mkVec (pre ++ moved x :: l ++ post) (vh v + 1) (vt v)) as -> by congruence. reflexivity.
Qed.
(** Taking an element out of a copy moves it out of the original. *)
Lemma vec_pops ops xs h i k h1 y h2 : Forall (vsized W) ops -> srun C nothing ops = Ok (xs, h) -> sstep C h (SCopy i) = Ok (SObj k, h1) ->
  (forall l x, vec_shows zero moved W dbg h i (l ++ [x]) -> l <> [] -> sstep C h1 (SCall k VPopBack) = Ok (y, h2) ->
     y = SRes (VVal x) /\ vec_shows zero moved W dbg h2 k l /\ vec_shows zero moved W dbg h2 i (l ++ [moved x])) /\
  (forall l x, vec_shows zero moved W dbg h i (x :: l) -> sstep C h1 (SCall k VPopFront) = Ok (y, h2) ->
     y = SRes (VVal x) /\ vec_shows zero moved W dbg h2 k l /\ vec_shows zero moved W dbg h2 i (moved x :: l)).
Proof.
  intros Hf E Ec. pose proof (vec_fixed zero moved W dbg) as HF. pose proof (Inv_run C HF _ _ _ _ Inv_nothing E) as HI. pose proof (Inv_step C HF _ _ _ _ HI Ec) as HI1. split.
  - intros l x Hs Nl Ep. pose proof (Inv_step C HF _ _ _ _ HI1 Ep) as HI2.
    assert (Hv : exists hd st, view h i = Some (Mine hd st)) by (destruct l as [|z l]; [congruence|]; exact (vshows_mine _ _ _ _ HI Hs)). destruct Hv as (hd & st & Hv).
    pose proof (vP_vr _ _ (vec_P _ _ _ _ _ _ Hf E Hv)) as HR. rewrite <- (vshows_unique _ _ _ _ _ _ _ _ HI Hv HR Hs) in HR.
    destruct (copy_twins C _ _ _ _ _ _ Hv Ec) as [HT Nik]. destruct (call_shared C _ _ _ _ _ _ VPopBack _ _ HT Nik eq_refl Ep) as (r & hd' & st' & E1 & Er & HT2).
    cbn [call vec_cls vstep] in E1. fold (vof hd st) in E1. destruct (pop_back moved dbg (vof hd st)) as [[y1 v1]| | | |] eqn:Epb; try discriminate. cbn [bind] in E1.
    assert (hd' = (vh v1, vt v1)) as -> by congruence. assert (st' = vst v1) as -> by congruence. assert (r = VVal y1) as -> by congruence.
    pose proof HR as HR0. destruct (pop_back_store _ _ _ _ _ _ _ HR Nl Epb) as [-> ->]. cbn [vst vh vt] in HT2. destruct (twins_view _ _ _ _ _ _ HT2) as [V1 V2]. destruct HR0 as [S1 H1 T1 E2 B1]. split; [auto|]. split.
    + eapply vshows_vr; [exact HI2|exact V2|]. instantiate (1 := moved x :: skipn (snd hd) st). instantiate (1 := firstn (fst hd) st). constructor; cbn [vof vst vh vt fst snd]; auto.
      * now rewrite <- !app_assoc.
      * intros ->. congruence.
      * cbn [vof vst] in S1, B1. rewrite S1 in B1 at 1. rewrite !app_length in *. cbn [length] in *. lia.
    + eapply vshows_vr; [exact HI2|exact V1|]. instantiate (1 := skipn (snd hd) st). instantiate (1 := firstn (fst hd) st). constructor; cbn [vof vst vh vt fst snd] in *; auto.
      * rewrite T1, !app_length. reflexivity.
      * intros Hx. destruct l; discriminate.
      * rewrite S1 in B1 at 1. rewrite !app_length in *. cbn [length] in *. lia.
  - intros l x Hs Ep. pose proof (Inv_step C HF _ _ _ _ HI1 Ep) as HI2. destruct (vshows_mine _ _ _ _ HI Hs) as (hd & st & Hv).
    pose proof (vP_vr _ _ (vec_P _ _ _ _ _ _ Hf E Hv)) as HR. rewrite <- (vshows_unique _ _ _ _ _ _ _ _ HI Hv HR Hs) in HR.
    destruct (copy_twins C _ _ _ _ _ _ Hv Ec) as [HT Nik]. destruct (call_shared C _ _ _ _ _ _ VPopFront _ _ HT Nik eq_refl Ep) as (r & hd' & st' & E1 & Er & HT2).
    cbn [call vec_cls vstep] in E1. fold (vof hd st) in E1. destruct (pop_front moved dbg (vof hd st)) as [[y1 v1]| | | |] eqn:Epb; try discriminate. cbn [bind] in E1.
    assert (hd' = (vh v1, vt v1)) as -> by congruence. assert (st' = vst v1) as -> by congruence. assert (r = VVal y1) as -> by congruence.
    destruct (pop_front_store _ _ _ _ _ _ _ HR Epb) as [-> Est]. destruct (pop_front_vr moved W (fun _ => True) (fun _ => Logic.I) dbg _ _ _ _ _ HR) as (v2 & pre' & post' & Ev2 & HR2 & _). assert (v2 = v1) as -> by congruence.
    destruct (twins_view _ _ _ _ _ _ HT2) as [V1 V2]. split; [auto|]. split.
    + eapply vshows_vr; [exact HI2|exact V2|]. destruct v1; exact HR2.
    + eapply vshows_vr; [exact HI2|exact V1|]. instantiate (1 := skipn (snd hd) st). instantiate (1 := firstn (fst hd) st). destruct HR as [S1 H1 T1 E2 B1]. constructor; cbn [vof vst vh vt fst snd length] in *; auto.
      * discriminate.
      * rewrite Est. rewrite S1 in B1 at 1. rewrite !app_length in *. cbn [length app] in *. rewrite ?app_length in *. lia.
Qed.
(** The copy of a vector that was destroyed *)
Lemma vec_dangling ops xs h i b x l k h1 y h2 : Forall (vsized W) ops -> srun C nothing ops = Ok (xs, h) -> vec_shows zero moved W dbg h i (x :: l) -> owner h i b ->
  sstep C h (SCopy i) = Ok (SObj k, h1) -> sstep C h1 (SDestroy i) = Ok (y, h2) ->
  told C h2 k [VSize] = Ok [SRes (VNat (length (x :: l)))] /\ (forall j, j < length (x :: l) -> told C h2 k [VGet j] = UB) /\ told C h2 k [VPopBack] = UB /\ told C h2 k [VPopFront] = UB /\ told C h2 k [VIter] = UB.
Proof.
  intros Hf E Hs Ho Ec Ed. pose proof (vec_fixed zero moved W dbg) as HF. pose proof (Inv_run C HF _ _ _ _ Inv_nothing E) as HI. pose proof (Inv_step C HF _ _ _ _ HI Ec) as HI1. pose proof (Inv_step C HF _ _ _ _ HI1 Ed) as HI2.
  destruct (vshows_mine _ _ _ _ HI Hs) as (hd & st & Hv). pose proof (dangling_view C _ _ _ _ _ _ _ _ _ Ho Hv HI Ec Ed) as Hv2.
  pose proof (vP_vr _ _ (vec_P _ _ _ _ _ _ Hf E Hv)) as HR. rewrite <- (vshows_unique _ _ _ _ _ _ _ _ HI Hv HR Hs) in HR. pose proof (vr_size _ _ _ _ _ HR) as Hz. unfold vsize, vof in Hz. cbn [vt vh] in Hz.
  assert (HT : forall op, renews C op = false -> touches C hd (length st) op = true -> told C h2 k [op] = UB) by (intros op H1 H2; rewrite (told_view C HF _ _ _ _ HI2 Hv2); cbn [vrun]; unfold ecall; now rewrite H1, H2).
  destruct hd as [hh tt]. cbn [fst snd] in Hz. split; [|split; [|split; [|split]]].
  - rewrite (told_view C HF _ _ _ _ HI2 Hv2). cbn [vrun ecall renews vec_cls touches call vstep bind]. unfold vsize. cbn [vh vt fst snd]. now rewrite Hz.
  - intros j Hj. apply HT; [reflexivity|]. cbn [touches vec_cls]. destruct (Nat.leb_spec tt (hh + j)); [lia|]. now rewrite andb_false_r.
  - apply HT; [reflexivity|]. cbn [touches vec_cls]. rewrite Hz. cbn [length Nat.eqb]. now rewrite andb_false_r.
  - apply HT; [reflexivity|]. cbn [touches vec_cls]. rewrite Hz. cbn [length Nat.eqb]. now rewrite andb_false_r.
  - apply HT; [reflexivity|]. cbn [touches vec_cls]. now rewrite Hz.
Qed.
End V.
