(** Proofs for SelfModel. *)
From Coq Require Import List Arith ZArith Lia Bool.
From Verif Require Import Base VectorModel VectorSpec VectorProofs SelfModel.
Import ListNotations.

Section Self.
Context {A : Type}.
Variable zero : A.
Variable moved : A -> A.
Variable W : Z.
Variable dbg : bool.

Lemma wr_same (st : list A) i x : rd st i = Ok x -> wr st i x = Ok st.
Proof.
  unfold rd. destruct (nth_error st i) eqn:E; [|discriminate]. intros X; injection X as ->.
  rewrite wr_ok by (apply nth_error_Some; congruence). f_equal. revert i E. induction st as [|a st IH]; intros [|i] E; simpl in *; try discriminate.
  - congruence.
  - f_equal. auto.
Qed.
Lemma rd_nth (l : list A) d p x : rd l p = Ok x -> nth p l d = x.
Proof. unfold rd. destruct (nth_error l p) eqn:E; [|discriminate]. intros X; injection X as ->. now apply nth_error_nth. Qed.
Lemma rd_some (l : list A) d p : p < length l -> rd l p = Ok (nth p l d).
Proof. intros H. unfold rd. rewrite (nth_error_nth' l d H). reflexivity. Qed.
Lemma nth_past (l : list A) n p : nth p (l ++ repeat zero n) zero = nth p l zero.
Proof.
  destruct (Nat.lt_ge_cases p (length l)) as [H|H]; [now rewrite app_nth1|].
  rewrite app_nth2, (nth_overflow l) by lia. revert p H. induction n as [|n IH]; intros p H; simpl; destruct (p - length l) eqn:E; auto.
  specialize (IH (length l + n0)). replace (length l + n0 - length l) with n0 in IH by lia. apply IH. lia.
Qed.

Lemma memset0_rd (st : list A) i st' : memset0 zero st i 1 = Ok st' -> rd st' i = Ok zero.
Proof.
  unfold memset0. destruct (Nat.leb_spec (i + 1) (length st)); [|discriminate]. intros X; injection X as <-.
  cbn [repeat app]. apply rd_app. rewrite firstn_length. lia.
Qed.

(** Before the item is copied the storage is what inserting the zero value leaves. *)
Lemma front_read v p :
  vh v = 0 -> push_front_ref zero dbg v p = (v0 <- push_front zero dbg v zero ;; x <- rd (vst v0) p ;; push_front zero dbg v x).
Proof.
  intros H. unfold push_front_ref, push_front. destruct (sassert dbg (vsize v <? vmax v)) as [[]| | | |]; try reflexivity. cbn [bind].
  rewrite H. cbn [Nat.ltb Nat.leb]. destruct (memmove (vst v) (0 + 1) 0 (vsize v)) as [st1| | | |]; try reflexivity. cbn [bind].
  destruct (memset0 zero st1 0 1) as [st2| | | |] eqn:M; try reflexivity. cbn [bind].
  rewrite (wr_same _ _ _ (memset0_rd _ _ _ M)). cbn [bind vst]. destruct (rd st2 p) as [x| | | |]; reflexivity.
Qed.
Lemma front_room v p : 0 < vh v -> push_front_ref zero dbg v p = (x <- (sassert dbg (vsize v <? vmax v) ;;; rd (vst v) p) ;; push_front zero dbg v x).
Proof.
  intros H. unfold push_front_ref, push_front. destruct (sassert dbg (vsize v <? vmax v)) as [[]| | | |] eqn:E; try reflexivity. cbn [bind].
  destruct (Nat.ltb_spec 0 (vh v)); [|lia]. destruct (rd (vst v) p); reflexivity.
Qed.
Lemma back_read v p v1 :
  (if (vmax v <=? vt v) && (0 <? vh v) then rearrange zero W dbg v 0 else Ok v) = Ok v1 -> vt v1 < vmax v1 ->
  push_back_ref zero W dbg v p = (x <- rd (vst v1) p ;; push_back zero W dbg v x).
Proof.
  intros E L. unfold push_back_ref, push_back. rewrite E. cbn [bind]. destruct (Nat.ltb_spec (vt v1) (vmax v1)); [|lia].
  rewrite sassert_true. cbn [bind]. destruct (rd (vst v1) p); reflexivity.
Qed.
Lemma insert_read v i p :
  i <> 0 -> vh v + i < vt v ->
  insert_ref zero W dbg v i p = (v0 <- insert zero W dbg v i zero ;; x <- rd (vst v0) p ;; insert zero W dbg v i x).
Proof.
  intros H1 H2. unfold insert_ref, insert. destruct (sassert dbg (vsize v <? vmax v)) as [[]| | | |]; try reflexivity. cbn [bind].
  destruct (Nat.eqb_spec i 0); [lia|]. destruct (Nat.leb_spec (vt v) (vh v + i)); [lia|].
  destruct (if (vmax v <=? vt v) && (0 <? vh v) then rearrange zero W dbg v 0 else Ok v) as [v1| | | |]; try reflexivity. cbn [bind].
  destruct (sassert dbg (vt v1 <? vmax v1)) as [[]| | | |]; try reflexivity. cbn [bind].
  destruct (memmove (vst v1) (vh v1 + i + 1) (vh v1 + i) (vt v1 - (vh v1 + i))) as [st1| | | |]; try reflexivity. cbn [bind].
  destruct (memset0 zero st1 (vh v1 + i) 1) as [st2| | | |] eqn:M; try reflexivity. cbn [bind].
  rewrite (wr_same _ _ _ (memset0_rd _ _ _ M)). cbn [bind vst]. destruct (rd st2 p) as [x| | | |]; reflexivity.
Qed.

Lemma ref_ok v (l pre post : list A) i : vr W v l pre post -> i < length l -> ref dbg v i = Ok (length pre + i).
Proof.
  intros [S H T E B] Hi. unfold ref. rewrite H, T. destruct (Nat.ltb_spec (length pre + i) (length pre + length l)); [|lia]. reflexivity.
Qed.
Lemma cell_rd (pre l post : list A) i : i < length l -> rd (pre ++ l ++ post) (length pre + i) = Ok (nth i l zero).
Proof.
  intros H. rewrite (rd_some _ zero) by (rewrite !app_length; lia). rewrite app_nth2, app_nth1 by lia.
  replace (length pre + i - length pre) with i by lia. reflexivity.
Qed.

(** push_back *)
Lemma back_self_right v l i :
  vreachable zero moved W v -> vholds W v l -> i < length l -> offset v + length l < vmax v ->
  exists v', push_back_self zero W dbg v i = Ok v' /\ vholds W v' (l ++ [nth i l zero]).
Proof.
  intros Hr Hh Hi Hl. destruct (reachable_rep zero moved W v l Hr Hh) as (pre & post & HR & Ho & Hm).
  unfold push_back_self. rewrite (ref_ok v l pre post i HR Hi). cbn [bind].
  rewrite (back_read v _ v).
  - rewrite (vr_st _ _ _ _ _ HR), cell_rd by assumption. cbn [bind].
    destruct (push_back_vr zero W (fun _ => True) I dbg v l pre post (nth i l zero) HR) as (v' & pre' & post' & E & _ & HR' & _); [lia|].
    exists v'. split; [exact E|]. eapply vr_holds; eauto.
  - pose proof (vr_t _ _ _ _ _ HR). destruct (Nat.leb_spec (vmax v) (vt v)); [lia|reflexivity].
  - pose proof (vr_t _ _ _ _ _ HR). lia.
Qed.
Lemma back_self_moved v l i :
  vreachable zero moved W v -> vholds W v l -> i < length l -> 0 < offset v -> offset v + length l = vmax v ->
  exists v', push_back_self zero W dbg v i = Ok v' /\ vholds W v' (l ++ [nth (offset v + i) l zero]).
Proof.
  intros Hr Hh Hi Hp Hl. destruct (reachable_rep zero moved W v l Hr Hh) as (pre & post & HR & Ho & Hm).
  assert (post = []) as -> by (destruct post; simpl in *; [auto|lia]).
  destruct (rearrange_vr zero W dbg v l pre HR) as (v1 & E1 & HR1); [destruct pre; simpl in *; [lia|discriminate]|].
  pose proof (vr_max W _ _ _ _ HR1) as M1. simpl in M1. rewrite repeat_length in M1.
  unfold push_back_self. rewrite (ref_ok v l pre [] i HR Hi). cbn [bind].
  rewrite (back_read v _ v1).
  - rewrite (vr_st _ _ _ _ _ HR1). cbn [app].
    rewrite (rd_some _ zero) by (rewrite app_length, repeat_length; simpl in *; lia). rewrite nth_past. cbn [bind]. rewrite Ho.
    destruct (push_back_vr zero W (fun _ => True) I dbg v l pre [] (nth (length pre + i) l zero) HR) as (v' & pre' & post' & E & _ & HR' & _); [lia|].
    exists v'. split; [exact E|]. eapply vr_holds; eauto.
  - pose proof (vr_t _ _ _ _ _ HR). pose proof (vr_h _ _ _ _ _ HR). simpl in *.
    destruct (Nat.leb_spec (vmax v) (vt v)); [|lia]. destruct (Nat.ltb_spec 0 (vh v)); [|lia]. exact E1.
  - pose proof (vr_t _ _ _ _ _ HR1) as T1. simpl in T1. lia.
Qed.

(** push_front *)
Lemma front_self_right v l i :
  vreachable zero moved W v -> vholds W v l -> i < length l -> 0 < offset v ->
  exists v', push_front_self zero dbg v i = Ok v' /\ vholds W v' (nth i l zero :: l).
Proof.
  intros Hr Hh Hi Hp. destruct (reachable_rep zero moved W v l Hr Hh) as (pre & post & HR & Ho & Hm).
  unfold push_front_self. rewrite (ref_ok v l pre post i HR Hi). cbn [bind].
  pose proof (vr_size W _ _ _ _ HR) as Hs.
  rewrite front_room by exact Hp. rewrite Hs. destruct (Nat.ltb_spec (length l) (vmax v)); [|lia]. rewrite sassert_true. cbn [bind].
  rewrite (vr_st _ _ _ _ _ HR), cell_rd by assumption. cbn [bind].
  destruct (emplace_front_vr zero W (fun _ => True) v l pre post (nth i l zero) HR) as (v' & pre' & post' & E & HR' & _); [lia|].
  rewrite push_front_emplace by lia. exists v'. split; [exact E|]. eapply vr_holds; eauto.
Qed.
Lemma front_self_moved v l i :
  vreachable zero moved W v -> vholds W v l -> i < length l -> offset v = 0 -> length l < vmax v ->
  exists v', push_front_self zero dbg v i = Ok v' /\ vholds W v' (nth i (zero :: l) zero :: l).
Proof.
  intros Hr Hh Hi Hp Hl. destruct (reachable_rep zero moved W v l Hr Hh) as (pre & post & HR & Ho & Hm).
  assert (pre = []) as -> by (destruct pre; simpl in *; [auto|lia]).
  unfold push_front_self. rewrite (ref_ok v l [] post i HR Hi). cbn [bind length Nat.add].
  pose proof (vr_size W _ _ _ _ HR) as Hs.
  rewrite front_read by exact Hp. rewrite push_front_emplace by lia.
  destruct (emplace_front_vr zero W (fun _ => True) v l [] post zero HR) as (v0 & pre0 & post0 & E0 & HR0 & _); [lia|].
  rewrite E0. cbn [bind].
  assert (pre0 = []) as ->.
  { unfold emplace_front in E0. unfold offset in Hp. rewrite Hp in E0. cbn [Nat.ltb Nat.leb] in E0.
    destruct (memmove (vst v) (0 + 1) 0 (vsize v)) as [st1| | | |]; try discriminate. cbn [bind] in E0.
    destruct (memset0 zero st1 0 1) as [st2| | | |]; try discriminate. cbn [bind] in E0.
    destruct (wr st2 0 zero) as [st3| | | |]; try discriminate. cbn [bind] in E0. injection E0 as <-.
    pose proof (vr_h _ _ _ _ _ HR0) as H0. simpl in H0. destruct pre0; [reflexivity|discriminate]. }
  rewrite (vr_st _ _ _ _ _ HR0). pose proof (cell_rd [] (zero :: l) post0 i ltac:(simpl; lia)) as C. cbn [app length Nat.add] in C. cbn [app].
  rewrite C. cbn [bind].
  destruct (emplace_front_vr zero W (fun _ => True) v l [] post (nth i (zero :: l) zero) HR) as (v' & pre' & post' & E & HR' & _); [lia|].
  rewrite push_front_emplace by lia. exists v'. split; [exact E|]. eapply vr_holds; eauto.
Qed.

(** insert in the middle *)
Lemma insert_at_length k (x : A) l : k <= length l -> length (insert_at k x l) = S (length l).
Proof. intros H. unfold insert_at. rewrite app_length. simpl. rewrite firstn_length, skipn_length. lia. Qed.
Lemma insert_room v l pre post k x v0 :
  vr W v l pre post -> k <> 0 -> k < length l -> length pre + length l < vmax v -> insert zero W dbg v k x = Ok v0 -> vh v0 = length pre.
Proof.
  intros HR Hk Hkl Hl E. unfold insert in E. destruct HR as [S H T En B].
  destruct (sassert dbg (vsize v <? vmax v)) as [[]| | | |]; try discriminate. cbn [bind] in E.
  destruct (Nat.eqb_spec k 0); [lia|]. destruct (Nat.leb_spec (vt v) (vh v + k)); [lia|].
  destruct (Nat.leb_spec (vmax v) (vt v)); [lia|]. cbn [andb bind] in E. rewrite <- H.
  destruct (sassert dbg (vt v <? vmax v)) as [[]| | | |]; try discriminate. cbn [bind] in E.
  destruct (memmove (vst v) (vh v + k + 1) (vh v + k) (vt v - (vh v + k))) as [st1| | | |]; try discriminate. cbn [bind] in E.
  destruct (memset0 zero st1 (vh v + k) 1) as [st2| | | |]; try discriminate. cbn [bind] in E.
  destruct (wr st2 (vh v + k) x) as [st3| | | |]; try discriminate. cbn [bind] in E. injection E as <-. reflexivity.
Qed.
Lemma insert_moved v l pre k x :
  vr W v l pre [] -> pre <> [] -> k <> 0 -> k < length l ->
  exists v1, vr W v1 l [] (repeat zero (length pre)) /\ insert zero W dbg v k x = insert zero W dbg v1 k x.
Proof.
  intros HR Hp Hk Hl. destruct (rearrange_vr zero W dbg v l pre HR Hp) as (v1 & E1 & HR1). exists v1. split; [exact HR1|].
  assert (Hp1 : 1 <= length pre) by (destruct pre; [congruence|simpl; lia]).
  pose proof (vr_size W _ _ _ _ HR) as S0. pose proof (vr_size W _ _ _ _ HR1) as S1.
  pose proof (vr_max W _ _ _ _ HR) as M0. pose proof (vr_max W _ _ _ _ HR1) as M1. simpl in M0, M1. rewrite repeat_length in M1.
  pose proof (vr_h _ _ _ _ _ HR) as H0. pose proof (vr_h _ _ _ _ _ HR1) as H1. simpl in H1.
  pose proof (vr_t _ _ _ _ _ HR) as T0. pose proof (vr_t _ _ _ _ _ HR1) as T1. simpl in T1.
  unfold insert. rewrite S0, S1. replace (vmax v1) with (vmax v) at 1 by lia.
  destruct (sassert dbg (length l <? vmax v)) as [[]| | | |]; try reflexivity. cbn [bind].
  destruct (Nat.eqb_spec k 0); [lia|].
  destruct (Nat.leb_spec (vt v) (vh v + k)); [lia|]. destruct (Nat.leb_spec (vt v1) (vh v1 + k)); [lia|].
  destruct (Nat.leb_spec (vmax v) (vt v)); [|lia]. destruct (Nat.ltb_spec 0 (vh v)); [|lia]. cbn [andb]. rewrite E1.
  destruct (Nat.leb_spec (vmax v1) (vt v1)); [lia|]. reflexivity.
Qed.

Lemma insert_room_exact v l pre post k i :
  vr W v l pre post -> k <> 0 -> k < length l -> length pre + length l < vmax v -> i <= length l ->
  exists v', insert_ref zero W dbg v k (length pre + i) = Ok v' /\
    vholds W v' (insert_at k (nth i (insert_at k zero l) zero) l).
Proof.
  intros HR Hk Hkl Hl Hi.
  pose proof (vr_h _ _ _ _ _ HR). pose proof (vr_t _ _ _ _ _ HR).
  rewrite insert_read by lia.
  destruct (insert_vr zero W (fun _ => True) I dbg v l pre post k zero HR) as (v0 & pre0 & post0 & E0 & HR0 & _); [lia|].
  rewrite E0. cbn [bind].
  pose proof (insert_room v l pre post k zero v0 HR Hk Hkl Hl E0) as Hv0. rewrite (vr_h _ _ _ _ _ HR0) in Hv0.
  rewrite (vr_st _ _ _ _ _ HR0), <- Hv0, cell_rd by (rewrite insert_at_length by lia; lia). cbn [bind].
  match goal with |- context [insert zero W dbg v k ?x] =>
    destruct (insert_vr zero W (fun _ => True) I dbg v l pre post k x HR) as (v' & pre' & post' & E & HR' & _); [lia|] end.
  exists v'. split; [exact E|]. eapply vr_holds; eauto.
Qed.
Lemma insert_self_room v l k i :
  vreachable zero moved W v -> vholds W v l -> i < length l -> 0 < k < length l -> offset v + length l < vmax v ->
  exists v', insert_self zero W dbg v k i = Ok v' /\ vholds W v' (insert_at k (nth i (insert_at k zero l) zero) l).
Proof.
  intros Hr Hh Hi Hk Hl. destruct (reachable_rep zero moved W v l Hr Hh) as (pre & post & HR & Ho & Hm).
  unfold insert_self. rewrite (ref_ok v l pre post i HR Hi). cbn [bind].
  apply (insert_room_exact v l pre post k i HR); lia.
Qed.
Lemma insert_self_moved v l k i :
  vreachable zero moved W v -> vholds W v l -> i < length l -> 0 < k < length l -> 0 < offset v -> offset v + length l = vmax v ->
  exists v', insert_self zero W dbg v k i = Ok v' /\
    vholds W v' (insert_at k (nth (offset v + i) (insert_at k zero l) zero) l).
Proof.
  intros Hr Hh Hi Hk Hp Hl. destruct (reachable_rep zero moved W v l Hr Hh) as (pre & post & HR & Ho & Hm).
  assert (post = []) as -> by (destruct post; simpl in *; [auto|lia]).
  assert (Hpre : pre <> []) by (destruct pre; simpl in *; [lia|discriminate]).
  unfold insert_self. rewrite (ref_ok v l pre [] i HR Hi). cbn [bind].
  pose proof (vr_h _ _ _ _ _ HR). pose proof (vr_t _ _ _ _ _ HR).
  rewrite insert_read by lia.
  destruct (insert_moved v l pre k zero HR Hpre ltac:(lia) ltac:(lia)) as (v1 & HR1 & E1). rewrite E1.
  assert (L1 : length l < vmax v1).
  { rewrite (vr_max W _ _ _ _ HR1), repeat_length. simpl. destruct pre; [congruence|simpl; lia]. }
  destruct (insert_vr zero W (fun y => y = zero) eq_refl dbg v1 l [] _ k zero HR1 L1) as (v0 & pre0 & post0 & E0 & HR0 & M0 & C0).
  rewrite E0. cbn [bind].
  pose proof (insert_room v1 l [] _ k zero v0 HR1 ltac:(lia) ltac:(lia) ltac:(simpl; lia) E0) as Hv0. rewrite (vr_h _ _ _ _ _ HR0) in Hv0.
  assert (pre0 = []) as -> by (destruct pre0; [reflexivity|simpl in Hv0; discriminate]).
  destruct C0 as [_ C0]; [split; [constructor|apply (Forall_repeat_null zero (fun y => y = zero) eq_refl)]|].
  assert (P0 : post0 = repeat zero (length post0)).
  { clear -C0. induction C0 as [|y t -> _ IH]; [reflexivity|]. simpl. f_equal. exact IH. }
  rewrite (vr_st _ _ _ _ _ HR0). cbn [app].
  assert (LEN : length (insert_at k zero l ++ post0) = length pre + length l).
  { pose proof (vr_max W _ _ _ _ HR0) as X. rewrite M0, (vr_max W _ _ _ _ HR1), repeat_length in X. simpl in X.
    rewrite app_length. lia. }
  rewrite (rd_some _ zero) by lia. rewrite P0, nth_past. cbn [bind]. rewrite Ho.
  match goal with |- context [insert zero W dbg v k ?x] =>
    destruct (insert_vr zero W (fun _ => True) I dbg v l pre [] k x HR) as (v' & pre' & post' & E & HR' & _);
      [destruct pre; [congruence|simpl in *; lia]|] end.
  exists v'. split; [exact E|]. eapply vr_holds; eauto.
Qed.

(** What the place i of the sequence holds once room has been made at k *)
Lemma made_room (l : list A) k i : k <= length l -> i < length l ->
  nth i (insert_at k zero l) zero = if i <? k then nth i l zero else if i =? k then zero else nth (i - 1) l zero.
Proof.
  intros Hk Hi. unfold insert_at. destruct (Nat.ltb_spec i k).
  - rewrite app_nth1 by (rewrite firstn_length; lia). rewrite <- (firstn_skipn k l) at 2. rewrite app_nth1 by (rewrite firstn_length; lia). reflexivity.
  - rewrite app_nth2 by (rewrite firstn_length; lia). rewrite firstn_length, Nat.min_l by lia.
    destruct (Nat.eqb_spec i k) as [->|].
    + rewrite Nat.sub_diag. reflexivity.
    + destruct (i - k) as [|j] eqn:E; [lia|]. cbn [nth]. rewrite <- (firstn_skipn k l) at 2.
      rewrite app_nth2 by (rewrite firstn_length; lia). rewrite firstn_length, Nat.min_l by lia. f_equal. lia.
Qed.
Lemma insert_self_right v l k i :
  vreachable zero moved W v -> vholds W v l -> i < length l -> i < k < length l -> offset v + length l < vmax v ->
  exists v', insert_self zero W dbg v k i = Ok v' /\ vholds W v' (insert_at k (nth i l zero) l).
Proof.
  intros Hr Hh Hi Hk Hl. destruct (insert_self_room v l k i Hr Hh Hi ltac:(lia) Hl) as (v' & E & H).
  exists v'. split; [exact E|]. rewrite made_room in H by lia. destruct (Nat.ltb_spec i k); [exact H|lia].
Qed.
End Self.
