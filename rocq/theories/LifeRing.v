(** Ring buffers of shared_ptrs: counters against references. *)
From Coq Require Import List Arith ZArith Bool Lia.
From Verif Require Import Base RingOps RingModel LifeModel LifeSpec LifeProofs StreamProofs.
Require Verif.WrapProofs.
Import ListNotations.

Section Ring.
Variable W : Z.
Definition gcells (w : gw) : list ptr := match gr w with Some r => buf r | None => [] end.
Definition gtotal (w : gw) (o : nat) : nat := refs o (gcells w) + refs o (gvars w).
Definition GInv (w : gw) : Prop := forall o, gtotal w o <= cnt (gc w) o.
Definition is_destroy (op : gop) : bool := match op with GDestroy => true | _ => false end.
(** Counts and references change alike, except that the storage goes without its references being counted off. *)
Definition gbetter (w : gw) (op : gop) (w' : gw) : Prop :=
  forall o, cnt (gc w) o + gtotal w' o + (if is_destroy op then refs o (gcells w) else 0) = cnt (gc w') o + gtotal w o.
Definition simg (a : outcome gw) (b : outcome qw) (Q : gw -> Prop) : Prop :=
  match a, b with
  | Ok w, Ok p => gplain w = p /\ Q w
  | Halt, Halt => True | UB, UB => True | Throw, Throw => True | Fuel, Fuel => True
  | _, _ => False
  end.
Lemma qvar_plain w k : qvar (gplain w) k = gvar w k.
Proof.
  unfold qvar, gvar, gplain. cbn [qvars]. destruct (nth_error (gvars w) k) eqn:E; [now apply nth_error_nth|].
  apply nth_error_None in E. now apply nth_overflow.
Qed.
Lemma gvar_refs w k o : gvar w k = Some o -> 1 <= refs o (gvars w).
Proof. unfold gvar. destruct (nth_error (gvars w) k) eqn:E; [|discriminate]. intros ->. apply refs_in. eapply nth_error_In; eauto. Qed.
Lemma pop_some r x r1 : pop r = Ok (x, r1) -> buf r1 = buf r /\ forall o, flat x = Some o -> 1 <= refs o (buf r).
Proof.
  unfold pop. destruct (empty r).
  - intros H. apply WrapProofs.ok_inj in H. assert (x = None) as -> by congruence. assert (r1 = r) as -> by congruence. split; [reflexivity|discriminate].
  - intros H. apply bind_ok in H as (y & E & H). apply WrapProofs.ok_inj in H. assert (x = Some y) as -> by congruence.
    assert (buf r1 = buf r) as -> by (assert (r1 = mkRing (buf r) (rhead r) ((rtail r + 1) mod length (buf r)) 0%Z false) as -> by congruence; reflexivity).
    split; [reflexivity|]. cbn [flat]. intros o ->. apply rd_nth in E. apply refs_in. eapply nth_error_In; eauto.
Qed.
Lemma peek_some r i x : peek_at r i = Ok x -> forall o, flat x = Some o -> 1 <= refs o (buf r).
Proof.
  unfold peek_at. destruct (used_space r <=? i).
  - intros H. apply WrapProofs.ok_inj in H. subst x. discriminate.
  - intros H. apply bind_ok in H as (y & E & H). apply WrapProofs.ok_inj in H. subst x. cbn [flat]. intros o ->. apply rd_nth in E. apply refs_in. eapply nth_error_In; eauto.
Qed.
Lemma drop_last_buf (r : ring ptr) n k r1 : drop_last W r n = Ok (k, r1) -> buf r1 = buf r.
Proof. unfold drop_last. cbv zeta. intros H. apply bind_ok in H as (h & _ & H). apply WrapProofs.ok_inj in H. assert (r1 = mkRing (buf r) h (rtail r) (Z.max 0 (wrapW W (over r - Z.of_nat (Nat.min (used_space r) n)))) false) as -> by congruence. reflexivity. Qed.
Lemma drop_first_buf (r : ring ptr) n k r1 : drop_first W r n = Ok (k, r1) -> buf r1 = buf r.
Proof. unfold drop_first. cbv zeta. intros H. apply bind_ok in H as (h & _ & H). apply WrapProofs.ok_inj in H. now injection H as _ <-. Qed.
Lemma clear_buf (r : ring ptr) r1 : clear W r = Ok r1 -> buf r1 = buf r.
Proof. unfold clear. intros H. apply bind_ok in H as ([k r2] & E & H). apply WrapProofs.ok_inj in H. subst r2. eapply drop_last_buf; eauto. Qed.

Ltac gone Er := cbn [simg]; split; [unfold gplain; rewrite ?Er; reflexivity|intros o; unfold gtotal, gcells; rewrite ?Er, ?refs_nil; cbn [is_destroy]; lia].
Lemma gstep_sim w op : GInv w -> simg (gstep W w op) (qstep W (gplain w) op) (gbetter w op).
Proof.
  intros I. assert (forall o k, gvar w k = Some o -> 1 <= refs o (gvars w)) as X by (intros; eapply gvar_refs; eauto).
  assert (forall r o, gr w = Some r -> refs o (buf r) + refs o (gvars w) <= cnt (gc w) o) as R by (intros r o E; specialize (I o); unfold gtotal, gcells in I; now rewrite E in I).
  destruct op; cbn [gstep qstep]; rewrite ?qvar_plain.
  - cbn [simg]. split.
    + unfold gplain. cbn [gc gr gvars qn qr qvars]. rewrite app_length. reflexivity.
    + intros o. unfold gtotal, gcells. cbn [gr gc gvars is_destroy]. rewrite refs_app, cnt_app.
      destruct (Nat.eqb_spec o (length (gc w))) as [-> | N].
      * rewrite refs_some. assert (cnt (gc w) (length (gc w)) = 0) as Z by (apply nth_overflow; lia).
        specialize (I (length (gc w))). unfold gtotal, gcells in I. lia.
      * rewrite refs_other by auto. lia.
  - destruct (inc_ok (gc w) (gvar w k)) as (c & E & L & K). { intros o Eo. specialize (X o k Eo). specialize (I o). unfold gtotal in I. lia. }
    rewrite E. cbn [bind simg]. split; [unfold gplain; cbn [gc gr gvars qn qr qvars]; now rewrite L|].
    intros o. unfold gtotal, gcells. cbn [gr gc gvars is_destroy]. rewrite refs_app, K. lia.
  - destruct (dec_ok (gc w) (gvar w k)) as (c & E & L & K). { intros o Eo. specialize (X o k Eo). specialize (I o). unfold gtotal in I. lia. }
    rewrite E. cbn [bind simg]. split; [unfold gplain; cbn [gc gr gvars qn qr qvars]; now rewrite L|].
    intros o. unfold gtotal, gcells. cbn [gr gc gvars is_destroy]. specialize (K o). unfold gvar in K. destruct (nth_error (gvars w) k) as [y|] eqn:En.
    + pose proof (refs_upd o (gvars w) k None y En) as U. rewrite refs_none in U. lia.
    + rewrite refs_none in K. apply nth_error_None in En. assert (upd (gvars w) k None = gvars w) as ->.
      { apply nth_error_ext. intros j. rewrite nth_error_upd. destruct (Nat.eqb_spec k j), (Nat.ltb_spec j (length (gvars w))); cbn [andb]; try reflexivity; lia. }
      lia.
  - unfold on_ring, qcall. cbn [gplain qr qn qvars]. destruct (gr w) as [r|] eqn:Er; [|gone Er].
    cbn [ring_step]. unfold lpush, push. destruct (rfull r && negb ro).
    { cbn [bind simg]. split; [reflexivity|]. intros o. unfold gtotal, gcells. cbn [gr gc gvars is_destroy]. rewrite Er. lia. }
    pose proof (asg_sim (gc w) (buf r) (rhead r) (gvar w k) (gvars w) (fun o => R r o eq_refl) (fun o => X o k)) as A.
    destruct (asg (gc w) (buf r) (rhead r) (gvar w k)) as [[c b]| | | |], (wr (buf r) (rhead r) (gvar w k)) as [b'| | | |]; cbn [sim bind simg] in *; try contradiction; auto.
    destruct A as (-> & L & _ & K). cbv zeta.
    assert (forall r2, buf r2 = b' -> simg (Ok (mkGW c (Some r2) (gvars w))) (Ok (mkQW (length (gc w)) (Some r2) (gvars w))) (gbetter w (GPush k ro))) as F.
    { intros r2 Eb. cbn [simg]. split; [unfold gplain; cbn [gc gr gvars]; now rewrite L|]. intros o. unfold gtotal, gcells. cbn [gr gc gvars is_destroy]. rewrite Er, Eb. specialize (K o). lia. }
    destruct (_ =? rtail r); [|destruct (rfull r)]; cbn [bind]; apply F; reflexivity.
  - unfold on_ring, qcall. cbn [gplain qr qn qvars]. destruct (gr w) as [r|] eqn:Er; [|gone Er].
    cbn [ring_step]. destruct (pop r) as [[x r1]| | | |] eqn:E; cbn [bind simg]; auto. destruct (pop_some r x r1 E) as [Eb Hx].
    destruct (inc_ok (gc w) (flat x)) as (c & Ec & L & K). { intros o Eo. specialize (Hx o Eo). specialize (R r o eq_refl). lia. }
    rewrite Ec. cbn [bind]. destruct keep.
    + cbn [simg]. split; [unfold gplain; cbn [gc gr gvars]; now rewrite L|]. intros o. unfold gtotal, gcells. cbn [gr gc gvars is_destroy]. rewrite Er, Eb, refs_app, K. lia.
    + destruct (dec_ok c (flat x)) as (c1 & Ec1 & L1 & K1). { intros o Eo. specialize (K o). specialize (Hx o Eo). specialize (R r o eq_refl). lia. }
      rewrite Ec1. cbn [bind simg]. split; [unfold gplain; cbn [gc gr gvars]; now rewrite L1, L|]. intros o. unfold gtotal, gcells. cbn [gr gc gvars is_destroy]. rewrite Er, Eb. specialize (K o). specialize (K1 o). lia.
  - unfold on_ring, qcall. cbn [gplain qr qn qvars]. destruct (gr w) as [r|] eqn:Er; [|gone Er].
    cbn [ring_step]. destruct (peek_at r i) as [x| | | |] eqn:E; cbn [bind simg]; auto. pose proof (peek_some r i x E) as Hx.
    destruct (inc_ok (gc w) (flat x)) as (c & Ec & L & K). { intros o Eo. specialize (Hx o Eo). specialize (R r o eq_refl). lia. }
    rewrite Ec. cbn [bind simg]. split; [unfold gplain; cbn [gc gr gvars]; now rewrite L|]. intros o. unfold gtotal, gcells. cbn [gr gc gvars is_destroy]. rewrite Er, refs_app, K. lia.
  - unfold on_ring, qcall. cbn [gplain qr qn qvars]. destruct (gr w) as [r|] eqn:Er; [|gone Er].
    cbn [ring_step]. destruct (drop_last W r n) as [[k r1]| | | |] eqn:E; cbn [bind simg]; auto. split; [reflexivity|]. intros o. unfold gtotal, gcells. cbn [gr gc gvars is_destroy].
    rewrite Er, (drop_last_buf _ _ _ _ E). lia.
  - unfold on_ring, qcall. cbn [gplain qr qn qvars]. destruct (gr w) as [r|] eqn:Er; [|gone Er].
    cbn [ring_step]. destruct (drop_first W r n) as [[k r1]| | | |] eqn:E; cbn [bind simg]; auto. split; [reflexivity|]. intros o. unfold gtotal, gcells. cbn [gr gc gvars is_destroy].
    rewrite Er, (drop_first_buf _ _ _ _ E). lia.
  - unfold on_ring, qcall. cbn [gplain qr qn qvars]. destruct (gr w) as [r|] eqn:Er; [|gone Er].
    cbn [ring_step]. destruct (clear W r) as [r1| | | |] eqn:E; cbn [bind simg]; auto. split; [reflexivity|]. intros o. unfold gtotal, gcells. cbn [gr gc gvars is_destroy].
    rewrite Er, (clear_buf _ _ E). lia.
  - cbn [simg]. split; [reflexivity|]. intros o. unfold gtotal, gcells. cbn [gr gc gvars is_destroy]. rewrite refs_nil. lia.
Qed.
Lemma simg_weaken a b (Q Q' : gw -> Prop) : simg a b Q -> (forall w, Q w -> Q' w) -> simg a b Q'.
Proof. destruct a, b; simpl; auto. intros [-> H] K. auto. Qed.
Lemma gbetter_inv w op w' : GInv w -> gbetter w op w' -> GInv w'.
Proof. intros I B o. specialize (I o). specialize (B o). lia. Qed.
Lemma grun_sim : forall ops w, GInv w -> simg (grun W w ops) (qrun W (gplain w) ops)
  (fun w' => GInv w' /\ (forall o, cnt (gc w) o + gtotal w' o <= cnt (gc w') o + gtotal w o) /\
     (~ In GDestroy ops -> forall o, cnt (gc w) o + gtotal w' o = cnt (gc w') o + gtotal w o)).
Proof.
  induction ops as [|op ops IH]; intros w I; cbn [grun qrun].
  - cbn [simg]. split; [reflexivity|]. split; [exact I|]. split; intros; lia.
  - pose proof (gstep_sim w op I) as S. destruct (gstep W w op) as [w1| | | |], (qstep W (gplain w) op) as [p1| | | |]; cbn [simg bind] in *; try contradiction; auto.
    destruct S as [<- B]. eapply simg_weaken; [apply IH; eapply gbetter_inv; eauto|]. cbv beta. intros w' (I' & K & K'). split; [exact I'|]. split.
    + intros o. specialize (B o). specialize (K o). lia.
    + intros N o. assert (is_destroy op = false) as D by (destruct op; auto; exfalso; apply N; now left). specialize (B o). rewrite D in B.
      specialize (K' (fun H => N (or_intror H)) o). lia.
Qed.
Lemma gstart_inv n : GInv (gstart n).
Proof. intros o. unfold gtotal, gcells, gstart. cbn [gr gc gvars buf]. rewrite refs_repeat, refs_nil. lia. Qed.

(** The indices stay inside the storage. *)
Definition GOk (w : gw) : Prop := match gr w with Some r => rtail r < length (buf r) | None => True end.
Lemma gstep_ok w op w' : GOk w -> gstep W w op = Ok w' -> GOk w'.
Proof.
  intros G E. assert (forall r n, gr w = Some r -> n mod length (buf r) < length (buf r)) as M.
  { intros r n Er. unfold GOk in G. rewrite Er in G. apply Nat.mod_upper_bound. lia. }
  destruct op; cbn [gstep] in E.
  - apply WrapProofs.ok_inj in E. now subst w'.
  - apply bind_ok in E as (c & _ & E). apply WrapProofs.ok_inj in E. now subst w'.
  - apply bind_ok in E as (c & _ & E). apply WrapProofs.ok_inj in E. now subst w'.
  - unfold on_ring in E. destruct (gr w) as [r|] eqn:Er; [|apply WrapProofs.ok_inj in E; now subst w'].
    unfold GOk in G. rewrite Er in G. unfold lpush in E. destruct (rfull r && negb ro).
    { cbn [bind] in E. apply WrapProofs.ok_inj in E. subst w'. exact G. }
    apply bind_ok in E as ([c r1] & E & E2). apply WrapProofs.ok_inj in E2. subst w'. apply bind_ok in E as ([c1 b] & A & E).
    assert (length b = length (buf r)) as Lb.
    { unfold asg in A. apply bind_ok in A as (old & _ & A). apply bind_ok in A as (c2 & _ & A). apply bind_ok in A as (st & Ew & A). apply bind_ok in A as (c3 & _ & A).
      apply WrapProofs.ok_inj in A. assert (st = b) as -> by congruence. unfold wr in Ew. destruct (_ <? _); [|discriminate]. apply WrapProofs.ok_inj in Ew. subst b. apply upd_length. }
    cbv zeta in E. unfold GOk. cbn [gr].
    destruct (_ =? rtail r); [|destruct (rfull r)]; apply WrapProofs.ok_inj in E; injection E as _ <-; cbn [rtail buf]; try (rewrite Lb; exact G).
    rewrite Lb. apply M. reflexivity.
  - unfold on_ring in E. destruct (gr w) as [r|] eqn:Er; [|apply WrapProofs.ok_inj in E; now subst w'].
    apply bind_ok in E as ([x r1] & E & E2). apply bind_ok in E2 as (c & _ & E2).
    assert (rtail r1 < length (buf r1)) as T.
    { unfold GOk in G. rewrite Er in G. unfold pop in E. destruct (empty r); [apply WrapProofs.ok_inj in E; injection E as _ <-; exact G|].
      apply bind_ok in E as (y & _ & E). apply WrapProofs.ok_inj in E. injection E as _ <-. cbn [rtail buf]. now apply M. }
    destruct keep; [|apply bind_ok in E2 as (c1 & _ & E2)]; apply WrapProofs.ok_inj in E2; subst w'; exact T.
  - unfold on_ring in E. destruct (gr w) as [r|] eqn:Er; [|apply WrapProofs.ok_inj in E; now subst w'].
    apply bind_ok in E as (x & _ & E). apply bind_ok in E as (c & _ & E). apply WrapProofs.ok_inj in E. subst w'. unfold GOk in *. rewrite Er in G. exact G.
  - unfold on_ring in E. destruct (gr w) as [r|] eqn:Er; [|apply WrapProofs.ok_inj in E; now subst w'].
    apply bind_ok in E as ([k r1] & E & E2). apply WrapProofs.ok_inj in E2. subst w'. unfold drop_last in E. cbv zeta in E. apply bind_ok in E as (h & _ & E).
    apply WrapProofs.ok_inj in E. injection E as _ <-. unfold GOk in *. rewrite Er in G. exact G.
  - unfold on_ring in E. destruct (gr w) as [r|] eqn:Er; [|apply WrapProofs.ok_inj in E; now subst w'].
    apply bind_ok in E as ([k r1] & E & E2). apply WrapProofs.ok_inj in E2. subst w'. unfold drop_first in E. cbv zeta in E. apply bind_ok in E as (h & Eh & E).
    apply WrapProofs.ok_inj in E. injection E as _ <-. unfold GOk in *. cbn [gr rtail buf]. rewrite Er in G. unfold advance_tail in Eh. destruct (_ =? 0); [discriminate|].
    apply WrapProofs.ok_inj in Eh. subst h. now apply M.
  - unfold on_ring in E. destruct (gr w) as [r|] eqn:Er; [|apply WrapProofs.ok_inj in E; now subst w'].
    apply bind_ok in E as (r1 & E & E2). apply WrapProofs.ok_inj in E2. subst w'. unfold clear in E. apply bind_ok in E as ([k r2] & E & E3). apply WrapProofs.ok_inj in E3. subst r2.
    unfold drop_last in E. cbv zeta in E. apply bind_ok in E as (h & _ & E). apply WrapProofs.ok_inj in E. injection E as _ <-. unfold GOk in *. rewrite Er in G. exact G.
  - apply WrapProofs.ok_inj in E. subst w'. exact Logic.I.
Qed.
Lemma grun_ok : forall ops w w', GOk w -> grun W w ops = Ok w' -> GOk w'.
Proof.
  induction ops as [|op ops IH]; intros w w' G E; cbn [grun] in E.
  - apply WrapProofs.ok_inj in E. now subst w'.
  - apply bind_ok in E as (w1 & E1 & E2). eapply IH; [|exact E2]. eapply gstep_ok; eauto.
Qed.
Lemma gelems_in w l o : gelems w l -> In (Some o) l -> 1 <= refs o (gcells w).
Proof.
  unfold gelems, gcells. destruct (gr w) as [r|]; [|intros -> []]. intros [_ H] Hx. apply In_nth_error in Hx as (i & Ei).
  specialize (H i _ Ei). apply (peek_some r i _ H). reflexivity.
Qed.
(** A full buffer shows every cell. *)
Lemma full_cells (r : ring ptr) (l : list ptr) : rtail r < length (buf r) -> full r = true -> used_space r = length l -> (forall i x, nth_error l i = Some x -> peek_at r i = Ok (Some x)) ->
  l = skipn (rtail r) (buf r) ++ firstn (rtail r) (buf r).
Proof.
  intros T F U H. unfold used_space, capacity in U. rewrite F in U. apply nth_error_ext. intros i.
  destruct (nth_error l i) as [x|] eqn:E.
  - pose proof (nth_lt _ _ _ E) as Hi. specialize (H i x E). unfold peek_at, used_space, capacity in H. rewrite F in H.
    destruct (Nat.leb_spec (length (buf r)) i); [discriminate|]. apply bind_ok in H as (y & Ey & H). apply WrapProofs.ok_inj in H. assert (y = x) as -> by congruence.
    apply rd_nth in Ey. symmetry. destruct (Nat.lt_ge_cases (rtail r + i) (length (buf r))) as [Q | Q].
    + rewrite Nat.mod_small in Ey by auto. rewrite nth_error_app1 by (rewrite skipn_length; lia). now rewrite nth_error_skipn.
    + assert ((rtail r + i) mod length (buf r) = rtail r + i - length (buf r)) as Em.
      { replace (rtail r + i) with (rtail r + i - length (buf r) + 1 * length (buf r)) at 1 by lia. rewrite Nat.mod_add, Nat.mod_small by lia. reflexivity. }
      rewrite Em in Ey. rewrite nth_error_app2, skipn_length by (rewrite skipn_length; lia). rewrite nth_error_firstn.
      replace (i - (length (buf r) - rtail r)) with (rtail r + i - length (buf r)) by lia.
      destruct (Nat.ltb_spec (rtail r + i - length (buf r)) (rtail r)); [exact Ey|lia].
  - symmetry. apply nth_error_None. apply nth_error_None in E. rewrite app_length, skipn_length, firstn_length. lia.
Qed.

Lemma ring_lives n ops : (w <- grun W (gstart n) ops ;; Ok (gplain w)) = qrun W (gplain (gstart n)) ops /\
  forall w l o, grun W (gstart n) ops = Ok w -> gelems w l -> In (Some o) (l ++ gvars w) -> alive (gc w) o.
Proof.
  pose proof (grun_sim ops (gstart n) (gstart_inv n)) as S.
  destruct (grun W (gstart n) ops) as [w1| | | |], (qrun W (gplain (gstart n)) ops) as [p1| | | |]; cbn [simg bind] in *; try contradiction; split; auto; try discriminate.
  - destruct S as [-> _]. reflexivity.
  - intros w l o E. apply WrapProofs.ok_inj in E. subst w1. destruct S as (_ & I & _). intros El Hx. apply alive_cnt. specialize (I o). unfold gtotal in I.
    apply in_app_iff in Hx as [Hx | Hx].
    + pose proof (gelems_in w l o El Hx). lia.
    + apply refs_in in Hx. lia.
Qed.
Lemma ring_full n ops w r l : 1 <= n -> ~ In GDestroy ops -> grun W (gstart n) ops = Ok w -> gr w = Some r -> full r = true -> gelems w l ->
  (forall o, alive (gc w) o <-> In (Some o) (l ++ gvars w)) /\ forall o k, nth_error (gc w) o = Some k -> k = refs o (l ++ gvars w).
Proof.
  intros Hn N E Er F El. pose proof (grun_sim ops (gstart n) (gstart_inv n)) as S. rewrite E in S.
  destruct (qrun W (gplain (gstart n)) ops); cbn [simg] in S; try contradiction. destruct S as (_ & I & _ & K). specialize (K N).
  assert (GOk w) as G. { eapply grun_ok; [|exact E]. unfold GOk, gstart. cbn [gr rtail buf]. rewrite repeat_length. lia. }
  unfold GOk in G. rewrite Er in G. unfold gelems in El. rewrite Er in El. destruct El as [U P]. pose proof (full_cells r l G F U P) as Hl.
  assert (forall o, cnt (gc w) o = refs o (l ++ gvars w)) as C.
  { intros o. specialize (K o). unfold gtotal, gcells in K. rewrite Er in K. unfold gstart in K. cbn [gr gc gvars buf] in K. rewrite refs_repeat, refs_nil in K.
    assert (cnt [] o = 0) as Z by (now destruct o). rewrite Z in K. rewrite refs_app, Hl, refs_app. rewrite (refs_split o (rtail r) (buf r)) in K. lia. }
  split.
  - intros o. rewrite alive_cnt, C, refs_in. reflexivity.
  - intros o k Ek. apply cnt_some in Ek. now rewrite <- C.
Qed.
Lemma ring_leaks n ops w l o ops' w' : grun W (gstart n) ops = Ok w -> gelems w l -> In (Some o) l -> grun W w (GDestroy :: ops') = Ok w' -> alive (gc w') o.
Proof.
  intros E El Hx E'. pose proof (grun_sim ops (gstart n) (gstart_inv n)) as S. rewrite E in S.
  destruct (qrun W (gplain (gstart n)) ops); cbn [simg] in S; try contradiction. destruct S as (_ & I & _).
  cbn [grun] in E'. apply bind_ok in E' as (w1 & E1 & E2). pose proof (gstep_sim w GDestroy I) as B. rewrite E1 in B. cbn [qstep simg] in B. destruct B as [_ B].
  pose proof (gbetter_inv _ _ _ I B) as I1. pose proof (grun_sim ops' w1 I1) as S. rewrite E2 in S. destruct (qrun W (gplain w1) ops'); cbn [simg] in S; try contradiction.
  destruct S as (_ & I' & K & _). apply alive_cnt. specialize (B o). cbn [is_destroy] in B. specialize (K o). specialize (I o). pose proof (gelems_in w l o El Hx). lia.
Qed.
End Ring.
