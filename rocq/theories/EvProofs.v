(** The event system refines the one over lists. *)
From Coq Require Import List Arith ZArith Bool Lia Permutation.
From Verif Require Import Base KTimeModel KTimeSpec KTimeProofs TimersModel TimersSpec TimersProofs VectorModel VectorSpec VectorProofs
  PoolModel PoolSpec PoolProofs EvModel EvSpec.
Import ListNotations.
Local Open Scope nat_scope.

Lemma Forall2_length {A B} {P : A -> B -> Prop} {la lb} : Forall2 P la lb -> length la = length lb.
Proof. induction 1; simpl; auto. Qed.

Section Proofs.
Variable D : Type.
Variable nodata : D.
Variable W : Z.
Variable L : nat.
Variable dbg : bool.
Variable cfg : config.
Variable beh : list (entry D) -> list (act D).
Notation cap := (c_cap cfg).
Notation hcap := (c_handler_cap cfg).
Hypothesis HcapL : cap < L.
Hypothesis HcapW : (Z.of_nat cap < 2 ^ W)%Z.
Hypothesis HhcapW : (Z.of_nat hcap < 2 ^ W)%Z.
Hypothesis Hmax : (0 <= c_max_us cfg)%Z.
Notation idle := (kconv MS US (c_min_us cfg)).
Hypothesis Hidle : (0 <= idle)%Z.
Notation es := (es D).
Notation sp := (sp D).

(** Same kind of outcome; states related when both calls return. *)
Definition sim (Q : es -> sp -> Prop) (x : outcome es) (y : outcome sp) : Prop :=
  match x, y with
  | Ok a, Ok b => Q a b
  | Halt, Halt => True | UB, UB => True | Fuel, Fuel => True
  | _, _ => False
  end.

Lemma sim_bind (Q Q' : es -> sp -> Prop) x y f g :
  sim Q x y -> (forall a b, Q a b -> sim Q' (f a) (g b)) -> sim Q' (bind x f) (bind y g).
Proof.
  intros H1 H2. destruct x as [a| | | |], y as [b| | | |]; try contradiction H1; try exact I; cbn [bind].
  apply H2. exact H1.
Qed.

Lemma sim_weaken (Q Q' : es -> sp -> Prop) x y : (forall a b, Q a b -> Q' a b) -> sim Q x y -> sim Q' x y.
Proof. intros H. destruct x, y; simpl; auto. Qed.

Definition ematch (now : Z) (e : ev D) (x : pend D) : Prop :=
  afuture (e_timer D e) = fst x /\ e_id D e = fst (snd x) /\ e_data D e = snd (snd x) /\
  (aexpired (e_timer D e) = true -> (fst x <= near24 now)%Z).

Definition points (s : es) (o : nat) (x : pend D) : Prop :=
  exists e, nth_error (s_objs D s) o = Some e /\ ematch (s_now D s) e x.

(** A pointer the user keeps *)
Definition kpoints (s : es) (o : sptr) (x : option (nat * Z * D)) : Prop :=
  match o, x with
  | None, None => True
  | Some n, Some (id, t, d) => exists a, nth_error (s_objs D s) n = Some (mkEv D id d t a)
  | _, _ => False
  end.

Record R' (s : es) (p : sp) (ptrs : list nat) (pre post : list sptr) : Prop := {
  R_now : s_now D s = p_now D p;
  R_log : s_log D s = p_log D p;
  R_map : Forall2 (fun (v : vec sptr) (hs : list nat) => exists po : list sptr, vr W v (map Some hs) [] po /\ vmax v = hcap) (s_map D s) (p_hs D p);
  R_pipe : vr W (s_pipe D s) (map Some ptrs) pre post;
  R_clean : clean isnull pre post;
  R_max : vmax (s_pipe D s) = cap;
  R_pts : Forall2 (points s) ptrs (p_pend D p);
  R_pool : pv (s_pool D s) = mkVec (map Some (seq 0 cap)) 0 cap;
  R_objs : length (s_objs D s) = cap;
  R_busy : length (s_loc D s) = p_busy D p;
  R_kept : Forall2 (kpoints s) (s_kept D s) (p_kept D p);
  R_nodup : NoDup (ptrs ++ s_loc D s ++ somes (s_kept D s));
  R_lt : Forall (fun o => o < cap) (ptrs ++ s_loc D s ++ somes (s_kept D s))
}.
Definition R (s : es) (p : sp) : Prop := exists ptrs pre post, R' s p ptrs pre post.
(** handlers attached to an id stay attached *)
Definition keep (s0 s : es) : Prop := forall id v, nth_error (s_map D s0) id = Some v ->
  exists v', nth_error (s_map D s) id = Some v' /\ vh v' = vh v /\ vt v <= vt v' /\ firstn (vt v) (vst v') = firstn (vt v) (vst v).
(** events held by running calls stay as they are *)
Definition stay (l : list nat) (s0 s : es) : Prop := forall n, In n l -> nth_error (s_objs D s) n = nth_error (s_objs D s0) n.
Definition RL (s0 : es) (s : es) (p : sp) : Prop := R s p /\ s_loc D s = s_loc D s0 /\ keep s0 s /\ stay (s_loc D s0) s0 s.

Lemma stay_refl l s : stay l s s.
Proof. intros n H. reflexivity. Qed.
Lemma stay_eq l s0 s : s_objs D s = s_objs D s0 -> stay l s0 s.
Proof. intros E n H. now rewrite E. Qed.
Lemma stay_upd l s0 s o e : ~ In o l -> s_objs D s = upd (s_objs D s0) o e -> stay l s0 s.
Proof. intros Hn E n H. rewrite E. apply nth_error_upd_neq. intros ->. auto. Qed.
Lemma stay_trans l s0 s1 s2 : stay l s0 s1 -> stay l s1 s2 -> stay l s0 s2.
Proof. intros A B n H. rewrite (B n H). apply A; auto. Qed.

Lemma keep_refl s : keep s s.
Proof. intros id v H. exists v. auto. Qed.
Lemma keep_eq s0 s : s_map D s = s_map D s0 -> keep s0 s.
Proof. intros E id v H. exists v. rewrite E. auto. Qed.
Lemma keep_trans s0 s1 s2 : keep s0 s1 -> keep s1 s2 -> keep s0 s2.
Proof.
  intros K1 K2 id v Hv. destruct (K1 id v Hv) as (v1 & V1 & V2 & V3 & V4). destruct (K2 id v1 V1) as (v2 & U1 & U2 & U3 & U4).
  exists v2. splits; try congruence; try lia.
  assert (forall l : list sptr, firstn (vt v) l = firstn (vt v) (firstn (vt v1) l)) as Hf by (intros; rewrite firstn_firstn; f_equal; lia).
  rewrite (Hf (vst v2)), U4, <- Hf. exact V4.
Qed.

Lemma R_len s p ptrs pre post : R' s p ptrs pre post -> length ptrs = length (p_pend D p).
Proof. intros H. apply (Forall2_length (R_pts _ _ _ _ _ H)). Qed.

Lemma somes_app a b : somes (a ++ b) = somes a ++ somes b.
Proof. induction a as [|[x|] a IH]; simpl; auto. now rewrite IH. Qed.
Lemma somes_map l : somes (map Some l) = l.
Proof. induction l; simpl; congruence. Qed.
Lemma somes_null l : Forall isnull l -> somes l = [].
Proof. induction 1 as [|x l H _ IH]; simpl; auto. rewrite H. auto. Qed.

Lemma held_somes s ks xs : Forall2 (kpoints s) ks xs -> length (somes ks) = held D xs.
Proof.
  unfold held. induction 1 as [|o x ks xs H _ IH]; auto. destruct o as [n|], x as [[[id t] d]|]; cbn [kpoints] in H; try contradiction; cbn [somes flat_map length app]; auto.
Qed.
Lemma kpoints_upd s s' o e ks xs : ~ In o (somes ks) -> s_objs D s' = upd (s_objs D s) o e -> Forall2 (kpoints s) ks xs -> Forall2 (kpoints s') ks xs.
Proof.
  intros Hn E. induction 1 as [|q x ks xs H _ IH]; constructor.
  - destruct q as [n|], x as [[[id t] d]|]; cbn [kpoints] in *; try contradiction; auto. destruct H as (a & H). exists a. rewrite E.
    rewrite nth_error_upd_neq; auto. intros ->. apply Hn. left; auto.
  - apply IH. intros Hi. apply Hn. destruct q; [right|]; auto.
Qed.
Lemma kpoints_same s s' ks xs : s_objs D s' = s_objs D s -> Forall2 (kpoints s) ks xs -> Forall2 (kpoints s') ks xs.
Proof. intros E. induction 1 as [|q x ks xs H _ IH]; constructor; auto. unfold kpoints in *. rewrite E. exact H. Qed.

Lemma refs_eq s p ptrs pre post : R' s p ptrs pre post -> refs D s = ptrs ++ s_loc D s ++ somes (s_kept D s).
Proof.
  intros H. unfold refs. rewrite (vr_st _ _ _ _ _ (R_pipe _ _ _ _ _ H)), !somes_app, somes_map.
  destruct (R_clean _ _ _ _ _ H) as [C1 C2]. rewrite (somes_null _ C1), (somes_null _ C2), app_nil_r. reflexivity.
Qed.

Lemma count_seq n o : o < n -> count_occ sptr_dec (map Some (seq 0 n)) (Some o) = 1.
Proof.
  intros H. apply NoDup_count_occ'.
  - apply FinFun.Injective_map_NoDup; [intros a b E; congruence|apply seq_NoDup].
  - apply in_map. apply in_seq. lia.
Qed.

(** Pigeonhole: fewer than [n] used slots leave one free. *)
Lemma free_exists n (u : list nat) : length u < n -> exists o, o < n /\ ~ In o u.
Proof.
  intros H. destruct (find (fun o => negb (existsb (Nat.eqb o) u)) (seq 0 n)) as [o|] eqn:E.
  - apply find_some in E as [E1 E2]. apply in_seq in E1. exists o. split; [lia|]. intros Hi.
    apply negb_true_iff in E2. assert (existsb (Nat.eqb o) u = true) by (apply existsb_exists; exists o; split; auto; apply Nat.eqb_refl). congruence.
  - exfalso. assert (Hs : incl (seq 0 n) u).
    { intros o Ho. pose proof (find_none _ _ E o Ho) as F. apply negb_false_iff in F. apply existsb_exists in F as (x & Hx & E2).
      apply Nat.eqb_eq in E2. congruence. }
    apply NoDup_incl_length in Hs; [|apply seq_NoDup]. rewrite seq_length in Hs. lia.
Qed.

Lemma free_in_spec n u o : o < n -> free_in (map Some (seq 0 n)) u (Some o) = true <-> ~ In o u.
Proof.
  intros H. unfold free_in. rewrite count_seq by auto. rewrite Nat.eqb_eq.
  pose proof (count_occ_not_In Nat.eq_dec u o). split; intros E; [apply H0; lia|]. apply H0 in E. lia.
Qed.

Lemma prep_pool s p ptrs pre post : R' s p ptrs pre post ->
  prep W (mkPW (s_pool D s) (refs D s)) (map Some (seq 0 cap)) [] [].
Proof.
  intros H. split; simpl.
  - rewrite (R_pool _ _ _ _ _ H). constructor; simpl; rewrite ?app_nil_r, ?map_length, ?seq_length; auto.
  - split; constructor.
Qed.

(** event(): a slot or none *)
Lemma event_sim s p ptrs pre post id t d : R' s p ptrs pre post ->
  if length (p_pend D p) + p_busy D p + held D (p_kept D p) <? cap then
    exists o s', event D L dbg id t d s = Ok (Some o, s') /\ ~ In o (ptrs ++ s_loc D s ++ somes (s_kept D s)) /\ o < cap /\
      (exists a, nth_error (s_objs D s') o = Some (mkEv D id d t a)) /\
      R' s' (sp_busy D (S (p_busy D p)) p) ptrs pre post /\ s_loc D s' = o :: s_loc D s /\ s_map D s' = s_map D s /\ s_kept D s' = s_kept D s /\
      stay (s_loc D s) s s'
  else event D L dbg id t d s = (if dbg then Halt else Ok (None, snd (match event D L false id t d s with Ok x => x | _ => (None, s) end))).
Proof.
  intros H. pose proof (prep_pool _ _ _ _ _ H) as HP.
  assert (Hsz : pool_size (s_pool D s) = cap) by (unfold pool_size; rewrite (R_pool _ _ _ _ _ H); unfold vsize; simpl; lia).
  assert (Hacq : exists j, acquire L dbg (pool_size (s_pool D s)) (mkPW (s_pool D s) (refs D s)) =
    Ok (match find (free_in (map Some (seq 0 cap)) (refs D s)) (skipn (plook (s_pool D s)) (map Some (seq 0 cap)) ++ firstn (plook (s_pool D s)) (map Some (seq 0 cap))) with Some x => x | None => None end,
        mkPool (pv (s_pool D s)) j)).
  { destruct (acquire_exact W L dbg _ _ _ _ (pool_size (s_pool D s)) HP) as (j & E).
    - rewrite map_length, seq_length. auto.
    - rewrite map_length, seq_length. lia.
    - right. cbn [ppool]. rewrite (R_pool _ _ _ _ _ H). unfold vmax. reflexivity.
    - exists j. exact E. }
  assert (Hacqf : exists j, acquire L false (pool_size (s_pool D s)) (mkPW (s_pool D s) (refs D s)) =
    Ok (match find (free_in (map Some (seq 0 cap)) (refs D s)) (skipn (plook (s_pool D s)) (map Some (seq 0 cap)) ++ firstn (plook (s_pool D s)) (map Some (seq 0 cap))) with Some x => x | None => None end,
        mkPool (pv (s_pool D s)) j)).
  { destruct (acquire_exact W L false _ _ _ _ (pool_size (s_pool D s)) HP) as (j & E).
    - rewrite map_length, seq_length. auto.
    - rewrite map_length, seq_length. lia.
    - left. reflexivity.
    - exists j. exact E. }
  rewrite (refs_eq _ _ _ _ _ H) in *.
  set (u := ptrs ++ s_loc D s ++ somes (s_kept D s)) in *. assert (Hu : length u = length (p_pend D p) + p_busy D p + held D (p_kept D p)).
  { unfold u. rewrite !app_length, (R_len _ _ _ _ _ H), (R_busy _ _ _ _ _ H), (held_somes _ _ _ (R_kept _ _ _ _ _ H)). lia. }
  set (cands := skipn (plook (s_pool D s)) (map Some (seq 0 cap)) ++ firstn (plook (s_pool D s)) (map Some (seq 0 cap))) in *.
  assert (Hin : forall x, In x cands <-> In x (map Some (seq 0 cap))).
  { intros x. unfold cands. rewrite <- (firstn_skipn (plook (s_pool D s)) (map Some (seq 0 cap))) at 3. rewrite !in_app_iff. tauto. }
  rewrite <- Hu. destruct (Nat.ltb_spec (length u) cap) as [Hlt|Hge].
  - destruct Hacq as (j & E). destruct (find (free_in (map Some (seq 0 cap)) u) cands) as [x|] eqn:F.
    + pose proof F as F0. apply find_some in F as [F1 F2]. destruct x as [o|]; [|discriminate].
      apply Hin in F1. apply in_map_iff in F1 as (o' & Eo & F1). inversion Eo; subst o'. apply in_seq in F1.
      assert (o < cap) as Ho by lia. apply free_in_spec in F2; auto.
      destruct (nth_error (s_objs D s) o) as [e|] eqn:Ee; [|apply nth_error_None in Ee; rewrite (R_objs _ _ _ _ _ H) in Ee; lia].
      unfold event. rewrite (refs_eq _ _ _ _ _ H). fold u. rewrite E. cbn [bind]. rewrite sassert_true. cbn [bind s_objs]. rewrite Ee.
      assert (Hst : ~ In o (s_loc D s)) by (intros Hi; apply F2; unfold u; rewrite !in_app_iff; auto).
      do 2 eexists. split; [reflexivity|]. splits; auto; [| |eapply stay_upd; [exact Hst|reflexivity]].
      * exists (e_timer D e). cbn [hold set_obj s_objs]. apply nth_error_upd_eq. rewrite (R_objs _ _ _ _ _ H). auto.
      * destruct H. constructor; cbn [hold set_obj s_now s_log s_map s_pipe s_pool s_objs s_loc s_kept sp_busy p_now p_hs p_pend p_busy p_kept p_log]; auto.
        -- assert (Hnin : ~ In o ptrs) by (intros Hi; apply F2; unfold u; apply in_or_app; auto).
           clear -R_pts0 Hnin. induction R_pts0 as [|q x qs xs (e' & E1 & E2) _ IH]; constructor.
           ++ exists e'. cbn [hold set_obj s_objs s_now]. split; auto. rewrite nth_error_upd_neq; auto. intros ->. apply Hnin. left; auto.
           ++ apply IH. intros Hi. apply Hnin. right; auto.
        -- rewrite upd_length. auto.
        -- simpl. lia.
        -- eapply kpoints_upd; [|reflexivity|]; [intros Hi; apply F2; unfold u; rewrite !in_app_iff; auto|].
           eapply kpoints_same; [|exact R_kept0]. reflexivity.
        -- apply NoDup_Add with (a := o) (l := u); [|split; auto]. unfold u. apply Add_app.
        -- apply Forall_app in R_lt0 as [R1 R2]. apply Forall_app. split; auto. constructor; auto.
    + exfalso. destruct (free_exists cap u Hlt) as (o & Ho & Hn). pose proof (find_none _ _ F (Some o)) as F2.
      apply (free_in_spec cap u o Ho) in Hn. rewrite F2 in Hn; [discriminate|]. apply Hin. apply in_map. apply in_seq. lia.
  - destruct Hacq as (j & E). destruct Hacqf as (j' & E'). assert (find (free_in (map Some (seq 0 cap)) u) cands = None) as F.
    { destruct (find (free_in (map Some (seq 0 cap)) u) cands) as [x|] eqn:F; auto. exfalso.
      apply find_some in F as [F1 F2]. destruct x as [o|]; [|discriminate].
      apply Hin in F1. apply in_map_iff in F1 as (o' & Eo & F1). inversion Eo; subst o'. apply in_seq in F1.
      apply free_in_spec in F2; [|lia]. assert (Hn : NoDup (o :: u)) by (constructor; auto; apply (R_nodup _ _ _ _ _ H)).
      assert (incl (o :: u) (seq 0 cap)) as Hi.
      { intros q [<-|Hq]; apply in_seq; [lia|]. pose proof (R_lt _ _ _ _ _ H) as RL. rewrite Forall_forall in RL. specialize (RL q Hq). lia. }
      apply NoDup_incl_length in Hi; auto. rewrite seq_length in Hi. simpl in Hi. lia. }
    rewrite F in E, E'. unfold event. rewrite (refs_eq _ _ _ _ _ H). fold u. rewrite E, E'. cbn [bind].
    unfold sassert. destruct dbg; cbn [bind]; [reflexivity|]. cbn [bind snd]. congruence.
Qed.

(** ** Times as they are compared *)
Lemma until_near s e : until D s e = (afuture (e_timer D e) - near24 (s_now D s))%Z.
Proof. unfold until, alarm_time_from_now, ksub. rewrite from_other_same. reflexivity. Qed.
Lemma klt_near x y : klt MS MS x y = (x <? near24 y)%Z.
Proof. unfold klt. rewrite from_other_same. reflexivity. Qed.

(** The scan finds the position at which enqueue inserts. *)
Lemma scan_sim (s : es) e x : afuture (e_timer D e) = fst x ->
  forall (qs : list nat) ys i pre0, 
  vst (s_pipe D s) = pre0 ++ map Some qs ++ skipn (length pre0 + length qs) (vst (s_pipe D s)) -> length pre0 = vh (s_pipe D s) + i ->
  Forall2 (points s) qs ys ->
  let l := enqueue D (near24 (s_now D s)) x ys in
  exists k, push_scan D s e (length qs) i = Ok (i + k) /\ k <= length qs /\
    l = firstn k ys ++ x :: skipn k ys /\ (k = length qs -> l = ys ++ [x]).
Proof.
  intros He. induction qs as [|q qs IH]; intros ys i pre0 Hst Hl HF; inversion HF as [|? y ? ys' HP HF']; subst.
  - exists 0. simpl. splits; auto.
  - cbn [length push_scan map]. rewrite Hst. cbn [map app]. rewrite rd_app by auto. cbn [bind].
    destruct HP as (e' & E1 & E2). unfold deref. rewrite E1. cbn [bind].
    rewrite !until_near. destruct E2 as (E2 & _). rewrite He, E2. rewrite klt_near.
    cbn [enqueue]. destruct (fst x - near24 (s_now D s) <? near24 (fst y - near24 (s_now D s)))%Z.
    + exists 0. rewrite Nat.add_0_r. splits; auto; try lia.
    + destruct (IH ys' (i + 1) (pre0 ++ [Some q])) as (k & K1 & K2 & K3 & K4); auto.
      { rewrite Hst at 1. rewrite <- app_assoc. cbn [map app]. do 3 f_equal. rewrite app_length. simpl. f_equal; lia. }
      { rewrite app_length. simpl. lia. }
      exists (S k). rewrite K1. splits.
      * f_equal. lia.
      * lia.
      * cbn [firstn skipn app]. rewrite K3. reflexivity.
      * intros E. cbn [app]. rewrite K4 by lia. reflexivity.
Qed.

Lemma insert_at_firstn {B} k (x : B) l : k <= length l -> insert_at k x l = firstn k l ++ x :: skipn k l.
Proof. reflexivity. Qed.

Lemma Forall2_insert {A B} (P : A -> B -> Prop) k a b la lb : Forall2 P la lb -> P a b ->
  Forall2 P (firstn k la ++ a :: skipn k la) (firstn k lb ++ b :: skipn k lb).
Proof.
  intros H Hp. revert k. induction H as [|x y la lb Hxy H IH]; intros [|k]; simpl; repeat constructor; auto. 
Qed.

Lemma map_insert {A B} (f : A -> B) k x l : map f (firstn k l ++ x :: skipn k l) = firstn k (map f l) ++ f x :: skipn k (map f l).
Proof. rewrite map_app, firstn_map, skipn_map. reflexivity. Qed.

Lemma Perm_insert {A} k (x : A) l : Permutation (firstn k l ++ x :: skipn k l) (x :: l).
Proof. rewrite <- Permutation_middle, firstn_skipn. reflexivity. Qed.

(** The pool is never overdrawn. *)
Lemma R_cap s p ptrs pre post : R' s p ptrs pre post -> length (p_pend D p) + p_busy D p + held D (p_kept D p) <= cap.
Proof.
  intros H. rewrite <- (R_len _ _ _ _ _ H), <- (R_busy _ _ _ _ _ H), <- (held_somes _ _ _ (R_kept _ _ _ _ _ H)).
  assert (incl (ptrs ++ s_loc D s ++ somes (s_kept D s)) (seq 0 cap)) as Hi.
  { intros q Hq. apply in_seq. pose proof (R_lt _ _ _ _ _ H) as HL. rewrite Forall_forall in HL. specialize (HL q Hq). lia. }
  apply NoDup_incl_length in Hi; [|apply (R_nodup _ _ _ _ _ H)]. rewrite seq_length, !app_length in Hi. lia.
Qed.

(** push() of an event held by the caller *)
Lemma push_sim s1 p1 o l id t d a0 : R s1 p1 -> s_loc D s1 = o :: l -> nth_error (s_objs D s1) o = Some (mkEv D id d t a0) ->
  sim (fun s2 p2 => R s2 p2 /\ s_loc D s2 = l /\ s_map D s2 = s_map D s1 /\ stay l s1 s2)
    (s2 <- push D W dbg (Some o) s1 ;; Ok (release D o s2)) (sp_push D dbg id t d (sp_busy D (p_busy D p1 - 1) p1)).
Proof.
  intros (ptrs & pre & post & H1) Hl1 Ea. unfold sp_push. cbn [sp_busy p_now p_hs p_pend p_busy p_kept p_log].
  pose proof (R_cap _ _ _ _ _ H1) as Hcap. pose proof (R_busy _ _ _ _ _ H1) as Hb. rewrite Hl1 in Hb. cbn [length] in Hb.
  assert (Ho : o < cap). { pose proof (R_lt _ _ _ _ _ H1) as HL. rewrite Hl1 in HL. rewrite Forall_forall in HL. apply HL. rewrite in_app_iff. right. left. reflexivity. }
  pose proof (R_nodup _ _ _ _ _ H1) as HN. rewrite Hl1 in HN. cbn [app] in HN. apply NoDup_remove in HN as [HN HNo].
  assert (Hnp : ~ In o ptrs) by (intros Hi; apply HNo; apply in_or_app; auto).
  assert (Hnk : ~ In o (somes (s_kept D s1))) by (intros Hi; apply HNo; rewrite !in_app_iff; auto).
  unfold push. pose proof (vr_size W _ _ _ _ (R_pipe _ _ _ _ _ H1)) as Hs1. rewrite map_length, (R_len _ _ _ _ _ H1) in Hs1.
  rewrite (R_max _ _ _ _ _ H1), Hs1. destruct (Nat.ltb_spec (length (p_pend D p1)) cap) as [Hp|]; [|lia]. rewrite sassert_true. cbn [bind].
  unfold deref. rewrite Ea. cbn [bind e_tfn e_id e_data].
  assert (kne MS MS 0 0 = false) as -> by reflexivity.
  assert (kgt MS MS t 0 = (0 <? t)%Z) as -> by (unfold kgt; rewrite from_other_same; reflexivity).
  destruct (sassert dbg (0 <? t)%Z) eqn:Es; cbn [bind]; try exact I;
    try (unfold sassert in Es; destruct (0 <? t)%Z, dbg; discriminate).
  assert (Ew : s_now D s1 = p_now D p1) by (apply (R_now _ _ _ _ _ H1)).
  assert (alarm_new dbg (s_now D s1) t false = Ok (mkAlarm (p_now D p1 + near24 t) false)) as ->.
  { unfold alarm_new. rewrite Ew. unfold kadd. rewrite from_other_same. reflexivity. }
  cbn [bind afuture].
  set (e1 := mkEv D id d t (mkAlarm (p_now D p1 + near24 t) false)).
  set (s2 := set_obj D o e1 s1). set (x := ((p_now D p1 + near24 t)%Z, (id, d))).
  assert (Hpt2 : Forall2 (points s2) ptrs (p_pend D p1)).
  { pose proof (R_pts _ _ _ _ _ H1) as HF. clear -HF Hnp.
    induction HF as [|q y qs ys (e' & E1 & E2) _ IH]; constructor.
    - exists e'. cbn [set_obj s_objs s_now]. split; auto. unfold s2, set_obj; cbn [s_objs]. rewrite nth_error_upd_neq; auto. intros ->. apply Hnp. left; auto.
    - apply IH. intros Hi. apply Hnp. right; auto. }
  assert (Hpx : points s2 o x).
  { exists e1. unfold s2, set_obj; cbn [s_objs s_now]. split.
    - apply nth_error_upd_eq. rewrite (R_objs _ _ _ _ _ H1). auto.
    - unfold ematch, e1, x; simpl. splits; auto; discriminate. }
  pose proof (vr_st _ _ _ _ _ (R_pipe _ _ _ _ _ H1)) as Hst.
  destruct (scan_sim s2 e1 x) with (qs := ptrs) (ys := p_pend D p1) (i := 0) (pre0 := pre) as (k & K1 & K2 & K3 & K4); auto.
  { unfold s2, set_obj; cbn [s_pipe]. rewrite Hst. f_equal. f_equal. rewrite app_assoc. rewrite (skipn_app_exact (pre ++ map Some ptrs) post); auto. rewrite app_length, map_length. reflexivity. }
  { unfold s2, set_obj; cbn [s_pipe]. rewrite (vr_h _ _ _ _ _ (R_pipe _ _ _ _ _ H1)). symmetry; apply Nat.add_0_r. }
  change (s_now D s2) with (s_now D s1) in K3, K4. rewrite Ew in K3, K4.
  assert (vsize (s_pipe D s2) = length ptrs) as Hs2 by (unfold s2, set_obj; cbn [s_pipe]; rewrite Hs1; rewrite (R_len _ _ _ _ _ H1); reflexivity).
  rewrite Hs2. rewrite K1. cbn [bind]. rewrite Nat.add_0_l. change (s_pipe D s2) with (s_pipe D s1) in *.
  (* the vector operation *)
  assert (HV : exists v pre' post', (if k <? length ptrs
      then v <- @insert sptr None W dbg (s_pipe D s1) k (Some o);; sassert dbg (length ptrs + 1 =? vsize v);;; Ok v
      else @push_back sptr None W dbg (s_pipe D s1) (Some o)) = Ok v /\
      vr W v (map Some (firstn k ptrs ++ o :: skipn k ptrs)) pre' post' /\ vmax v = cap /\ clean isnull pre' post').
  { destruct (Nat.ltb_spec k (length ptrs)) as [Hk|Hk].
    - destruct (@insert_vr sptr None W isnull eq_refl dbg (s_pipe D s1) (map Some ptrs) pre post k (Some o) (R_pipe _ _ _ _ _ H1)) as (v & pre' & post' & V1 & V2 & V3 & V4).
      { rewrite map_length, (R_max _ _ _ _ _ H1), (R_len _ _ _ _ _ H1). auto. }
      exists v, pre', post'. rewrite V1. cbn [bind]. rewrite (vr_size W _ _ _ _ V2). rewrite insert_at_firstn in * by (rewrite map_length; lia).
      rewrite <- map_insert in *. splits; auto.
      + rewrite map_length, app_length. simpl. rewrite firstn_length, skipn_length. destruct (Nat.eqb_spec (length ptrs + 1) (min k (length ptrs) + S (length ptrs - k))); [reflexivity|lia].
      + rewrite V3. apply (R_max _ _ _ _ _ H1).
      + apply V4. apply (R_clean _ _ _ _ _ H1).
    - assert (k = length ptrs) as -> by lia.
      destruct (@push_back_vr sptr None W isnull eq_refl dbg (s_pipe D s1) (map Some ptrs) pre post (Some o) (R_pipe _ _ _ _ _ H1)) as (v & pre' & post' & V1 & _ & V2 & V3 & V4).
      { rewrite map_length, (R_max _ _ _ _ _ H1), (R_len _ _ _ _ _ H1). auto. }
      exists v, pre', post'. rewrite V1. rewrite firstn_all, skipn_all. rewrite map_app. splits; auto.
      + rewrite V3. apply (R_max _ _ _ _ _ H1).
      + apply V4. apply (R_clean _ _ _ _ _ H1). }
  destruct HV as (v & pre' & post' & V1 & V2 & V3 & V4). rewrite V1. cbn [bind sim].
  assert (Hloc : drop_one o (s_loc D s1) = l) by (rewrite Hl1; simpl; rewrite Nat.eqb_refl; reflexivity).
  splits; [|exact Hloc|reflexivity|apply (stay_upd l s1 _ o e1); [intros Hi; apply HNo; rewrite !in_app_iff; auto|reflexivity]].
  exists (firstn k ptrs ++ o :: skipn k ptrs), pre', post'. destruct H1.
  assert (Hperm : Permutation ((firstn k ptrs ++ o :: skipn k ptrs) ++ l ++ somes (s_kept D s1)) (ptrs ++ s_loc D s1 ++ somes (s_kept D s1))).
  { rewrite Hl1, Perm_insert. cbn [app]. rewrite <- Permutation_middle. reflexivity. }
  constructor; cbn [release log_add set_pipe s2 set_obj s_now s_log s_map s_pipe s_pool s_objs s_loc s_kept sp_log p_now p_hs p_pend p_busy p_kept p_log e_id e_data] in *; auto.
  + unfold e1. cbn [e_id e_data]. congruence.
  + fold x. rewrite K3. apply Forall2_insert; auto.
  + rewrite upd_length. auto.
  + rewrite Hloc. lia.
  + eapply kpoints_upd; [exact Hnk|reflexivity|exact R_kept0].
  + rewrite Hloc. eapply Permutation_NoDup; [symmetry; exact Hperm|]. auto.
  + rewrite Hloc. eapply Permutation_Forall; [symmetry; exact Hperm|]. auto.
Qed.

Lemma busy_back p : sp_busy D (p_busy D (sp_busy D (S (p_busy D p)) p) - 1) (sp_busy D (S (p_busy D p)) p) = p.
Proof. destruct p. unfold sp_busy. simpl. rewrite Nat.sub_0_r. reflexivity. Qed.

(** schedule() *)
Lemma schedule_sim s p id t d : R s p ->
  sim (RL s) (schedule D W L dbg id t d s) (sp_schedule D dbg cap id t d p).
Proof.
  intros HR. unfold sp_schedule. destruct HR as (ptrs & pre & post & H).
  pose proof (event_sim s p ptrs pre post id t d H) as HE. unfold schedule, slot. unfold event in *.
  fold (event D L dbg id t d s) in *. fold (event D L false id t d s) in *.
  destruct (Nat.ltb_spec (length (p_pend D p) + p_busy D p + held D (p_kept D p)) cap) as [Hc|Hc].
  2:{ rewrite HE. destruct dbg; simpl; [exact I|]. unfold push. destruct (sassert_ok false (vsize (s_pipe D (snd match event D L false id t d s with Ok x => x | _ => (None, s) end)) <? vmax (s_pipe D (snd match event D L false id t d s with Ok x => x | _ => (None, s) end)))) as [E|[E _]]; [|discriminate].
      rewrite E. simpl. exact I. }
  destruct HE as (o & s1 & E & Hn & Ho & (a0 & Ea) & H1 & Hl1 & Hm1 & Hk1 & Hy1). rewrite E. cbn [bind].
  pose proof (push_sim s1 (sp_busy D (S (p_busy D p)) p) o (s_loc D s) id t d a0 ltac:(do 3 eexists; exact H1) Hl1 Ea) as HP.
  rewrite busy_back in HP.
  eapply sim_weaken; [|exact HP]. intros a b (HA & HB & HC & HD). unfold RL. splits; auto; [apply keep_eq; congruence|eapply stay_trans; eauto].
Qed.

(** attach() *)
Lemma Forall2_nth {A B} (P : A -> B -> Prop) la lb i : Forall2 P la lb ->
  match nth_error la i, nth_error lb i with Some a, Some b => P a b | None, None => True | _, _ => False end.
Proof. intros H. revert i. induction H; intros [|i]; simpl; auto. apply IHForall2. Qed.

Lemma Forall2_upd {A B} (P : A -> B -> Prop) la lb i a b : Forall2 P la lb -> P a b -> Forall2 P (upd la i a) (upd lb i b).
Proof. intros H Hp. revert i. induction H; intros [|i]; simpl; constructor; auto. Qed.

Lemma attach_sim s p id h : R s p -> sim (RL s) (attach D W dbg cfg id h s) (sp_attach D dbg hcap id h p).
Proof.
  intros (ptrs & pre & post & H). unfold attach, sp_attach.
  pose proof (Forall2_nth _ _ _ id (R_map _ _ _ _ _ H)) as HN. pose proof (Forall2_length (R_map _ _ _ _ _ H)) as HL.
  revert HN. destruct (nth_error (s_map D s) id) as [v|] eqn:E1, (nth_error (p_hs D p) id) as [hs|] eqn:E2; intros HN; try contradiction.
  - assert (id < length (s_map D s)) by (apply nth_error_Some; congruence).
    destruct (Nat.ltb_spec id (length (s_map D s))); [|lia]. rewrite sassert_true. cbn [bind].
    destruct HN as (po & V & M). pose proof (vr_size W _ _ _ _ V) as Hs. rewrite map_length in Hs. rewrite Hs.
    destruct (Nat.ltb_spec (length hs) hcap) as [Hc|Hc].
    + rewrite sassert_true. cbn [bind].
      destruct (@push_back_vr sptr None W isnull eq_refl dbg v (map Some hs) [] po (Some h) V) as (v' & pre' & post' & V1 & _ & V2 & V3 & _).
      { rewrite map_length. lia. }
      assert (pre' = []) as ->.
      { unfold push_back in V1. rewrite (vr_h _ _ _ _ _ V) in V1. simpl in V1. rewrite andb_false_r in V1. cbn [bind] in V1.
        destruct (sassert dbg (vt v <? vmax v)); cbn [bind] in V1; try discriminate.
        pose proof (vr_h _ _ _ _ _ V2) as Hh.
        destruct (vt v <? vmax v); [destruct (wr (vst v) (vt v) (Some h)); cbn [bind] in V1; try discriminate|]; inversion V1; subst; simpl in Hh.
        - rewrite (vr_h _ _ _ _ _ V) in Hh. destruct pre'; [reflexivity|discriminate].
        - rewrite (vr_h _ _ _ _ _ V) in Hh. destruct pre'; [reflexivity|discriminate]. }
      rewrite V1. cbn [bind sim]. unfold RL. splits; [|reflexivity| |apply stay_eq; reflexivity].
      2:{ intros id' v0 Hv0. cbn [s_map]. destruct (Nat.eq_dec id' id) as [->|Hne].
          - rewrite E1 in Hv0. inversion Hv0; subst v0. exists v'. rewrite nth_error_upd_eq by auto.
            rewrite (vr_h _ _ _ _ _ V), (vr_h _ _ _ _ _ V2), (vr_t _ _ _ _ _ V), (vr_t _ _ _ _ _ V2), (vr_st _ _ _ _ _ V), (vr_st _ _ _ _ _ V2).
            splits; auto.
            + rewrite app_length. simpl. lia.
            + cbn [app length Nat.add]. rewrite <- app_assoc. rewrite !firstn_app_exact by reflexivity. reflexivity.
          - exists v0. rewrite nth_error_upd_neq by auto. auto. }
      exists ptrs, pre, post. destruct H.
      constructor; cbn [s_now s_log s_map s_pipe s_pool s_objs s_loc s_kept p_now p_hs p_pend p_busy p_kept p_log]; auto.
      apply Forall2_upd; auto. exists post'. rewrite map_app. cbn [map]. split; auto. lia.
    + unfold sassert. destruct dbg eqn:Ed; [exact I|]. cbn [bind].
      assert (po = []) as ->. { pose proof (vr_max W _ _ _ _ V) as Hm. rewrite M, map_length in Hm. simpl in Hm. destruct po; [reflexivity|simpl in Hm; lia]. }
      destruct (@push_back_full sptr None W false v (map Some hs) V) as [_ E]. rewrite E. cbn [bind sim].
      assert (upd (s_map D s) id v = s_map D s) as ->.
      { clear -E1. revert id E1. induction (s_map D s) as [|y m IH]; intros [|id] E1; simpl in *; try discriminate; [congruence|]. f_equal. auto. }
      unfold RL. splits; [|reflexivity|apply keep_eq; reflexivity|apply stay_eq; reflexivity]. exists ptrs, pre, post. destruct s; exact H.
  - assert (length (s_map D s) <= id) by (apply nth_error_None; auto).
    destruct (Nat.ltb_spec id (length (s_map D s))); [lia|]. unfold sassert. destruct dbg; exact I.
Qed.

Lemma wait_R s p dt : (0 <= dt)%Z -> R s p -> RL s (advance D dt s) (mkSp D (p_now D p + dt) (p_hs D p) (p_pend D p) (p_busy D p) (p_kept D p) (p_log D p)).
Proof.
  intros Hdt (ptrs & pre & post & H). unfold RL. splits; [|reflexivity|apply keep_eq; reflexivity|apply stay_eq; reflexivity]. exists ptrs, pre, post. destruct H.
  constructor; cbn [advance s_now s_log s_map s_pipe s_pool s_objs s_loc s_kept p_now p_hs p_pend p_busy p_kept p_log]; auto; try lia.
  - clear -R_pts0 Hdt. induction R_pts0 as [|o x l l' (e & E1 & E2 & E3 & E4 & E5) _ IH]; constructor; auto.
    exists e. cbn [s_objs s_now advance]. unfold ematch. splits; auto. intros Hx. specialize (E5 Hx).
    pose proof (near24_mono (s_now D s) (s_now D s + dt) ltac:(lia)). lia.
Qed.

Lemma log_R s p x : R s p -> RL s (log_add D x s) (sp_log D x p).
Proof.
  intros (ptrs & pre & post & H). unfold RL. splits; [|reflexivity|apply keep_eq; reflexivity|apply stay_eq; reflexivity]. exists ptrs, pre, post. destruct H.
  constructor; cbn [log_add sp_log s_now s_log s_map s_pipe s_pool s_objs s_loc s_kept p_now p_hs p_pend p_busy p_kept p_log]; auto. congruence.
Qed.

Section Calls.
Variable rec : act D -> es -> outcome es.
Variable srec : act D -> sp -> outcome sp.
Hypothesis Hrec : forall a s p, R s p -> sim (RL s) (rec a s) (srec a p).
Lemma RL_trans s0 s1 s p : RL s0 s1 p -> forall p', RL s1 s p' -> RL s0 s p'.
Proof.
  intros (_ & E & K & T) p' (H & E' & K' & T'). unfold RL. splits; auto; [congruence|eapply keep_trans; eauto|].
  eapply stay_trans; [exact T|]. rewrite <- E. exact T'.
Qed.

Lemma acts_sim l s p : R s p -> sim (RL s) (do_acts D rec l s) (sp_acts D srec l p).
Proof.
  revert s p. induction l as [|a l IH]; intros s p H; simpl.
  - unfold RL; splits; auto using keep_refl, stay_refl.
  - eapply sim_bind; [apply Hrec; auto|].
    intros s1 p1 H1. specialize (IH s1 p1 (proj1 H1)). eapply sim_weaken; [|exact IH]. intros. eapply RL_trans; eauto.
Qed.

Lemma calls_sim id d : forall hs done s p v, R s p -> nth_error (s_map D s) id = Some v ->
  (exists t, length t = vt v /\ vh v = 0 /\ firstn (length (done ++ hs)) t = map Some (done ++ hs) /\ firstn (vt v) (vst v) = t) ->
  sim (RL s) (call_handlers D beh rec id d (length hs) (length done) s) (sp_calls D beh srec id d hs p).
Proof.
  induction hs as [|h hs IH]; intros done s p v H Hv HT.
  - simpl. unfold RL; splits; auto using keep_refl, stay_refl.
  - cbn [length call_handlers sp_calls]. rewrite Hv.
    destruct HT as (t & T1 & T2 & T3 & T4).
    assert (Hh : rd (vst v) (length done) = Ok (Some h)).
    { apply rd_ok.
      assert (Hle : length (done ++ h :: hs) <= vt v).
      { rewrite <- T1. assert (length (firstn (length (done ++ h :: hs)) t) = length (done ++ h :: hs)) as Hx by (rewrite T3, map_length; reflexivity).
        rewrite firstn_length in Hx. lia. }
      rewrite app_length in *. simpl in *.
      transitivity (nth_error (firstn (length done + S (length hs)) t) (length done)).
      - rewrite !nth_error_firstn, <- T4, nth_error_firstn. destruct (Nat.ltb_spec (length done) (length done + S (length hs))), (Nat.ltb_spec (length done) (vt v)); try lia. reflexivity.
      - rewrite T3. rewrite map_app. cbn [map]. rewrite nth_error_app_exact; auto. now rewrite map_length. }
    rewrite Hh. cbn [bind].
    assert (E1 : s_now D s = p_now D p /\ s_log D s = p_log D p).
    { destruct H as (q & pr & po & H). split; [apply (R_now _ _ _ _ _ H)|apply (R_log _ _ _ _ _ H)]. }
    destruct E1 as [E1 E2]. rewrite E1.
    assert (E3 : s_log D (log_add D (LCall D h id d (p_now D p)) s) = p_log D (sp_log D (LCall D h id d (p_now D p)) p)) by (simpl; congruence).
    rewrite E3.
    pose proof (log_R s p (LCall D h id d (p_now D p)) H) as HL.
    eapply sim_bind; [apply acts_sim; exact (proj1 HL)|].
    intros s2 p2 HS.
    destruct (proj1 (proj2 (proj2 HS)) id v Hv) as (v2 & V1 & V2 & V3 & V4).
    replace (length done + 1) with (length (done ++ [h])) by (rewrite app_length; reflexivity).
    specialize (IH (done ++ [h]) s2 p2 v2 (proj1 HS) V1).
    assert (HR : RL s s2 p2) by (unfold RL; splits; [apply (proj1 HS)|rewrite (proj1 (proj2 HS)); reflexivity|apply (proj1 (proj2 (proj2 HS)))|apply (proj2 (proj2 (proj2 HS)))]).
    eapply sim_weaken; [intros a b Hab; eapply RL_trans; [exact HR|exact Hab]|]. apply IH.
    exists (firstn (vt v2) (vst v2)).
    assert (Hle : length (done ++ h :: hs) <= vt v).
    { rewrite <- T1. assert (length (firstn (length (done ++ h :: hs)) t) = length (done ++ h :: hs)) as Hx by (rewrite T3, map_length; reflexivity).
      rewrite firstn_length in Hx. lia. }
    splits; auto.
    + rewrite firstn_length. destruct (proj1 HS) as (q & pr & po & H2). pose proof (Forall2_nth _ _ _ id (R_map _ _ _ _ _ H2)) as HN.
      rewrite V1 in HN. destruct (nth_error (p_hs D p2) id); [|contradiction]. destruct HN as (po2 & U & _).
      rewrite (vr_st _ _ _ _ _ U), (vr_t _ _ _ _ _ U). simpl. rewrite app_length. lia.
    + congruence.
    + rewrite <- app_assoc. cbn [app]. rewrite firstn_firstn. replace (Init.Nat.min (length (done ++ h :: hs)) (vt v2)) with (length (done ++ h :: hs)) by lia.
      rewrite <- T3. assert (Hf : forall l : list sptr, firstn (length (done ++ h :: hs)) l = firstn (length (done ++ h :: hs)) (firstn (vt v) l)) by (intros; rewrite firstn_firstn; f_equal; lia).
      rewrite (Hf (vst v2)), V4, T4. reflexivity.
Qed.

Lemma trigger_sim id d s p : R s p -> sim (RL s) (trigger_ev D dbg beh rec id d s) (sp_trigger D dbg beh srec id d p).
Proof.
  intros HR. pose proof HR as (ptrs & pre & post & H). unfold trigger_ev, sp_trigger.
  pose proof (Forall2_nth _ _ _ id (R_map _ _ _ _ _ H)) as HN.
  revert HN. destruct (nth_error (s_map D s) id) as [v|] eqn:E1, (nth_error (p_hs D p) id) as [hs|] eqn:E2; intros HN; try contradiction.
  - assert (id < length (s_map D s)) by (apply nth_error_Some; congruence).
    destruct (Nat.ltb_spec id (length (s_map D s))); [|lia]. rewrite sassert_true. cbn [bind].
    destruct HN as (po & V & M). pose proof (vr_size W _ _ _ _ V) as Hs. rewrite map_length in Hs. unfold vempty. rewrite Hs.
    destruct (sassert dbg (negb (length hs =? 0))) eqn:Es; cbn [bind]; try exact I;
      try (unfold sassert in Es; destruct (negb (length hs =? 0)), dbg; discriminate).
    rewrite (vr_h _ _ _ _ _ V). apply (calls_sim id d hs [] s p v HR E1).
    exists (firstn (vt v) (vst v)). rewrite (vr_st _ _ _ _ _ V), (vr_t _ _ _ _ _ V), (vr_h _ _ _ _ _ V). simpl. rewrite map_length. splits; auto.
    + rewrite firstn_length, app_length, map_length. lia.
    + rewrite firstn_firstn, Nat.min_id, (firstn_app_exact (map Some hs) po); auto. now rewrite map_length.
  - assert (length (s_map D s) <= id) by (apply nth_error_None; auto).
    destruct (Nat.ltb_spec id (length (s_map D s))); [lia|]. unfold sassert. destruct dbg; exact I.
Qed.

End Calls.

Lemma release_R s p o l : R s p -> s_loc D s = o :: l -> R (release D o s) (sp_busy D (p_busy D p - 1) p) /\ s_loc D (release D o s) = l.
Proof.
  intros (ptrs & pre & post & H) E.
  assert (Hloc : drop_one o (s_loc D s) = l) by (rewrite E; simpl; rewrite Nat.eqb_refl; reflexivity).
  split; [|exact Hloc]. exists ptrs, pre, post. destruct H. rewrite E in *.
  constructor; cbn [release sp_busy s_now s_log s_map s_pipe s_pool s_objs s_loc s_kept p_now p_hs p_pend p_busy p_kept p_log]; rewrite ?E; auto;
    change (drop_one o (o :: l)) with (if o =? o then l else o :: drop_one o l); rewrite Nat.eqb_refl.
  - simpl in R_busy0. lia.
  - eapply NoDup_remove_1; eauto.
  - apply Forall_app in R_lt0 as [A B]. inversion B; subst. apply Forall_app; auto.
Qed.

(** ** loop() *)
Lemma alarm_expired_at now e x : ematch now e x ->
  exists a, alarm_expired now (e_timer D e) = ((fst x <=? near24 now)%Z, a) /\ ematch now (mkEv D (e_id D e) (e_data D e) (e_tfn D e) a) x /\
    afuture a = fst x.
Proof.
  intros (E1 & E2 & E3 & E4). unfold alarm_expired. destruct (aexpired (e_timer D e)) eqn:Ex.
  - exists (e_timer D e). specialize (E4 eq_refl). destruct (Z.leb_spec (fst x) (near24 now)); [|lia]. splits; auto.
    unfold ematch; cbn [e_timer e_id e_data]. splits; auto.
  - unfold kle. rewrite from_other_same, E1. destruct (Z.leb_spec (fst x) (near24 now)).
    + eexists. splits; [reflexivity| |reflexivity]. unfold ematch; cbn [e_timer e_id e_data afuture aexpired]. splits; auto.
    + eexists. splits; [reflexivity| |exact E1]. unfold ematch; cbn [e_timer e_id e_data]. splits; auto. congruence.
Qed.

(** The object behind the front pointer may be updated as long as it still matches. *)
Lemma set_obj_pts s o e x qs xs : points s o x -> ematch (s_now D s) e x -> ~ In o qs -> Forall2 (points s) qs xs ->
  Forall2 (points (set_obj D o e s)) (o :: qs) (x :: xs).
Proof.
  intros (e0 & E1 & _) Em Hn HF. constructor.
  - exists e. cbn [set_obj s_objs s_now]. split; auto. apply nth_error_upd_eq. apply nth_error_Some. congruence.
  - induction HF as [|q y qs ys (e' & E3 & E4) _ IH]; constructor.
    + exists e'. cbn [set_obj s_objs s_now]. split; auto. rewrite nth_error_upd_neq; auto. intros ->. apply Hn. left; auto.
    + apply IH. intros Hi. apply Hn. right; auto.
Qed.

Lemma contains_sim s p : R s p ->
  exists s1, contains_expired D dbg s = Ok (match p_pend D p with [] => false | x :: _ => (fst x <=? near24 (p_now D p))%Z end, s1) /\
    R s1 p /\ s_loc D s1 = s_loc D s /\ s_map D s1 = s_map D s /\ stay (s_loc D s) s s1.
Proof.
  intros (ptrs & pre & post & H). unfold contains_expired, vempty. pose proof (vr_size W _ _ _ _ (R_pipe _ _ _ _ _ H)) as Hs.
  rewrite map_length in Hs. rewrite Hs. pose proof (R_pts _ _ _ _ _ H) as HP. pose proof (R_now _ _ _ _ _ H) as Ew.
  destruct (p_pend D p) as [|x xs] eqn:Ep; inversion HP as [|o ? qs ? HPo HPq E0]; subst ptrs.
  - simpl. exists s. splits; auto using stay_refl. exists [], pre, post. exact H.
  - cbn [length Nat.eqb]. unfold peek_front. rewrite Hs. cbn [length].
    change (0 <? S (length qs)) with true. rewrite sassert_true. cbn [bind].
    rewrite (vr_st _ _ _ _ _ (R_pipe _ _ _ _ _ H)). cbn [map app]. rewrite rd_app by (apply (vr_h _ _ _ _ _ (R_pipe _ _ _ _ _ H))). cbn [bind].
    pose proof HPo as (e & E1 & E2). unfold deref. rewrite E1. cbn [bind]. rewrite Ew in E2.
    destruct (alarm_expired_at _ _ _ E2) as (a & Ea & Em & _). rewrite Ew. rewrite Ea. eexists. split; [reflexivity|].
    assert (Hst : ~ In o (s_loc D s)). { pose proof (R_nodup _ _ _ _ _ H) as N0. inversion N0 as [|? ? N _]; subst. intros Hi. apply N. rewrite !in_app_iff; auto. }
    splits; auto; [|eapply stay_upd; [exact Hst|reflexivity]].
    exists (o :: qs), pre, post. destruct H. rewrite Ep in *.
    assert (Hnin : ~ In o qs). { inversion R_nodup0 as [|? ? N _]; subst. intros Hi. apply N. apply in_or_app; auto. }
    constructor; cbn [set_obj s_now s_log s_map s_pipe s_pool s_objs s_loc s_kept] in *; rewrite ?Ep; auto.
    + apply set_obj_pts; auto. rewrite Ew. exact Em.
    + rewrite upd_length. auto.
    + eapply kpoints_upd; [|reflexivity|exact R_kept0]. inversion R_nodup0 as [|? ? N _]; subst. intros Hi. apply N. rewrite !in_app_iff; auto.
Qed.

Lemma expire_sim s p x xs : R s p -> p_pend D p = x :: xs -> (fst x <= near24 (p_now D p))%Z ->
  exists o s1 e, expire D dbg s = Ok (Some o, s1) /\ nth_error (s_objs D s1) o = Some e /\ ematch (p_now D p) e x /\
    R s1 (mkSp D (p_now D p) (p_hs D p) xs (S (p_busy D p)) (p_kept D p) (p_log D p)) /\ s_loc D s1 = o :: s_loc D s /\ s_map D s1 = s_map D s /\
    stay (s_loc D s) s s1.
Proof.
  intros (ptrs & pre & post & H) Ep Hx. unfold expire, vempty. pose proof (vr_size W _ _ _ _ (R_pipe _ _ _ _ _ H)) as Hs.
  rewrite map_length in Hs. rewrite Hs. pose proof (R_pts _ _ _ _ _ H) as HP. pose proof (R_now _ _ _ _ _ H) as Ew.
  rewrite Ep in HP. inversion HP as [|o ? qs ? HPo HPq E0]; subst ptrs.
  cbn [length Nat.eqb negb]. rewrite sassert_true. cbn [bind].
  destruct (@pop_front_vr sptr (fun _ => None) W isnull (fun _ => eq_refl) dbg (s_pipe D s) (Some o) (map Some qs) pre post (R_pipe _ _ _ _ _ H)) as (v' & pre' & post' & E & HR' & Hm & HC).
  rewrite E. cbn [bind]. rewrite sassert_true. cbn [bind].
  pose proof HPo as (e & E1 & E2). unfold deref. cbn [set_pipe s_objs s_now]. rewrite E1. cbn [bind]. rewrite Ew in *.
  destruct (alarm_expired_at _ _ _ E2) as (a & Ea & Em & _). rewrite Ea. destruct (Z.leb_spec (fst x) (near24 (p_now D p))); [|lia].
  rewrite sassert_true. cbn [bind].
  destruct H. rewrite Ep in *.
  assert (Hnin : ~ In o qs). { inversion R_nodup0 as [|? ? N _]; subst. intros Hi. apply N. apply in_or_app; auto. }
  assert (o < cap) as Ho by (inversion R_lt0; auto).
  do 3 eexists. split; [reflexivity|].
  cbn [hold set_obj set_pipe s_now s_log s_map s_pipe s_pool s_objs s_loc s_kept]. splits; [|exact Em| |reflexivity|reflexivity|].
  3:{ eapply stay_upd; [|reflexivity]. inversion R_nodup0 as [|? ? N _]; subst. intros Hi. apply N. rewrite !in_app_iff; auto. }
  - apply nth_error_upd_eq. lia.
  - assert (Hperm : Permutation (qs ++ o :: s_loc D s ++ somes (s_kept D s)) ((o :: qs) ++ s_loc D s ++ somes (s_kept D s))) by (rewrite <- Permutation_middle; reflexivity).
    exists qs, pre', post'. constructor; cbn [hold set_obj set_pipe s_now s_log s_map s_pipe s_pool s_objs s_loc s_kept p_now p_hs p_pend p_busy p_kept p_log]; auto.
    + rewrite Hm. auto.
    + clear -HPq Hnin. induction HPq as [|q y qs ys (e' & E3 & E4) _ IH]; constructor.
      * exists e'. cbn [hold set_obj set_pipe s_objs s_now]. split; auto. rewrite nth_error_upd_neq; auto. intros ->. apply Hnin. left; auto.
      * apply IH. intros Hi. apply Hnin. right; auto.
    + rewrite upd_length. auto.
    + simpl. lia.
    + eapply kpoints_upd; [|reflexivity|exact R_kept0]. inversion R_nodup0 as [|? ? N _]; subst. intros Hi. apply N. rewrite !in_app_iff; auto.
    + eapply Permutation_NoDup; [symmetry; exact Hperm|auto].
    + eapply Permutation_Forall; [symmetry; exact Hperm|auto].
Qed.

Lemma sleep_sim s p : R s p ->
  sim (RL s) (tick_delay D dbg cfg s) (Ok (sp_sleep D (c_delay cfg) idle (c_max_us cfg) p)).
Proof.
  intros HR. pose proof HR as (ptrs & pre & post & H). unfold tick_delay, sp_sleep. destruct (c_delay cfg); cbn [sim].
  2:{ unfold RL. splits; auto using keep_refl, stay_refl. }
  unfold vempty at 1. pose proof (vr_size W _ _ _ _ (R_pipe _ _ _ _ _ H)) as Hs.
  rewrite map_length in Hs. rewrite Hs. pose proof (R_pts _ _ _ _ _ H) as HP. pose proof (R_now _ _ _ _ _ H) as Ew.
  assert (Hfin : forall ms, (0 <= ms)%Z ->
    RL s (advance D ms (log_add D (LSleep D ms) s)) (mkSp D (p_now D (sp_log D (LSleep D ms) p) + ms) (p_hs D (sp_log D (LSleep D ms) p))
      (p_pend D (sp_log D (LSleep D ms) p)) (p_busy D (sp_log D (LSleep D ms) p)) (p_kept D (sp_log D (LSleep D ms) p)) (p_log D (sp_log D (LSleep D ms) p)))).
  { intros ms Hms. pose proof (log_R s p (LSleep D ms) HR) as H1. eapply RL_trans; [exact H1|]. apply wait_R; auto. apply (proj1 H1). }
  destruct (p_pend D p) as [|x xs] eqn:Ep; inversion HP as [|o ? qs ? HPo HPq E0]; subst ptrs.
  - cbn [length Nat.eqb bind sim]. exact (Hfin idle Hidle).
  - cbn [length Nat.eqb bind]. unfold time_until_next, vempty. rewrite Hs. cbn [length Nat.eqb]. unfold peek_front. rewrite Hs. cbn [length].
    change (0 <? S (length qs)) with true. rewrite sassert_true. cbn [bind].
    rewrite (vr_st _ _ _ _ _ (R_pipe _ _ _ _ _ H)). cbn [map app]. rewrite rd_app by (apply (vr_h _ _ _ _ _ (R_pipe _ _ _ _ _ H))). cbn [bind].
    destruct HPo as (e & E1 & E2 & _). unfold deref. rewrite E1. cbn [bind sim]. rewrite E2, Ew.
    assert ((if kle MS MS (fst x) (p_now D p) then 0 else ksub MS MS (fst x) (p_now D p)) = Z.max 0 (fst x - near24 (p_now D p)))%Z as ->.
    { unfold kle, ksub. rewrite !from_other_same. destruct (Z.leb_spec (fst x) (near24 (p_now D p))); lia. }
    apply Hfin. apply Z.mod_pos_bound. lia.
Qed.

Lemma loop_with_sim rec srec : (forall a s p, R s p -> sim (RL s) (rec a s) (srec a p)) ->
  forall s p, R s p ->
  sim (RL s) (loop_with D dbg cfg beh rec s) (sp_loop_with D dbg (c_delay cfg) idle (c_max_us cfg) beh srec p).
Proof.
  intros Hrec s p H. unfold sp_loop_with.
  unfold loop_with. destruct (contains_sim s p H) as (s1 & E & H1 & L1 & M1 & Y1); rewrite E; cbn [bind].
  assert (HSl : sim (RL s) (tick_delay D dbg cfg s1) (Ok (sp_sleep D (c_delay cfg) idle (c_max_us cfg) p))).
  { eapply sim_weaken; [|apply (sleep_sim s1 p H1)]. intros a b Hab. eapply (RL_trans s s1 a p); [unfold RL; splits; eauto using keep_eq|exact Hab]. }
  destruct (p_pend D p) as [|[due [id d]] xs] eqn:Ep; [exact HSl|]. cbn [fst]. destruct (Z.leb_spec due (near24 (p_now D p))) as [Hd|Hd]; [|exact HSl].
  destruct (expire_sim s1 p (due, (id, d)) xs H1 Ep Hd) as (o & s2 & e & E2 & Eo & Em & H2 & L2 & M2 & Y2).
  rewrite E2. cbn [bind]. rewrite sassert_true. cbn [bind]. unfold deref. rewrite Eo. cbn [bind].
  destruct Em as (Em1 & Em2 & Em3 & _). cbn [fst snd] in *. rewrite Em1, Em2, Em3.
  assert (s_now D s2 = p_now D p) as Ew. { destruct H2 as (q & pr & po & H2). apply (R_now _ _ _ _ _ H2). }
  rewrite Ew.
  pose proof (log_R _ _ (LFire D due id d (p_now D p)) H2) as H3.
  pose proof (trigger_sim _ _ Hrec id d _ _ (proj1 H3)) as HT.
  eapply sim_bind; [exact HT|].
  intros s4 p4 H4.
  assert (s_loc D s4 = o :: s_loc D s) as L4 by (rewrite (proj1 (proj2 H4)); cbn [log_add s_loc s_kept]; rewrite L2, L1; reflexivity).
  destruct (release_R s4 p4 o (s_loc D s) (proj1 H4) L4) as [H5 L5].
  assert (p_busy D p4 = S (p_busy D p)) as Eb.
  { destruct (proj1 H4) as (q & pr & po & HT'). rewrite <- (R_busy _ _ _ _ _ HT'), L4. destruct H as (q' & pr' & po' & H). simpl. rewrite (R_busy _ _ _ _ _ H). reflexivity. }
  rewrite Eb in H5. cbn [Nat.sub] in H5. rewrite Nat.sub_0_r in H5.
  eapply sim_weaken; [|apply (Hrec (ALoop D) _ _ H5)]. intros a b Hab. eapply (RL_trans s (release D o s4) a (sp_busy D (p_busy D p) p4)); [|exact Hab].
  unfold RL. splits; auto.
  - eapply keep_trans; [|apply keep_eq; reflexivity]. eapply keep_trans; [|apply (proj1 (proj2 (proj2 H4)))].
    apply keep_eq. cbn [log_add s_map]. congruence.
  - eapply stay_trans; [exact Y1|]. rewrite <- L1. eapply stay_trans; [exact Y2|].
    intros n Hn. apply (proj2 (proj2 (proj2 H4)) n). cbn [log_add s_loc]. rewrite L2. right. exact Hn.
Qed.

(** ** Events kept by the user *)
Lemma Forall2_mid {A B} (P : A -> B -> Prop) l1 x l2 lb : Forall2 P (l1 ++ x :: l2) lb ->
  exists k1 y k2, lb = k1 ++ y :: k2 /\ length k1 = length l1 /\ P x y /\ Forall2 P (l1 ++ l2) (k1 ++ k2).
Proof.
  revert lb. induction l1 as [|a l1 IH]; intros lb H; inversion H as [|? b ? lb' Hab HF]; subst.
  - exists [], b, lb'. auto.
  - apply IH in HF as (k1 & y & k2 & -> & E & Hy & HF). exists (b :: k1), y, k2. simpl. splits; auto.
Qed.
Lemma cut_mid {A} (l1 : list A) x l2 : firstn (length l1) (l1 ++ x :: l2) ++ skipn (S (length l1)) (l1 ++ x :: l2) = l1 ++ l2.
Proof.
  rewrite firstn_app_exact by reflexivity. f_equal. induction l1 as [|a l1 IH]; [reflexivity|exact IH].
Qed.
Lemma nth_mid {A} (l1 : list A) x l2 : nth_error (l1 ++ x :: l2) (length l1) = Some x.
Proof. induction l1; simpl; auto. Qed.

Lemma take_sim k s p : R s p ->
  match nth_error (p_kept D p) k with
  | None => take_ptr D k s = UB
  | Some None => exists s1, take_ptr D k s = Ok (None, s1) /\ R s1 (sp_taken D k None p) /\ s_loc D s1 = s_loc D s /\ s_map D s1 = s_map D s /\ s_objs D s1 = s_objs D s
  | Some (Some (id, t, d)) => exists n s1 a, take_ptr D k s = Ok (Some n, s1) /\ nth_error (s_objs D s1) n = Some (mkEv D id d t a) /\
      R s1 (sp_busy D (S (p_busy D p)) (sp_taken D k (Some (id, t, d)) p)) /\ s_loc D s1 = n :: s_loc D s /\ s_map D s1 = s_map D s /\ s_objs D s1 = s_objs D s
  end.
Proof.
  intros (ptrs & pre & post & H). pose proof (R_kept _ _ _ _ _ H) as HK. unfold take_ptr. pose proof (Forall2_nth _ _ _ k HK) as HX.
  destruct (nth_error (s_kept D s) k) as [o|] eqn:Ek.
  2:{ destruct (nth_error (p_kept D p) k); [contradiction|reflexivity]. }
  destruct (nth_error (p_kept D p) k) as [x|] eqn:Ex; [|contradiction]. clear HX.
  apply nth_error_split in Ek as (l1 & l2 & El & Ek). subst k. rewrite El in HK.
  apply Forall2_mid in HK as (k1 & y & k2 & Ep & Elen & Hy & HF).
  rewrite Ep, <- Elen, nth_mid in Ex. inversion Ex; subst y; clear Ex.
  assert (E1 : firstn (length l1) (s_kept D s) ++ skipn (S (length l1)) (s_kept D s) = l1 ++ l2) by (rewrite El; apply cut_mid).
  assert (E2 : firstn (length l1) (p_kept D p) ++ skipn (S (length l1)) (p_kept D p) = k1 ++ k2) by (rewrite Ep, <- Elen; apply cut_mid).
  rewrite E1. unfold sp_taken. rewrite E2.
  destruct o as [n|], x as [[[id t] d]|]; cbn [kpoints] in Hy; try contradiction.
  - destruct Hy as (a & Ea). exists n. eexists. exists a. split; [reflexivity|]. splits; auto. exists ptrs, pre, post. destruct H.
    assert (Hlook : look D s (Some n) = Some (id, t, d)) by (cbn [look]; rewrite Ea; reflexivity).
    assert (Hperm : Permutation (ptrs ++ s_loc D s ++ somes (s_kept D s)) (ptrs ++ (n :: s_loc D s) ++ somes (l1 ++ l2))).
    { rewrite El, !somes_app. cbn [somes app]. apply Permutation_app_head. rewrite <- Permutation_middle.
      rewrite (Permutation_middle (s_loc D s) (somes l1 ++ somes l2) n). reflexivity. }
    constructor; cbn [hold log_add set_kept sp_log sp_kept sp_busy s_now s_log s_map s_pipe s_pool s_objs s_loc s_kept p_now p_hs p_pend p_busy p_kept p_log]; auto.
    + rewrite Hlook. congruence.
    + simpl. lia.
    + eapply Permutation_NoDup; [exact Hperm|auto].
    + eapply Permutation_Forall; [exact Hperm|auto].
  - eexists. split; [reflexivity|]. splits; auto. exists ptrs, pre, post. destruct H.
    assert (Hs : somes (s_kept D s) = somes (l1 ++ l2)) by (rewrite El, !somes_app; reflexivity).
    constructor; cbn [hold log_add set_kept sp_log sp_kept sp_busy s_now s_log s_map s_pipe s_pool s_objs s_loc s_kept p_now p_hs p_pend p_busy p_kept p_log look]; rewrite <- ?Hs; auto.
    congruence.
Qed.

Lemma put_sim s p n l id t d a : R s p -> s_loc D s = n :: l -> nth_error (s_objs D s) n = Some (mkEv D id d t a) ->
  R (keep_ptr D (Some n) (Some (id, t, d)) s) (sp_keep D (Some (id, t, d)) (sp_busy D (p_busy D p - 1) p)) /\
  s_loc D (keep_ptr D (Some n) (Some (id, t, d)) s) = l.
Proof.
  intros (ptrs & pre & post & H) El Ea. assert (Hloc : drop_one n (s_loc D s) = l) by (rewrite El; simpl; rewrite Nat.eqb_refl; reflexivity).
  split; [|exact Hloc]. exists ptrs, pre, post. destruct H.
  assert (Hperm : Permutation (ptrs ++ s_loc D s ++ somes (s_kept D s)) (ptrs ++ l ++ somes (s_kept D s ++ [Some n]))).
  { rewrite El, somes_app. cbn [somes app]. apply Permutation_app_head. rewrite app_assoc. apply Permutation_cons_append. }
  unfold keep_ptr.
  constructor; cbn [release log_add set_kept sp_log sp_keep sp_kept sp_busy s_now s_log s_map s_pipe s_pool s_objs s_loc s_kept p_now p_hs p_pend p_busy p_kept p_log]; rewrite ?Hloc; auto.
  - congruence.
  - rewrite El in R_busy0. simpl in R_busy0. lia.
  - apply Forall2_app; auto. constructor; [|constructor]. exists a. exact Ea.
  - eapply Permutation_NoDup; [exact Hperm|auto].
  - eapply Permutation_Forall; [exact Hperm|auto].
Qed.

Lemma put_null_sim s p : R s p -> R (keep_ptr D None None s) (sp_keep D None p).
Proof.
  intros (ptrs & pre & post & H). exists ptrs, pre, post. destruct H. unfold keep_ptr.
  assert (somes (s_kept D s ++ [None]) = somes (s_kept D s)) as Hs by (rewrite somes_app; apply app_nil_r).
  constructor; cbn [release log_add set_kept sp_log sp_keep sp_kept sp_busy s_now s_log s_map s_pipe s_pool s_objs s_loc s_kept p_now p_hs p_pend p_busy p_kept p_log]; rewrite ?Hs; auto.
  - congruence.
  - apply Forall2_app; auto. constructor; [exact I|constructor].
  - exact (eq_ind_r (fun q => NoDup (ptrs ++ s_loc D s ++ q)) R_nodup0 Hs).
  - exact (eq_ind_r (fun q => Forall (fun o => o < cap) (ptrs ++ s_loc D s ++ q)) R_lt0 Hs).
Qed.

(** event() without a free slot leaves everything but the lookup index of the pool. *)
Lemma event_none s p id t d : R s p -> forall s1, event D L dbg id t d s = Ok (None, s1) ->
  R s1 p /\ s_loc D s1 = s_loc D s /\ s_map D s1 = s_map D s /\ s_objs D s1 = s_objs D s.
Proof.
  intros (ptrs & pre & post & H) s1 E. unfold event in E.
  match type of E with bind ?x _ = _ => destruct x as [[q pl]| | | |] eqn:Eq; cbn [bind] in E; try discriminate end.
  destruct (sassert dbg (match q with Some _ => true | None => false end)); cbn [bind] in E; try discriminate.
  destruct q as [o|]. { cbn [s_objs] in E. destruct (nth_error (s_objs D s) o); discriminate. }
  inversion E; subst; clear E. splits; auto. exists ptrs, pre, post. destruct H.
  constructor; cbn [s_now s_log s_map s_pipe s_pool s_objs s_loc s_kept]; auto.
  pose proof (prep_pool s p ptrs pre post) as HP. 
  assert (exists j, pl = mkPool (pv (s_pool D s)) j) as (j & ->).
  { destruct (acquire_exact W L dbg _ _ _ _ (pool_size (s_pool D s)) (HP ltac:(constructor; auto))) as (j & Ej).
    - rewrite map_length, seq_length. auto.
    - unfold pool_size, vsize. rewrite R_pool0, map_length, seq_length. simpl. lia.
    - right. cbn [ppool]. rewrite R_pool0. reflexivity.
    - rewrite Eq in Ej. inversion Ej. eexists; reflexivity. }
  exact R_pool0.
Qed.

Lemma keep_event_sim s p id t d : R s p -> sim (RL s) (keep_event D L dbg id t d s) (sp_keep_event D dbg cap id t d p).
Proof.
  intros HR. pose proof HR as (ptrs & pre & post & H). pose proof (event_sim s p ptrs pre post id t d H) as HE.
  unfold keep_event, sp_keep_event.
  destruct (Nat.ltb_spec (length (p_pend D p) + p_busy D p + held D (p_kept D p)) cap) as [Hc|Hc].
  - destruct HE as (o & s1 & E & Hn & Ho & (a0 & Ea) & H1 & Hl1 & Hm1 & Hk1 & Hy1). rewrite E. cbn [bind sim].
    destruct (put_sim s1 _ o (s_loc D s) id t d a0 ltac:(do 3 eexists; exact H1) Hl1 Ea) as [HP HL]. rewrite busy_back in HP.
    unfold RL. splits; auto. apply keep_eq. exact Hm1.
  - rewrite HE. destruct dbg eqn:Ed; [exact I|]. cbn [bind sim].
    set (s1 := snd match event D L false id t d s with Ok x => x | _ => (None, s) end) in *.
    destruct (event_none s p id t d HR s1) as (H1 & H2 & H3 & H4); [rewrite Ed; exact HE|].
    unfold RL. splits; auto; [apply put_null_sim; exact H1|apply keep_eq; exact H3|apply stay_eq; exact H4].
Qed.

Lemma schedule_kept_sim s p k : R s p -> sim (RL s) (schedule_kept D W dbg k s) (sp_schedule_kept D dbg cap k p).
Proof.
  intros HR. pose proof (take_sim k s p HR) as HT. unfold schedule_kept, sp_schedule_kept, sp_take.
  destruct (nth_error (p_kept D p) k) as [[[[id t] d]|]|]; cbn [bind].
  - destruct HT as (n & s1 & a & E & Ea & H1 & Hl & Hm & Ho). rewrite E. cbn [bind].
    pose proof (push_sim s1 _ n (s_loc D s) id t d a H1 Hl Ea) as HP.
    replace (sp_busy D (p_busy D (sp_busy D (S (p_busy D p)) (sp_taken D k (Some (id, t, d)) p)) - 1) (sp_busy D (S (p_busy D p)) (sp_taken D k (Some (id, t, d)) p)))
      with (sp_taken D k (Some (id, t, d)) p) in HP by (destruct p; unfold sp_taken, sp_busy; simpl; rewrite Nat.sub_0_r; reflexivity).
    eapply sim_weaken; [|exact HP]. intros x y (HA & HB & HC & HD). unfold RL. splits; auto; [apply keep_eq; congruence|].
    eapply stay_trans; [apply stay_eq; exact Ho|exact HD].
  - destruct HT as (s1 & E & H1 & Hl & Hm & Ho). rewrite E. cbn [bind]. unfold push.
    destruct H1 as (ptrs & pre & post & H1). pose proof (vr_size W _ _ _ _ (R_pipe _ _ _ _ _ H1)) as Hs1. rewrite map_length, (R_len _ _ _ _ _ H1) in Hs1.
    rewrite (R_max _ _ _ _ _ H1), Hs1. cbn [sp_taken sp_log sp_kept p_pend].
    destruct (sassert dbg (length (p_pend D p) <? cap)) eqn:Es; cbn [bind deref sim]; try exact I;
      unfold sassert in Es; destruct (length (p_pend D p) <? cap), dbg; discriminate.
  - rewrite HT. exact I.
Qed.

Lemma drop_kept_sim s p k : R s p -> sim (RL s) (drop_kept D k s) (sp_drop_kept D k p).
Proof.
  intros HR. pose proof (take_sim k s p HR) as HT. unfold drop_kept, sp_drop_kept, sp_take.
  destruct (nth_error (p_kept D p) k) as [[[[id t] d]|]|]; cbn [bind].
  - destruct HT as (n & s1 & a & E & Ea & H1 & Hl & Hm & Ho). rewrite E. cbn [bind sim].
    destruct (release_R _ _ n (s_loc D s) H1 Hl) as [H2 L2].
    replace (sp_busy D (p_busy D (sp_busy D (S (p_busy D p)) (sp_taken D k (Some (id, t, d)) p)) - 1) (sp_busy D (S (p_busy D p)) (sp_taken D k (Some (id, t, d)) p)))
      with (sp_taken D k (Some (id, t, d)) p) in H2 by (destruct p; unfold sp_taken, sp_busy; simpl; rewrite Nat.sub_0_r; reflexivity).
    unfold RL. splits; auto; [apply keep_eq; exact Hm|apply stay_eq; exact Ho].
  - destruct HT as (s1 & E & H1 & Hl & Hm & Ho). rewrite E. cbn [bind sim]. unfold RL. splits; auto; [apply keep_eq; exact Hm|apply stay_eq; exact Ho].
  - rewrite HT. exact I.
Qed.

Lemma trigger_kept_sim rec srec : (forall a s p, R s p -> sim (RL s) (rec a s) (srec a p)) ->
  forall s p k, R s p -> sim (RL s) (trigger_kept D dbg beh rec k s) (sp_trigger_kept D dbg beh srec k p).
Proof.
  intros Hrec s p k HR. pose proof (take_sim k s p HR) as HT. unfold trigger_kept, sp_trigger_kept, sp_take.
  destruct (nth_error (p_kept D p) k) as [[[[id t] d]|]|]; cbn [bind].
  - destruct HT as (n & s1 & a & E & Ea & H1 & Hl & Hm & Ho). rewrite E. cbn [bind].
    rewrite sassert_true. cbn [bind]. unfold deref. rewrite Ea. cbn [bind e_id e_data].
    pose proof (trigger_sim _ _ Hrec id d _ _ H1) as HS. eapply sim_bind; [exact HS|]. intros s2 p2 (HR2 & L2 & K2 & Y2). cbn [sim look]. rewrite Ea. cbn [e_id e_tfn e_data].
    rewrite Hl in L2, Y2. assert (Ea2 : nth_error (s_objs D s2) n = Some (mkEv D id d t a)) by (rewrite (Y2 n ltac:(left; reflexivity)); exact Ea).
    destruct (put_sim s2 p2 n (s_loc D s) id t d a HR2 L2 Ea2) as [H3 L3].
    assert (p_busy D p2 = S (p_busy D p)) as Eb.
    { destruct HR2 as (q & pr & po & HR2). rewrite <- (R_busy _ _ _ _ _ HR2), L2. destruct HR as (q' & pr' & po' & HR). simpl. rewrite (R_busy _ _ _ _ _ HR). reflexivity. }
    rewrite Eb in H3. simpl in H3. rewrite Nat.sub_0_r in H3. unfold RL. splits; auto.
    + eapply keep_trans; [apply (keep_eq s s1 Hm)|]. eapply keep_trans; [exact K2|]. apply keep_eq. reflexivity.
    + eapply stay_trans; [apply stay_eq; exact Ho|]. intros q Hq. apply (Y2 q). right. exact Hq.
  - destruct HT as (s1 & E & H1 & Hl & Hm & Ho). rewrite E. cbn [bind]. destruct dbg; exact I.
  - rewrite HT. exact I.
Qed.

Lemma act_sim : forall fuel a s p, R s p ->
  sim (RL s) (do_act D W L dbg cfg beh fuel a s) (sp_act D dbg cap hcap (c_delay cfg) idle (c_max_us cfg) beh fuel a p).
Proof.
  induction fuel as [|fuel IH]; intros a s p H; destruct a as [id t d|id d|id h|dt| |id t d|k|k|k]; cbn [do_act sp_act];
    try (apply schedule_sim; exact H); try (apply attach_sim; exact H); try (apply keep_event_sim; exact H);
    try (apply schedule_kept_sim; exact H); try (apply drop_kept_sim; exact H); try exact I;
    try (cbn [sim]; apply wait_R; [lia|exact H]).
  - apply loop_with_sim; [intros; exact I|exact H].
  - pose proof H as (ptrs & pre & post & H0). pose proof (event_sim s p ptrs pre post id 0%Z d H0) as HE. unfold slot.
    destruct (Nat.ltb_spec (length (p_pend D p) + p_busy D p + held D (p_kept D p)) cap) as [Hc|Hc].
    + destruct HE as (o & s1 & E & Hn & Ho & _ & H1 & Hl1 & Hm1 & _ & Hy1). rewrite E. cbn [bind].
      assert (HR1 : R s1 (sp_busy D (S (p_busy D p)) p)) by (do 3 eexists; exact H1).
      pose proof (trigger_sim _ _ IH id d s1 _ HR1) as HT.
      eapply sim_bind; [exact HT|]. intros s2 p2 (HR2 & L2 & K2 & Y2). cbn [sim].
      destruct (release_R s2 p2 o (s_loc D s) HR2 (eq_trans L2 Hl1)) as [HR3 L3].
      assert (p_busy D p2 = S (p_busy D p)) as Eb.
      { destruct HR2 as (q & pr & po & HR2). rewrite <- (R_busy _ _ _ _ _ HR2), L2, Hl1. simpl. rewrite (R_busy _ _ _ _ _ H0). reflexivity. }
      rewrite Eb in HR3. simpl in HR3. rewrite Nat.sub_0_r in HR3. unfold RL. splits; auto.
      * eapply keep_trans; [apply (keep_eq s s1 Hm1)|]. eapply keep_trans; [exact K2|]. apply keep_eq. reflexivity.
      * eapply stay_trans; [exact Hy1|]. intros q Hq. apply (Y2 q). rewrite Hl1. right. exact Hq.
    + rewrite HE. destruct dbg; simpl; exact I.
  - apply loop_with_sim; auto.
  - apply trigger_kept_sim; auto.
Qed.

Lemma step_sim fuel o s p : R s p ->
  sim (RL s) (step D W L dbg cfg beh fuel o s) (sp_step D dbg cap hcap (c_delay cfg) idle (c_max_us cfg) beh fuel o p).
Proof. intros H. destruct o; apply act_sim; auto. Qed.

Lemma run_sim fuel ops : forall s p, R s p ->
  sim (RL s) (run D W L dbg cfg beh fuel ops s) (sp_run D dbg cap hcap (c_delay cfg) idle (c_max_us cfg) beh fuel ops p).
Proof.
  induction ops as [|o ops IH]; intros s p H; cbn [run sp_run].
  - unfold sim, RL. splits; auto using keep_refl, stay_refl.
  - eapply sim_bind; [apply step_sim; auto|].
    intros s1 p1 H1. eapply sim_weaken; [|apply (IH s1 p1 (proj1 H1))]. intros a b Hab. eapply RL_trans; eauto.
Qed.

Lemma new_R now : R (es_new D nodata cfg now) (sp_new D now (c_count cfg)).
Proof.
  exists [], [], (repeat None cap).
  constructor; cbn [es_new sp_new s_now s_log s_map s_pipe s_pool s_objs s_loc s_kept p_now p_hs p_pend p_busy p_log pv]; auto.
  - induction (c_count cfg); simpl; constructor; auto. exists (repeat None hcap). split; [|unfold vmax; simpl; apply repeat_length].
    constructor; simpl; auto. now rewrite repeat_length.
  - constructor; simpl; auto. now rewrite repeat_length.
  - split; [constructor|]. apply Forall_forall. intros x Hx. apply repeat_spec in Hx. exact Hx.
  - unfold vmax; simpl. apply repeat_length.
  - apply repeat_length.
  - constructor.
  - constructor.
  - constructor.
Qed.

Lemma R_kept_reads s p : R s p -> kept D s = p_kept D p.
Proof.
  intros (ptrs & pre & post & H). unfold kept. pose proof (R_kept _ _ _ _ _ H) as HK. clear -HK.
  induction HK as [|o x l l' Hx _ IH]; auto. cbn [map]. rewrite IH. f_equal.
  destruct o as [n|], x as [[[id t] d]|]; cbn [kpoints look] in *; try contradiction; auto. destruct Hx as (a & ->). reflexivity.
Qed.

Lemma R_pending s p : R s p -> pending D W s (p_pend D p).
Proof.
  intros (ptrs & pre & post & H). exists (map Some ptrs). split; [eapply vr_holds; apply (R_pipe _ _ _ _ _ H)|].
  pose proof (R_pts _ _ _ _ _ H) as HP. clear -HP. induction HP as [|o x l l' (e & E1 & E2 & E3 & E4 & _) _ IH]; auto.
  cbn [map]. rewrite IH. f_equal. cbn [shown]. rewrite E1, E2, E3, E4. destruct x as [a [b c]]. reflexivity.
Qed.

Lemma R_pending_unique s p l : R s p -> pending D W s l -> l = p_pend D p.
Proof.
  intros HR (ps & H1 & H2). destruct HR as (ptrs & pre & post & H). pose proof (vr_holds_unique W _ _ _ _ ps (R_pipe _ _ _ _ _ H) H1) as ->.
  assert (map Some l = map Some (p_pend D p)) as E.
  { rewrite <- H2. pose proof (R_pts _ _ _ _ _ H) as HP. clear -HP. induction HP as [|o x l l' (e & E1 & E2 & E3 & E4 & _) _ IH]; auto.
    cbn [map]. rewrite IH. f_equal. cbn [shown]. rewrite E1, E2, E3, E4. destruct x as [a [b c]]. reflexivity. }
  clear -E. revert E. generalize (p_pend D p). induction l as [|x l IH]; intros [|y k] E; try discriminate; auto. inversion E; subst. f_equal; auto.
Qed.
End Proofs.
