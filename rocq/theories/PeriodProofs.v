(** Proofs for property C131. *)
From Coq Require Import List Arith ZArith Bool Lia Sorting.Sorted Permutation.
From Verif Require Import Base KTimeModel KTimeProofs VectorProofs EvModel EvSpec EvProofs EvTrace EvThms PeriodSpec.
Import ListNotations.
Local Open Scope nat_scope.

Lemma find_task {D} (ks : list (task D)) k : NoDup (map t_id ks) -> In k ks -> find (fun q => t_id q =? t_id k) ks = Some k.
Proof.
  induction ks as [|q ks IH]; intros Hn Hk; [contradiction|]. cbn [map find] in *. inversion Hn as [|? ? Ha Hb]; subst.
  destruct Hk as [->|Hk]; [now rewrite Nat.eqb_refl|]. destruct (Nat.eqb_spec (t_id q) (t_id k)) as [E|E]; [|auto].
  exfalso. apply Ha. rewrite E. now apply in_map.
Qed.

Lemma filter_le {A} (g : A -> bool) l : length (filter g l) <= length l.
Proof. induction l as [|x l IH]; cbn [filter length]; auto. destruct (g x); cbn [length]; lia. Qed.

Lemma every_near P N : (0 < P -> 2 ^ 24 * P + N < 2 ^ 48 -> 0 <= N -> near24 P = P)%Z.
Proof. intros. apply near24_id. lia. Qed.

Section Sp.
Variable D : Type.
Variable dbg : bool.
Variables cap hcap : nat.
Variable sleeps : bool.
Variables idle max_sleep : Z.
Variable ks : list (task D).
Variable N : Z.
Notation sp := (sp D).
Notation act := (sp_act D dbg cap hcap sleeps idle max_sleep (again D ks)).
Hypothesis Hidle : (0 <= idle)%Z.
Hypothesis Hnodup : NoDup (map t_id ks).
Hypothesis Hcap : length ks < cap.
Hypothesis Hks : forall k, In k ks -> (0 < t_every k /\ 2 ^ 24 * t_every k + N < 2 ^ 48 /\ N < 2 ^ 24 * t_every k)%Z.

Definition pendof (f : nat -> Z) (k : task D) : pend D := (f (t_id k), (t_id k, t_data k)).
Record inv (p : sp) (f : nat -> Z) : Prop := {
  v_hs : forall k, In k ks -> nth_error (p_hs D p) (t_id k) = Some [t_id k];
  v_pend : Permutation (p_pend D p) (map (pendof f) ks);
  v_sorted : sorted D (p_pend D p);
  v_busy : p_busy D p = 0;
  v_kept : p_kept D p = [];
  v_pos : (0 <= p_now D p)%Z
}.

Lemma called_app id a b : called D id (a ++ b) = called D id a ++ called D id b.
Proof. unfold called. apply flat_map_app. Qed.

Definition isdue (f : nat -> Z) (t : Z) (k : task D) : bool := (f (t_id k) <=? near24 t)%Z.
Definition later (f : nat -> Z) (i : nat) (x : Z) : nat -> Z := fun j => if j =? i then x else f j.

Lemma not_again k t : In k ks -> (0 <= t <= N)%Z -> (near24 t < t + t_every k)%Z.
Proof. intros Hk Ht. destruct (Hks k Hk) as (A & B & C). pose proof (near24_error t). lia. Qed.

Lemma sleep_inv p f : inv p f -> inv (sp_sleep D sleeps idle max_sleep p) f /\ (p_now D p <= p_now D (sp_sleep D sleeps idle max_sleep p))%Z /\
  forall id, called D id (p_log D (sp_sleep D sleeps idle max_sleep p)) = called D id (p_log D p).
Proof.
  intros H. unfold sp_sleep. destruct sleeps; [|splits; auto; lia].
  match goal with |- context [sp_log D (LSleep D ?m) p] => set (ms := m) end.
  assert (0 <= ms)%Z as Hm by (unfold ms; destruct (p_pend D p); [exact Hidle|apply Z.mod_pos_bound; lia]).
  cbn [sp_log p_now p_hs p_pend p_busy p_kept p_log]. destruct H as [H1 H2 H3 H4 H5 H6].
  assert (forall id, called D id (p_log D p ++ [LSleep D ms]) = called D id (p_log D p)) as E by (intros; rewrite called_app; apply app_nil_r).
  split; [constructor; cbn [p_now p_hs p_pend p_busy p_kept p_log]; auto; lia|]. split; [lia|exact E].
Qed.

Lemma insort_perm x (l : list (pend D)) : Permutation (insort D x l) (x :: l).
Proof. induction l as [|y l IH]; cbn [insort]; auto. destruct (fst x <? fst y)%Z; auto. rewrite IH. constructor. Qed.

Lemma pend_later f i x l : ~ In i (map t_id l) -> map (pendof (later f i x)) l = map (pendof f) l.
Proof.
  intros H. apply map_ext_in. intros k Hk. unfold pendof, later. destruct (Nat.eqb_spec (t_id k) i) as [E|E]; [|reflexivity].
  exfalso. apply H. rewrite <- E. now apply in_map.
Qed.

Lemma filter_none {A} (g : A -> bool) l : (forall x, In x l -> g x = false) -> filter g l = [].
Proof. induction l as [|x l IH]; intros H; auto. cbn [filter]. rewrite (H x) by (left; auto). apply IH. intros y Hy. apply H. right. auto. Qed.

Lemma again_last l k h t : In k ks -> again D ks (l ++ [LCall D h (t_id k) (t_data k) t]) = [ASchedule D (t_id k) (t_every k) (t_data k)].
Proof. intros Hk. unfold again. rewrite rev_app_distr. cbn [rev app]. now rewrite (find_task ks k Hnodup Hk). Qed.

Lemma loop_tasks t : (0 <= t <= N)%Z -> forall m fuel p f, inv p f -> p_now D p = t -> length (filter (isdue f t) ks) = m -> m <= fuel ->
  exists p' g, act fuel (ALoop D) p = Ok p' /\ inv p' g /\ (t <= p_now D p')%Z /\
    (forall k, In k ks -> g (t_id k) = if isdue f t k then (t + t_every k)%Z else f (t_id k)) /\
    (forall k, In k ks -> called D (t_id k) (p_log D p') = called D (t_id k) (p_log D p) ++ if isdue f t k then [(t_id k, t, t_data k)] else []).
Proof.
  intros Ht. induction m as [m IH] using lt_wf_ind. intros fuel p f Hv Hp Hm Hf.
  assert (exists f0, f0 = fuel) as [f0 Ef] by eauto.
  assert (act fuel (ALoop D) p = sp_loop_with D dbg sleeps idle max_sleep (again D ks) (match fuel with 0 => fun _ _ => Fuel | S f => act f end) p) as -> by (destruct fuel; reflexivity).
  unfold sp_loop_with. destruct (p_pend D p) as [|[due [id d]] rest] eqn:Ep.
  - (* nothing pending *)
    pose proof (v_pend _ _ Hv) as HP. rewrite Ep in HP. apply Permutation_nil in HP.
    assert (forall k, ~ In k ks) as Hno by (intros k Hk; apply (in_map (pendof f)) in Hk; rewrite HP in Hk; contradiction).
    destruct (sleep_inv p f Hv) as (A & B & C). exists (sp_sleep D sleeps idle max_sleep p), f. rewrite Hp in B. splits; auto; intros k Hk; destruct (Hno k Hk).
  - pose proof (v_pend _ _ Hv) as HP. rewrite Ep in HP. pose proof (v_sorted _ _ Hv) as Hs. rewrite Ep in Hs.
    destruct (Z.leb_spec due (near24 (p_now D p))) as [Hd|Hd].
    + (* the head is due *)
      assert (In (due, (id, d)) (map (pendof f) ks)) as Hin by (eapply Permutation_in; [exact HP|left; reflexivity]).
      apply in_map_iff in Hin as (k0 & Ek & Hk0). unfold pendof in Ek. inversion Ek as [[E1 E2 E3]]. clear Ek.
      destruct (in_split _ _ Hk0) as (l1 & l2 & El).
      assert (Permutation rest (map (pendof f) (l1 ++ l2))) as Hr.
      { apply (Permutation_cons_inv (a := (due, (id, d)))). rewrite HP, El, !map_app. cbn [map]. unfold pendof at 2. rewrite E1, E2, E3.
        symmetry. apply Permutation_middle. }
      assert (length rest = length ks - 1) as Hlen.
      { rewrite (Permutation_length Hr), map_length, El, !app_length. cbn [length]. lia. }
      assert (0 < length ks) as Hpos by (rewrite El, app_length; cbn [length]; lia).
      assert (isdue f t k0 = true) as Hdue by (unfold isdue; apply Z.leb_le; rewrite E1, <- Hp; exact Hd).
      assert (0 < m) as Hm0.
      { rewrite <- Hm. assert (In k0 (filter (isdue f t) ks)) as Hi by (apply filter_In; auto). destruct (filter (isdue f t) ks); [contradiction|cbn [length]; lia]. }
      destruct fuel as [|fuel]; [lia|]. subst id d due.
      pose proof (v_hs _ _ Hv k0 Hk0) as Hh. destruct (Hks k0 Hk0) as (P1 & P2 & P3).
      set (p1 := sp_log D (LFire D (f (t_id k0)) (t_id k0) (t_data k0) (p_now D p)) (mkSp D (p_now D p) (p_hs D p) rest (S (p_busy D p)) (p_kept D p) (p_log D p))).
      set (q := mkSp D t (p_hs D p) (insort D (t + t_every k0, (t_id k0, t_data k0))%Z rest) 0 []
        (p_log D p ++ [LFire D (f (t_id k0)) (t_id k0) (t_data k0) t; LCall D (t_id k0) (t_id k0) (t_data k0) t;
                       LSched D (t + t_every k0) (t_id k0) (t_data k0)])).
      assert (sp_trigger D dbg (again D ks) (act fuel) (t_id k0) (t_data k0) p1 = Ok (sp_busy D 1 q)) as Et.
      { unfold sp_trigger, p1. cbn [sp_log p_hs]. rewrite Hh. cbn [length Nat.eqb negb]. rewrite sassert_true. cbn [bind sp_calls].
        cbn [sp_log p_log p_now]. rewrite (again_last _ k0 _ _ Hk0). cbn [sp_acts].
        assert (forall fu x, act fu (ASchedule D (t_id k0) (t_every k0) (t_data k0)) x = sp_schedule D dbg cap (t_id k0) (t_every k0) (t_data k0) x) as -> by (intros [|fu] x; reflexivity).
        unfold sp_schedule, slot. cbn [sp_log p_pend p_busy p_kept]. rewrite (v_busy _ _ Hv), (v_kept _ _ Hv). cbn [held flat_map length].
        replace (length rest + 1 + 0 <? cap) with true by (symmetry; apply Nat.ltb_lt; lia). cbn [bind]. unfold sp_push. rewrite (proj2 (Z.ltb_lt _ _) P1).
        rewrite sassert_true. cbn [bind sp_log p_now p_hs p_pend p_busy p_kept p_log]. rewrite (every_near (t_every k0) N P1 P2) by lia. rewrite Hp.
        rewrite (enqueue_insort D (t_every k0) N P2 t (t_every k0)) by (cbn [fst]; lia). unfold q, sp_busy, sp_log. cbn [p_now p_hs p_pend p_busy p_kept p_log].
        rewrite <- !app_assoc. reflexivity. }
      rewrite Et. cbn [bind]. rewrite (v_busy _ _ Hv). change (sp_busy D 0 (sp_busy D 1 q)) with q.
      set (f' := later f (t_id k0) (t + t_every k0)).
      assert (~ In (t_id k0) (map t_id (l1 ++ l2))) as Hni.
      { rewrite El, map_app in Hnodup. cbn [map] in Hnodup. rewrite map_app. apply NoDup_remove_2 in Hnodup. exact Hnodup. }
      assert (inv q f') as Hq.
      { constructor; unfold q; cbn [p_hs p_pend p_busy p_kept p_now]; auto; [apply (v_hs _ _ Hv)| | |lia].
        - rewrite insort_perm, Hr, El. unfold f'. rewrite !map_app. cbn [map].
          rewrite (pend_later f (t_id k0) _ l1), (pend_later f (t_id k0) _ l2) by (intros Hx; apply Hni; rewrite map_app; apply in_or_app; auto).
          replace (pendof (later f (t_id k0) (t + t_every k0)) k0) with ((t + t_every k0)%Z, (t_id k0, t_data k0)) by (unfold pendof, later; now rewrite Nat.eqb_refl).
          apply Permutation_middle.
        - apply insort_sorted. inversion Hs; auto. }
      assert (isdue f' t k0 = false) as Hnd.
      { unfold isdue, f', later. rewrite Nat.eqb_refl. apply Z.leb_gt. apply not_again; auto. }
      assert (forall k, In k (l1 ++ l2) -> isdue f' t k = isdue f t k /\ f' (t_id k) = f (t_id k)) as Hsame.
      { intros k Hk. unfold isdue, f', later. destruct (Nat.eqb_spec (t_id k) (t_id k0)) as [E|E]; [|auto]. exfalso. apply Hni. rewrite <- E. now apply in_map. }
      assert (length (filter (isdue f' t) ks) = m - 1) as Hm'.
      { rewrite <- Hm, El, !filter_app, !app_length. cbn [filter]. rewrite Hdue, Hnd. cbn [length].
        rewrite (filter_ext_in (isdue f' t) (isdue f t) l1), (filter_ext_in (isdue f' t) (isdue f t) l2)
          by (intros k Hk; apply Hsame; apply in_or_app; auto). lia. }
      destruct (IH (m - 1) ltac:(lia) fuel q f' Hq eq_refl Hm' ltac:(lia)) as (p' & g & R1 & R2 & R3 & R4 & R5).
      exists p', g. split; [exact R1|]. split; [exact R2|]. split; [exact R3|].
      assert (forall k, In k ks -> k = k0 \/ In k (l1 ++ l2)) as Hor.
      { intros k Hk. rewrite El in Hk. apply in_app_or in Hk as [Hk|[Hk|Hk]]; [right; apply in_or_app; auto|left; auto|right; apply in_or_app; auto]. }
      split; intros k Hk.
      * rewrite (R4 k Hk). destruct (Hor k Hk) as [->|Hkl].
        -- rewrite Hnd, Hdue. unfold f', later. now rewrite Nat.eqb_refl.
        -- destruct (Hsame k Hkl) as [-> ->]. reflexivity.
      * rewrite (R5 k Hk). unfold q. cbn [p_log]. rewrite called_app. destruct (Hor k Hk) as [->|Hkl].
        -- rewrite Hnd, Hdue. unfold called at 2. cbn [flat_map]. rewrite Nat.eqb_refl. cbn [app]. now rewrite app_nil_r.
        -- destruct (Hsame k Hkl) as [-> _]. unfold called at 2. cbn [flat_map].
           destruct (Nat.eqb_spec (t_id k0) (t_id k)) as [E|E]; [exfalso; apply Hni; rewrite E; now apply in_map|]. cbn [app]. now rewrite app_nil_r.
    + (* nothing due *)
      destruct (sleep_inv p f Hv) as (A & B & C). exists (sp_sleep D sleeps idle max_sleep p), f. rewrite Hp in B, Hd.
      assert (forall k, In k ks -> isdue f t k = false) as Hno.
      { intros k Hk. unfold isdue. apply Z.leb_gt. assert (In (pendof f k) ((due, (id, d)) :: rest)) as Hin.
        { eapply Permutation_in; [symmetry; exact HP|]. now apply in_map. }
        destruct Hin as [E|Hin]; [unfold pendof in E; inversion E; subst; lia|]. inversion Hs as [|? ? _ HF]; subst. rewrite Forall_forall in HF.
        specialize (HF _ Hin). unfold pendof in HF. cbn [fst] in HF. lia. }
      split; [reflexivity|]. split; [exact A|]. split; [exact B|]. split; intros k Hk; rewrite (Hno k Hk); auto. rewrite C. now rewrite app_nil_r.
Qed.
End Sp.

(** The program's start *)
Section Start.
Variable D : Type.
Variable dbg : bool.
Variables cap hcap : nat.
Variable sleeps : bool.
Variables idle max_sleep : Z.
Variable ks : list (task D).
Variable N : Z.
Notation run := (sp_run D dbg cap hcap sleeps idle max_sleep (again D ks)).
Hypothesis Hnodup : NoDup (map t_id ks).
Hypothesis Hcap : length ks < cap.
Hypothesis Hhcap : 0 < hcap.
Hypothesis Hks : forall k, In k ks -> (0 < t_every k /\ 2 ^ 24 * t_every k + N < 2 ^ 48)%Z.

Lemma run_app fuel : forall a b p, run fuel (a ++ b) p = bind (run fuel a p) (run fuel b).
Proof.
  induction a as [|o a IH]; intros b p; [reflexivity|]. cbn [app sp_run].
  destruct (sp_step D dbg cap hcap sleeps idle max_sleep (again D ks) fuel o p); cbn [bind]; auto.
Qed.

Lemma attaches_ok fuel : forall l done p, ks = done ++ l -> (forall k, In k ks -> t_id k < length (p_hs D p)) ->
  (forall k, In k done -> nth_error (p_hs D p) (t_id k) = Some [t_id k]) -> (forall k, In k l -> nth_error (p_hs D p) (t_id k) = Some []) ->
  exists hs, run fuel (attaches D l) p = Ok (mkSp D (p_now D p) hs (p_pend D p) (p_busy D p) (p_kept D p) (p_log D p)) /\
    forall k, In k ks -> nth_error hs (t_id k) = Some [t_id k].
Proof.
  induction l as [|k l IH]; intros done p E Hlt Hd Hl; cbn [attaches map sp_run].
  - exists (p_hs D p). split; [now destruct p|]. intros k Hk. apply Hd. rewrite E, app_nil_r in Hk. exact Hk.
  - assert (sp_step D dbg cap hcap sleeps idle max_sleep (again D ks) fuel (OAct D (AAttach D (t_id k) (t_id k))) p = sp_attach D dbg hcap (t_id k) (t_id k) p) as -> by (destruct fuel; reflexivity).
    unfold sp_attach. rewrite (Hl k) by (left; auto). cbn [length app]. rewrite (proj2 (Nat.ltb_lt 0 hcap) Hhcap). rewrite sassert_true. cbn [bind].
    set (p1 := mkSp D (p_now D p) (upd (p_hs D p) (t_id k) [t_id k]) (p_pend D p) (p_busy D p) (p_kept D p) (p_log D p)).
    assert (In k ks) as Hk by (rewrite E; apply in_or_app; right; left; auto).
    assert (forall q, In q ks -> q = k \/ t_id q <> t_id k) as Hne.
    { intros q Hq. destruct (Nat.eq_dec (t_id q) (t_id k)) as [Eq|Eq]; [|auto]. left. pose proof (find_task ks q Hnodup Hq) as F1. pose proof (find_task ks k Hnodup Hk) as F2.
      rewrite Eq in F1. congruence. }
    destruct (IH (done ++ [k]) p1) as (hs & Er & Hh).
    + rewrite <- app_assoc. exact E.
    + intros q Hq. unfold p1. cbn [p_hs]. rewrite upd_length. auto.
    + intros q Hq. unfold p1. cbn [p_hs]. apply in_app_or in Hq as [Hq|[<-|[]]]; [|apply nth_error_upd_eq; auto].
      destruct (Hne q) as [->|Hn]; [rewrite E; apply in_or_app; auto|apply nth_error_upd_eq; auto|]. rewrite nth_error_upd_neq by auto. auto.
    + intros q Hq. unfold p1. cbn [p_hs]. assert (t_id q <> t_id k) as Hn.
      { rewrite E, map_app in Hnodup. cbn [map] in Hnodup. apply NoDup_remove_2 in Hnodup. intros Eq. apply Hnodup. apply in_or_app. right. rewrite <- Eq. now apply in_map. }
      rewrite nth_error_upd_neq by auto. apply Hl. right. auto.
    + exists hs. split; [|exact Hh]. unfold p1 in Er. cbn [p_now p_pend p_busy p_kept p_log] in Er. exact Er.
Qed.

Definition first_due (now : Z) (i : nat) : Z := match find (fun k => t_id k =? i) ks with Some k => (now + t_every k)%Z | None => 0%Z end.
Lemma first_due_eq now k : In k ks -> first_due now (t_id k) = (now + t_every k)%Z.
Proof. intros Hk. unfold first_due. now rewrite (find_task ks k Hnodup Hk). Qed.

Lemma schedules_ok fuel now : (0 <= now <= N)%Z -> forall l done p, ks = done ++ l -> p_now D p = now -> p_busy D p = 0 -> p_kept D p = [] ->
  Permutation (p_pend D p) (map (pendof D (first_due now)) done) -> sorted D (p_pend D p) -> (forall id, called D id (p_log D p) = []) ->
  exists p', run fuel (schedules D l) p = Ok p' /\ p_now D p' = now /\ p_busy D p' = 0 /\ p_kept D p' = [] /\ p_hs D p' = p_hs D p /\
    Permutation (p_pend D p') (map (pendof D (first_due now)) ks) /\ sorted D (p_pend D p') /\ forall id, called D id (p_log D p') = [].
Proof.
  intros Hn. induction l as [|k l IH]; intros done p E H1 H2 H3 H4 H5 H6; cbn [schedules map sp_run].
  - exists p. rewrite app_nil_r in E. rewrite <- E in H4. splits; auto.
  - assert (sp_step D dbg cap hcap sleeps idle max_sleep (again D ks) fuel (OAct D (ASchedule D (t_id k) (t_every k) (t_data k))) p = sp_schedule D dbg cap (t_id k) (t_every k) (t_data k) p) as -> by (destruct fuel; reflexivity).
    assert (In k ks) as Hk by (rewrite E; apply in_or_app; right; left; auto). destruct (Hks k Hk) as (P1 & P2).
    unfold sp_schedule, slot. rewrite H2, H3. cbn [held flat_map length]. rewrite (Permutation_length H4), map_length.
    assert (length done < length ks) as Hl by (rewrite E, app_length; cbn [length]; lia).
    replace (length done + 0 + 0 <? cap) with true by (symmetry; apply Nat.ltb_lt; lia). cbn [bind]. unfold sp_push. rewrite (proj2 (Z.ltb_lt _ _) P1).
    rewrite sassert_true. cbn [bind]. rewrite (every_near (t_every k) N P1 P2) by lia. rewrite H1.
    rewrite (enqueue_insort D (t_every k) N P2 now (t_every k)) by (cbn [fst]; lia).
    match goal with |- context [run fuel _ ?x] => set (p1 := x) end.
    destruct (IH (done ++ [k]) p1) as (p' & R); unfold p1; cbn [sp_log p_now p_busy p_kept p_pend p_log p_hs]; auto.
    + rewrite <- app_assoc. exact E.
    + rewrite insort_perm, H4, map_app. cbn [map]. unfold pendof at 3. rewrite (first_due_eq now k Hk). apply Permutation_cons_append.
    + apply insort_sorted; auto.
    + intros id. rewrite called_app, H6. reflexivity.
    + exists p'. exact R.
Qed.

Lemma start_ok fuel now count : (0 <= now <= N)%Z -> (forall k, In k ks -> t_id k < count) ->
  exists p, run fuel (start D ks) (sp_new D now count) = Ok p /\ inv D ks p (first_due now) /\ p_now D p = now /\ forall id, called D id (p_log D p) = [].
Proof.
  intros Hn Hc. unfold start. rewrite run_app.
  destruct (attaches_ok fuel ks [] (sp_new D now count) eq_refl) as (hs & E & Hh); cbn [sp_new p_hs].
  - intros k Hk. rewrite repeat_length. auto.
  - intros k [].
  - intros k Hk. apply nth_error_repeat. auto.
  - rewrite E. cbn [bind sp_new p_now p_pend p_busy p_kept p_log].
    destruct (schedules_ok fuel now Hn ks [] (mkSp D now hs [] 0 [] []) eq_refl eq_refl eq_refl eq_refl (Permutation_refl _) (SSorted_nil _) (fun _ => eq_refl))
      as (p & R1 & R2 & R3 & R4 & R5 & R6 & R7 & R8).
    exists p. split; [exact R1|]. split; [|auto]. constructor; auto; [|lia]. intros k Hk. rewrite R5. cbn [p_hs]. auto.
Qed.
End Start.

Section Es.
Variable D : Type.
Variable nodata : D.
Variable W : Z.
Variable L : nat.
Variable dbg : bool.
Variable cfg : config.
Hypothesis Hcfg : cfg_ok W L cfg.
Variable ks : list (task D).
Variable N : Z.
Hypothesis Hnodup : NoDup (map t_id ks).
Hypothesis Hcap : length ks < c_cap cfg.
Hypothesis Hhcap : 0 < c_handler_cap cfg.
Hypothesis Hcount : forall k, In k ks -> t_id k < c_count cfg.
Hypothesis Hks : forall k, In k ks -> (0 < t_every k /\ 2 ^ 24 * t_every k + N < 2 ^ 48 /\ N < 2 ^ 24 * t_every k)%Z.
Notation idle := (kconv MS US (c_min_us cfg)).
Notation spstep := (sp_step D dbg (c_cap cfg) (c_handler_cap cfg) (c_delay cfg) idle (c_max_us cfg) (again D ks)).
Notation RR := (R D W cfg).
Variable fuel : nat.
Hypothesis Hfuel : length ks <= fuel.

Lemma ok_step o s p p' : RR s p -> spstep fuel o p = Ok p' -> exists s', step D W L dbg cfg (again D ks) fuel o s = Ok s' /\ RR s' p'.
Proof.
  intros HR E. pose proof (step_simT D W L dbg cfg (again D ks) Hcfg fuel o s p HR) as HS. rewrite E in HS.
  destruct (step D W L dbg cfg (again D ks) fuel o s) as [s'| | | |]; cbn [sim] in HS; try contradiction. exists s'. split; auto. apply HS.
Qed.

Lemma rounds_tasks : forall dts s p f, RR s p -> inv D ks p f ->
  exists ts s', rounds D W L dbg cfg (again D ks) N fuel dts s = Ok (ts, s') /\ (length ts = length dts \/ (N < s_now D s')%Z) /\
    Forall (fun t => 0 <= t <= N)%Z ts /\
    forall k, In k ks -> called D (t_id k) (s_log D s') = called D (t_id k) (s_log D s) ++
      map (fun t => (t_id k, t, t_data k)) (ticks near24 (t_every k) (f (t_id k)) ts).
Proof.
  induction dts as [|dt dts IH]; intros s p f HR Hv; cbn [rounds].
  - exists [], s. splits; auto. intros k Hk. cbn [ticks map]. now rewrite app_nil_r.
  - set (p1 := mkSp D (p_now D p + Z.of_N dt) (p_hs D p) (p_pend D p) (p_busy D p) (p_kept D p) (p_log D p)).
    destruct (ok_step (OAct D (AWait D dt)) s p p1 HR) as (s1 & E1 & R1); [destruct fuel; reflexivity|]. rewrite E1. cbn [bind].
    destruct (R_fields D W cfg s p HR) as [Fn Fl]. destruct (R_fields D W cfg s1 p1 R1) as [Fn1 Fl1].
    assert (s_log D s1 = s_log D s) as El by (rewrite Fl1, Fl; reflexivity).
    assert (inv D ks p1 f) as V1. { destruct Hv as [A1 A2 A3 A4 A5 A6]. constructor; unfold p1; cbn [p_now p_hs p_pend p_busy p_kept]; auto. lia. }
    destruct (Z.ltb_spec N (s_now D s1)) as [Hlt|Hle].
    + exists [], s1. splits; auto. intros k Hk. cbn [ticks map]. rewrite app_nil_r. now rewrite El.
    + set (t := s_now D s1) in *. assert (0 <= t <= N)%Z as Ht by (pose proof (v_pos _ _ _ _ V1); lia).
      destruct (loop_tasks D dbg (c_cap cfg) (c_handler_cap cfg) (c_delay cfg) idle (c_max_us cfg) ks N (Hidle W L cfg Hcfg) Hnodup Hcap Hks t Ht
        (length (filter (isdue D f t) ks)) fuel p1 f V1 (eq_sym Fn1) eq_refl) as (p2 & g & E2 & V2 & T2 & G & C).
      { pose proof (filter_le (isdue D f t) ks). lia. }
      destruct (ok_step (OLoop D) s1 p1 p2 R1) as (s2 & E3 & R2); [exact E2|]. rewrite E3. cbn [bind].
      destruct (R_fields D W cfg s2 p2 R2) as [Fn2 Fl2].
      destruct (IH s2 p2 g R2 V2) as (ts & s' & E4 & Hor & HF & HC). rewrite E4. cbn [bind]. exists (t :: ts), s'. split; [reflexivity|].
      split; [destruct Hor as [Hor|Hor]; [left; cbn [length]; congruence|right; exact Hor]|]. split; [constructor; auto|].
      intros k Hk. rewrite (HC k Hk), Fl2, (C k Hk), <- Fl1, El, <- app_assoc. f_equal. cbn [ticks]. rewrite (G k Hk). unfold isdue.
      destruct (f (t_id k) <=? near24 t)%Z; reflexivity.
Qed.

Lemma tasks_run now dts : (0 <= now <= N)%Z ->
  exists s0 ts s, run D W L dbg cfg (again D ks) fuel (start D ks) (es_new D nodata cfg now) = Ok s0 /\
    rounds D W L dbg cfg (again D ks) N fuel dts s0 = Ok (ts, s) /\ (length ts = length dts \/ (N < s_now D s)%Z) /\
    Forall (fun t => 0 <= t <= N)%Z ts /\
    forall k, In k ks -> called D (t_id k) (s_log D s) = map (fun t => (t_id k, t, t_data k)) (ticks near24 (t_every k) (now + t_every k) ts).
Proof.
  intros Hn.
  destruct (start_ok D dbg (c_cap cfg) (c_handler_cap cfg) (c_delay cfg) idle (c_max_us cfg) ks N Hnodup Hcap Hhcap (fun k Hk => conj (proj1 (Hks k Hk)) (proj1 (proj2 (Hks k Hk)))) fuel now (c_count cfg) Hn Hcount)
    as (p & E & Hv & Hp & Hl).
  pose proof (run_simT D W L dbg cfg (again D ks) Hcfg fuel (start D ks) _ _ (new_RT D nodata W L cfg Hcfg now)) as HS. rewrite E in HS.
  destruct (run D W L dbg cfg (again D ks) fuel (start D ks) (es_new D nodata cfg now)) as [s0| | | |] eqn:E0; cbn [sim] in HS; try contradiction.
  destruct HS as [HR _]. destruct (R_fields D W cfg s0 p HR) as [Fn Fl].
  destruct (rounds_tasks dts s0 p (first_due D ks now) HR Hv) as (ts & s & E1 & Hor & HF & HC).
  exists s0, ts, s. split; [reflexivity|]. split; [exact E1|]. split; [exact Hor|]. split; [exact HF|].
  intros k Hk. rewrite (HC k Hk), Fl, Hl. cbn [app]. now rewrite (first_due_eq D ks Hnodup now k Hk).
Qed.
End Es.

Lemma ticks_exact every : forall ts due, Forall (fun t => 0 <= t <= 2 ^ 24)%Z ts -> ticks near24 every due ts = ticks (fun t => t) every due ts.
Proof.
  induction ts as [|t ts IH]; intros due HF; auto. inversion HF as [|? ? H1 H2]; subst. cbn [ticks]. rewrite near24_id by lia. now rewrite !IH by auto.
Qed.

(** A period which the rounding of the clock swallows *)
Lemma spins dbg cap hcap sleeps idle max_sleep (k : task nat) hs : 1 < cap -> (0 < t_every k <= 2 ^ 24)%Z -> nth_error hs (t_id k) = Some [t_id k] ->
  forall fuel t due log, (due <= near24 t)%Z -> (t + t_every k <= near24 t)%Z ->
  sp_act nat dbg cap hcap sleeps idle max_sleep (again nat [k]) fuel (ALoop nat) (mkSp nat t hs [(due, (t_id k, t_data k))] 0 [] log) = Fuel.
Proof.
  intros Hcap Hp Hh. induction fuel as [|fuel IH]; intros t due log Hd Ht; cbn [sp_act sp_loop_with p_pend p_now]; unfold sp_loop_with; cbn [p_pend p_now];
    rewrite (proj2 (Z.leb_le _ _) Hd); unfold sp_trigger; cbn [sp_log p_hs]; rewrite Hh; cbn [length Nat.eqb negb]; rewrite sassert_true; cbn [bind sp_calls];
    cbn [sp_log p_log p_now p_hs p_pend p_busy p_kept]; rewrite (again_last nat [k]) by (cbn [map In]; auto; repeat constructor; intros []); cbn [sp_acts bind]; [reflexivity|].
  assert (forall fu x, sp_act nat dbg cap hcap sleeps idle max_sleep (again nat [k]) fu (ASchedule nat (t_id k) (t_every k) (t_data k)) x = sp_schedule nat dbg cap (t_id k) (t_every k) (t_data k) x) as -> by (intros [|fu] x; reflexivity).
  unfold sp_schedule, slot. cbn [sp_log p_pend p_busy p_kept held flat_map length]. replace (0 + 1 + 0 <? cap) with true by (symmetry; apply Nat.ltb_lt; lia).
  cbn [bind]. unfold sp_push. rewrite (proj2 (Z.ltb_lt _ _) (proj1 Hp)), sassert_true. cbn [bind sp_log p_now p_hs p_pend p_busy p_kept p_log enqueue].
  rewrite near24_id by lia. unfold sp_busy, sp_log. cbn [bind p_now p_hs p_pend p_busy p_kept p_log]. apply IH; lia.
Qed.

Lemma hangs W L dbg cfg (k : task nat) N now dt : cfg_ok W L cfg -> t_id k < c_count cfg -> 1 < c_cap cfg -> 0 < c_handler_cap cfg ->
  (0 < t_every k)%Z -> (2 ^ 24 * t_every k + now < 2 ^ 48)%Z -> (0 <= now)%Z -> (now + Z.of_N dt <= N)%Z ->
  (now + t_every k <= near24 (now + Z.of_N dt))%Z -> (now + Z.of_N dt + t_every k <= near24 (now + Z.of_N dt))%Z -> forall fuel,
  exists s0, run nat W L dbg cfg (again nat [k]) fuel (start nat [k]) (es_new nat 0 cfg now) = Ok s0 /\
    rounds nat W L dbg cfg (again nat [k]) N fuel [dt] s0 = Fuel.
Proof.
  intros Hcfg Hc H1 H2 P1 P2 Hn HN Hd Ht fuel.
  assert (NoDup (map t_id [k])) as Hnd by (cbn [map]; repeat constructor; intros []).
  destruct (start_ok nat dbg (c_cap cfg) (c_handler_cap cfg) (c_delay cfg) (kconv MS US (c_min_us cfg)) (c_max_us cfg) [k] now Hnd) with (fuel := fuel) (now := now) (count := c_count cfg)
    as (p & E & Hv & Hp & Hl); auto; try lia.
  { intros q [<-|[]]. auto. }
  { intros q [<-|[]]. auto. }
  pose proof (run_simT nat W L dbg cfg (again nat [k]) Hcfg fuel (start nat [k]) _ _ (new_RT nat 0 W L cfg Hcfg now)) as HS. rewrite E in HS.
  destruct (run nat W L dbg cfg (again nat [k]) fuel (start nat [k]) (es_new nat 0 cfg now)) as [s0| | | |] eqn:E0; cbn [sim] in HS; try contradiction.
  destruct HS as [HR _]. exists s0. split; [reflexivity|]. cbn [rounds].
  set (p1 := mkSp nat (p_now nat p + Z.of_N dt) (p_hs nat p) (p_pend nat p) (p_busy nat p) (p_kept nat p) (p_log nat p)).
  destruct (ok_step nat W L dbg cfg Hcfg [k] fuel (OAct nat (AWait nat dt)) s0 p p1 HR) as (s1 & E1 & R1); [destruct fuel; reflexivity|]. rewrite E1. cbn [bind].
  destruct (R_fields nat W cfg s1 p1 R1) as [Fn1 _]. rewrite Fn1. unfold p1 at 1. cbn [p_now]. rewrite Hp. rewrite (proj2 (Z.ltb_ge _ _) HN).
  pose proof (step_simT nat W L dbg cfg (again nat [k]) Hcfg fuel (OLoop nat) s1 p1 R1) as HS.
  assert (sp_step nat dbg (c_cap cfg) (c_handler_cap cfg) (c_delay cfg) (kconv MS US (c_min_us cfg)) (c_max_us cfg) (again nat [k]) fuel (OLoop nat) p1 = Fuel) as EF.
  { unfold p1. destruct Hv as [V1 V2 V3 V4 V5 V6]. cbn [map] in V2. symmetry in V2. apply Permutation_length_1_inv in V2. rewrite V2, V4, V5, Hp.
    unfold pendof. rewrite (first_due_eq nat [k] Hnd now k) by (left; auto). apply spins; auto; [lia|]. apply V1. left. auto. }
  rewrite EF in HS. destruct (step nat W L dbg cfg (again nat [k]) fuel (OLoop nat) s1); cbn [sim] in HS; try contradiction. reflexivity.
Qed.
