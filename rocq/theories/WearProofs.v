(** Proofs about the number of times a latch switches. *)
From Coq Require Import ZArith List Bool Lia.
From Verif Require Import Base LatchModel LatchSpec LatchProofs WearSpec.
Import ListNotations.
Open Scope Z_scope.

Section Changes.
Context {F : Type}.
Variable out : list (Z * F) -> bool.
(** The first change after [pre] *)
Lemma changes_cons rs : forall pre t b c, changes out pre rs = (t, b) :: c ->
  exists mid v post, rs = mid ++ (t, v) :: post /\ out (pre ++ mid) = out pre /\ out (pre ++ mid ++ [(t, v)]) = b /\ b = negb (out pre) /\
    c = changes out (pre ++ mid ++ [(t, v)]) post.
Proof.
  induction rs as [|[t v] rs IH]; intros pre t' b c E; [discriminate|]. cbn [changes fst] in E.
  destruct (eqb (out (pre ++ [(t, v)])) (out pre)) eqn:Q; cbn [app] in E.
  - apply eqb_prop in Q. destruct (IH _ _ _ _ E) as (mid & v' & post & -> & H1 & H2 & H3 & ->).
    exists ((t, v) :: mid), v', post. rewrite <- !app_assoc in *. cbn [app] in *. rewrite <- Q. auto.
  - apply eqb_false_iff in Q. injection E as <- <- <-. exists [], v, rs. rewrite app_nil_r. cbn [app]. splits; auto.
    destruct (out (pre ++ [(t, v)])), (out pre); auto; congruence.
Qed.
Variable G : bool -> Z -> Z -> Prop.
(** [G b t1 t2] holds of two changes, the first one to [b] *)
Lemma changes_gap rs : (forall pre t1 v1 mid t2 v2 post, rs = pre ++ (t1, v1) :: mid ++ (t2, v2) :: post ->
    out (pre ++ [(t1, v1)]) <> out pre -> out (pre ++ (t1, v1) :: mid ++ [(t2, v2)]) <> out (pre ++ (t1, v1) :: mid) -> G (out (pre ++ (t1, v1) :: mid)) t1 t2) ->
  forall n l, changes out [] rs = n ++ l -> match l with (t1, b1) :: (t2, b2) :: _ => b2 = negb b1 /\ G b1 t1 t2 | _ => True end.
Proof.
  intros HG. enough (forall n pre rs' l, rs = pre ++ rs' -> changes out pre rs' = n ++ l -> match l with (t1, b1) :: (t2, b2) :: _ => b2 = negb b1 /\ G b1 t1 t2 | _ => True end) as H.
  { intros n l E. exact (H n [] rs l eq_refl E). }
  induction n as [|[t b] n IH]; intros pre rs' l -> E; cbn [app] in E.
  - destruct l as [|[t1 b1] [|[t2 b2] l]]; auto. apply changes_cons in E as (mid & v1 & post & -> & H1 & H2 & H3 & E).
    symmetry in E. apply changes_cons in E as (mid2 & v2 & post2 & -> & K1 & K2 & K3 & _). rewrite H2 in K3.
    split; [exact K3|].
    assert ((pre ++ mid) ++ (t1, v1) :: mid2 = (pre ++ mid ++ [(t1, v1)]) ++ mid2) as A1 by (rewrite <- !app_assoc; reflexivity).
    assert ((pre ++ mid) ++ (t1, v1) :: mid2 ++ [(t2, v2)] = (pre ++ mid ++ [(t1, v1)]) ++ mid2 ++ [(t2, v2)]) as A2 by (rewrite <- !app_assoc; reflexivity).
    assert ((pre ++ mid) ++ [(t1, v1)] = pre ++ mid ++ [(t1, v1)]) as A3 by (rewrite <- !app_assoc; reflexivity).
    specialize (HG (pre ++ mid) t1 v1 mid2 t2 v2 post2). rewrite A1, A2, A3, K1, K2, H1, H2 in HG.
    apply HG; [rewrite <- !app_assoc; reflexivity| |]; [|rewrite K3]; destruct b1, (out pre); cbn in *; congruence.
  - apply changes_cons in E as (mid & v & post & -> & _ & _ & _ & E). symmetry in E.
    apply (IH (pre ++ mid ++ [(t, v)]) post l); [|exact E]. rewrite <- !app_assoc. reflexivity.
Qed.
End Changes.

(** Alternating changes: the times of switching on *)
Lemma starts_far (G : bool -> Z -> Z -> Prop) (D : Z -> Z -> Z -> Prop) : (forall t, D 0 t t) ->
  (forall k t1 t2 t3 t4, D k t3 t4 -> G true t1 t2 -> G false t2 t3 -> 0 <= k -> t1 <= t2 <= t3 -> t3 <= t4 -> D (k + 1) t1 t4) ->
  forall l, (forall n m, l = n ++ m -> match m with (t1, b1) :: (t2, b2) :: _ => t1 <= t2 /\ b2 = negb b1 /\ G b1 t1 t2 | _ => True end) ->
  forall i j ti tj, nth_error (map fst (filter snd l)) i = Some ti -> nth_error (map fst (filter snd l)) j = Some tj -> (i <= j)%nat ->
  ti <= tj /\ D (Z.of_nat (j - i)) ti tj.
Proof.
  intros D0 DS.
  (* the first start in [l] is [a], the [j]-th is at [tj] *)
  assert (forall k l a tj, (length l <= k)%nat -> (forall n m, l = n ++ m -> match m with (t1, b1) :: (t2, b2) :: _ => t1 <= t2 /\ b2 = negb b1 /\ G b1 t1 t2 | _ => True end) ->
    forall j, nth_error (map fst (filter snd l)) 0 = Some a -> nth_error (map fst (filter snd l)) j = Some tj -> a <= tj /\ D (Z.of_nat j) a tj) as H.
  { induction k as [|k IH]; intros l a tj Lk Hl j Ha Hj; [destruct l; [discriminate|cbn in Lk; lia]|].
    destruct l as [|[t [|]] l]; [discriminate| |].
    - cbn [filter snd map fst nth_error] in Ha. injection Ha as ->. destruct j as [|j]; [cbn in Hj; injection Hj as ->; split; [lia|apply D0]|].
      cbn [filter snd map fst nth_error] in Hj. destruct l as [|[t2 b2] l]; [destruct j; discriminate|].
      destruct (Hl [] _ eq_refl) as (L1 & -> & G1). cbn [negb filter snd] in Hj. destruct l as [|[t3 b3] l]; [destruct j; discriminate|].
      destruct (Hl [(a, true)] _ eq_refl) as (L2 & -> & G2). cbn [negb] in *.
      destruct (IH ((t3, true) :: l) t3 tj) with (j := j) as [L3 D3]; [cbn in Lk |- *; lia| |reflexivity|exact Hj|].
      { intros n m E. apply (Hl ((a, true) :: (t2, false) :: n) m). cbn [app]. now rewrite <- E. }
      split; [lia|]. replace (Z.of_nat (S j)) with (Z.of_nat j + 1) by lia. apply (DS _ a t2 t3 tj); auto; lia.
    - cbn [filter snd] in Ha, Hj. apply (IH l a tj); [cbn in Lk; lia| |exact Ha|exact Hj]. intros n m E. apply (Hl ((t, false) :: n) m). cbn [app]. now rewrite <- E. }
  (* any start *)
  enough (forall l, (forall n m, l = n ++ m -> match m with (t1, b1) :: (t2, b2) :: _ => t1 <= t2 /\ b2 = negb b1 /\ G b1 t1 t2 | _ => True end) ->
    forall i d ti tj, nth_error (map fst (filter snd l)) i = Some ti -> nth_error (map fst (filter snd l)) (i + d) = Some tj -> ti <= tj /\ D (Z.of_nat d) ti tj) as K.
  { intros l Hl i j ti tj Hi Hj Le. apply (K l Hl i (j - i)%nat); [exact Hi|]. now replace (i + (j - i))%nat with j by lia. }
  induction l as [|[t [|]] l IH]; intros Hl i d ti tj Hi Hj; [destruct i; discriminate| |].
  - destruct i as [|i]; [exact (H (length ((t, true) :: l)) _ ti tj (le_n _) Hl d Hi Hj)|]. cbn [filter snd map nth_error Nat.add] in Hi, Hj.
    apply (IH (fun n m E => Hl ((t, true) :: n) m (f_equal (cons (t, true)) E)) i d ti tj Hi Hj).
  - cbn [filter snd] in Hi, Hj. apply (IH (fun n m E => Hl ((t, false) :: n) m (f_equal (cons (t, false)) E)) i d ti tj Hi Hj).
Qed.

Lemma rising_order F rs : forall t0 pre t1 v1 mid t2 v2 post, rising F t0 rs -> rs = pre ++ (t1, v1) :: mid ++ (t2, v2) :: post -> t1 <= t2.
Proof.
  assert (A : forall l t0 t (v : F) post, rising F t0 (l ++ (t, v) :: post) -> t0 <= t).
  { induction l as [|[t' v'] l IH]; intros t0 t v post R; cbn [app] in R; inversion R; subst; [assumption|]. etransitivity; [eassumption|]. eapply IH; eassumption. }
  intros t0 pre t1 v1 mid t2 v2 post R ->. revert t0 R. induction pre as [|[t v] pre IH]; intros t0 R; cbn [app] in R; inversion R; subst; eauto.
Qed.
Lemma rising_prefix F l : forall t0 l', rising F t0 (l ++ l') -> rising F t0 l.
Proof. induction l as [|[t v] l IH]; intros t0 l' R; cbn [app] in *; [constructor|]. inversion R; subst. constructor; eauto. Qed.
Lemma timely_prefix F l : forall t0 l', timely F t0 (l ++ l') -> timely F t0 l.
Proof. induction l as [|[t v] l IH]; intros t0 l' R; cbn [app] in *; [constructor|]. inversion R; subst. constructor; eauto. Qed.
Lemma timely_rising F l : forall t0, timely F t0 l -> rising F t0 l.
Proof. induction l as [|[t v] l IH]; intros t0 R; inversion R; subst; constructor; auto; lia. Qed.

Section Latch.
Variable F : Type.
Variable ltb : F -> F -> bool.
Variable cfg : config F.
Lemma wear_exact t0 rs : sane F cfg -> 0 <= t0 -> timely F t0 rs ->
  let out h := response (readings F ltb cfg (latch_new F cfg t0) h) in
  forall i j ti tj, nth_error (starts out rs) i = Some ti -> nth_error (starts out rs) j = Some tj -> (i <= j)%nat ->
  ti <= tj /\ Z.of_nat (j - i) * (min_on F cfg + min_off F cfg) <= tj - ti.
Proof.
  intros Sn T0 Ht out. set (G := fun (b : bool) t1 t2 => t1 <= t2 /\ (if b then min_on F cfg else min_off F cfg) <= t2 - t1).
  assert (forall n l, changes out [] rs = n ++ l -> match l with (t1, b1) :: (t2, b2) :: _ => b2 = negb b1 /\ G b1 t1 t2 | _ => True end) as H.
  { apply changes_gap. intros pre t1 v1 mid t2 v2 post E C1 C2. split; [exact (rising_order F rs t0 pre t1 v1 mid t2 v2 post (timely_rising F rs t0 Ht) E)|].
    apply (switch_gap F ltb cfg Sn t0 pre t1 v1 mid t2 v2 T0); auto. subst rs.
    replace (pre ++ (t1, v1) :: mid ++ (t2, v2) :: post) with ((pre ++ (t1, v1) :: mid ++ [(t2, v2)]) ++ post) in Ht by (rewrite <- !app_assoc; cbn [app]; rewrite <- !app_assoc; reflexivity).
    exact (timely_prefix F _ _ _ Ht). }
  apply (starts_far G (fun k a b => k * (min_on F cfg + min_off F cfg) <= b - a)).
  - intros; lia.
  - unfold G. intros k t1 t2 t3 t4 D [_ G1] [_ G2] K _ _. lia.
  - intros n m E. specialize (H n m E). destruct m as [|[t1 b1] [|[t2 b2] m]]; auto. destruct H as [-> [L X]]. unfold G. auto.
Qed.
Lemma wear_any t0 rs : nonneg F cfg -> 0 <= t0 -> rising F t0 rs ->
  let out h := response (readings F ltb cfg (latch_new F cfg t0) h) in
  forall i j ti tj, nth_error (starts out rs) i = Some ti -> nth_error (starts out rs) j = Some tj -> (i <= j)%nat ->
  ti <= tj /\ 2 ^ 24 * (Z.of_nat (j - i) * (min_on F cfg + min_off F cfg) - (tj - ti)) <= Z.of_nat (j - i) * (min_on F cfg + min_off F cfg + 2 * tj).
Proof.
  intros Sn T0 Ht out. set (G := fun (b : bool) t1 t2 => t1 <= t2 /\ 2 ^ 24 * ((if b then min_on F cfg else min_off F cfg) - (t2 - t1)) <= (if b then min_on F cfg else min_off F cfg) + t2).
  assert (forall n l, changes out [] rs = n ++ l -> match l with (t1, b1) :: (t2, b2) :: _ => b2 = negb b1 /\ G b1 t1 t2 | _ => True end) as H.
  { apply changes_gap. intros pre t1 v1 mid t2 v2 post E C1 C2. split; [exact (rising_order F rs t0 pre t1 v1 mid t2 v2 post Ht E)|].
    apply (switch_gap_any F ltb cfg Sn t0 pre t1 v1 mid t2 v2 T0); auto. subst rs.
    replace (pre ++ (t1, v1) :: mid ++ (t2, v2) :: post) with ((pre ++ (t1, v1) :: mid ++ [(t2, v2)]) ++ post) in Ht by (rewrite <- !app_assoc; cbn [app]; rewrite <- !app_assoc; reflexivity).
    exact (rising_prefix F _ _ _ Ht). }
  apply (starts_far G (fun k a b => 2 ^ 24 * (k * (min_on F cfg + min_off F cfg) - (b - a)) <= k * (min_on F cfg + min_off F cfg + 2 * b))).
  - intros; lia.
  - unfold G. intros k t1 t2 t3 t4 D [_ G1] [_ G2] K L1 L2. nia.
  - intros n m E. specialize (H n m E). destruct m as [|[t1 b1] [|[t2 b2] m]]; auto. destruct H as [-> [L X]]. unfold G. auto.
Qed.
End Latch.
