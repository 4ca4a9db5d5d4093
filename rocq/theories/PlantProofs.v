(** Proofs for property C134. *)
From Coq Require Import ZArith Lia Bool Reals Lra List.
From Verif Require Import Base LatchModel LatchSpec LatchProofs WearProofs PlantSpec.
Import ListNotations.
Open Scope Z_scope.

Section Plant.
Context {F : Type}.
Variable val : F -> R.
Variable ltb : F -> F -> bool.
Variable cfg : config F.
Variables (t0 gap : Z) (rate : R).
Hypothesis Hrate : (0 <= rate)%R.
Notation hi := (val (high F cfg)).
Notation lo := (val (low F cfg)).
Definition after (h : list (Z * F)) : bool * Z := fold_left (follow F ltb cfg) h (false, t0 - min_off F cfg).

Lemma after_snoc h r : after (h ++ [r]) = follow F ltb cfg (after h) r.
Proof. unfold after. now rewrite fold_left_app. Qed.

Lemma scaled x y : (x <= y)%Z -> (rate * IZR x <= rate * IZR y)%R.
Proof. intros H. apply Rmult_le_compat_l; auto. now apply IZR_le. Qed.

(** ** Ceiling *)
Definition up (B : R) (st : bool * Z) (t : Z) (v : F) : Prop :=
  (val v <= B)%R /\ snd st <= t /\ (fst st = false ->
    (snd st = t0 - min_off F cfg \/ (val v <= lo + rate * IZR (t - snd st))%R) /\ (t - snd st < min_off F cfg \/ (val v <= hi)%R)).

Lemma up_step B (st : bool * Z) t1 v1 t2 v2 : max_on F cfg = 0 -> t0 <= t1 -> t1 <= t2 -> t2 - t1 <= gap ->
  ((ltb (high F cfg) v2 = true <-> (hi < val v2)%R) /\ (ltb v2 (low F cfg) = true <-> (val v2 < lo)%R)) ->
  (val v2 <= val v1 + if fst st then 0 else rate * IZR (t2 - t1))%R ->
  (hi + rate * IZR gap <= B)%R -> (lo + rate * IZR (min_off F cfg + gap) <= B)%R -> up B st t1 v1 -> up B (follow F ltb cfg st (t2, v2)) t2 v2.
Proof.
  intros Hm Ht0 Ht Hg [Hh Hl] Hv B1 B2 (U1 & U2 & U3). destruct st as [on since]. cbn [fst snd] in *.
  assert (val v2 <= B)%R as Hb.
  { destruct on; [lra|]. destruct (U3 eq_refl) as [[I|I] [J|J]].
    - lia.
    - pose proof (scaled (t2 - t1) gap Hg). lra.
    - pose proof (scaled (t2 - since) (min_off F cfg + gap) ltac:(lia)). replace (t2 - since) with ((t1 - since) + (t2 - t1)) in H by lia. rewrite plus_IZR in H. lra.
    - pose proof (scaled (t2 - t1) gap Hg). lra. }
  assert (forall on' s', up B (on', s') t2 v2 <-> s' <= t2 /\ (on' = false -> (s' = t0 - min_off F cfg \/ (val v2 <= lo + rate * IZR (t2 - s'))%R) /\ (t2 - s' < min_off F cfg \/ (val v2 <= hi)%R))) as Q
    by (intros; unfold up; cbn [fst snd]; tauto).
  assert (forall s', s' = t2 -> (val v2 <= lo)%R -> (val v2 <= lo + rate * IZR (t2 - s'))%R) as Z0.
  { intros s' -> Hle. replace (t2 - t2) with 0 by lia. rewrite Rmult_0_r. lra. }
  unfold follow. destruct on; cbn [negb].
  - destruct (Z_lt_dec (t2 - since) (min_on F cfg)); [apply Q; split; [lia|discriminate]|]. rewrite Hm. destruct (Z.eq_dec 0 0); [|congruence].
    destruct (ltb (high F cfg) v2) eqn:Eh; [apply Q; split; [lia|discriminate]|]. destruct (ltb v2 (low F cfg)) eqn:El; [|apply Q; split; [lia|discriminate]].
    apply Q. split; [lia|]. intros _. split; [right; apply Z0; auto; apply Rlt_le, Hl; auto|right]. destruct (Rle_dec (val v2) hi); auto. match goal with H : ~ (_ <= _)%R |- _ => apply Rnot_le_lt in H; apply Hh in H; congruence end.
  - destruct (U3 eq_refl) as [I J].
    assert (since = t0 - min_off F cfg \/ (val v2 <= lo + rate * IZR (t2 - since))%R) as I'.
    { destruct I as [I|I]; [auto|right]. replace (t2 - since) with ((t1 - since) + (t2 - t1)) by lia. rewrite plus_IZR. lra. }
    destruct (Z_lt_dec (t2 - since) (min_off F cfg)) as [Hd|Hd]; [apply Q; split; [lia|auto]|].
    assert (up B (if ltb (high F cfg) v2 then (true, t2) else if ltb v2 (low F cfg) then (false, t2) else (false, since)) t2 v2) as Hlast.
    { destruct (ltb (high F cfg) v2) eqn:Eh; [apply Q; split; [lia|discriminate]|].
      assert (val v2 <= hi)%R as Hle by (destruct (Rle_dec (val v2) hi); auto; match goal with H : ~ (_ <= _)%R |- _ => apply Rnot_le_lt in H; apply Hh in H; congruence end).
      destruct (ltb v2 (low F cfg)) eqn:El; apply Q; (split; [lia|]); intros _; (split; [|right; exact Hle]); auto. right. apply Z0; auto. apply Rlt_le, Hl; auto. }
    destruct (Z.eq_dec (max_off F cfg) 0); [exact Hlast|]. destruct (Z_lt_dec (max_off F cfg) (t2 - since)); [apply Q; split; [lia|discriminate]|exact Hlast].
Qed.

(** ** Floor *)
Definition down (B : R) (st : bool * Z) (t : Z) (v : F) : Prop :=
  (B <= val v)%R /\ snd st <= t /\ (fst st = true ->
    (hi - rate * IZR (t - snd st) <= val v)%R /\ (t - snd st < min_on F cfg \/ (lo <= val v)%R)).

Lemma down_step B (st : bool * Z) t1 v1 t2 v2 : max_off F cfg = 0 -> (lo <= hi)%R -> t1 <= t2 -> t2 - t1 <= gap ->
  ((ltb (high F cfg) v2 = true <-> (hi < val v2)%R) /\ (ltb v2 (low F cfg) = true <-> (val v2 < lo)%R)) ->
  (val v1 - (if fst st then rate * IZR (t2 - t1) else 0) <= val v2)%R ->
  (B <= lo - rate * IZR gap)%R -> (B <= hi - rate * IZR (min_on F cfg + gap))%R -> down B st t1 v1 -> down B (follow F ltb cfg st (t2, v2)) t2 v2.
Proof.
  intros Hm Hord Ht Hg [Hh Hl] Hv B1 B2 (U1 & U2 & U3). destruct st as [on since]. cbn [fst snd] in *.
  assert (B <= val v2)%R as Hb.
  { destruct on; [|lra]. destruct (U3 eq_refl) as [I [J|J]].
    - pose proof (scaled (t2 - since) (min_on F cfg + gap) ltac:(lia)). replace (t2 - since) with ((t1 - since) + (t2 - t1)) in H by lia. rewrite plus_IZR in H. lra.
    - pose proof (scaled (t2 - t1) gap Hg). lra. }
  assert (forall on' s', down B (on', s') t2 v2 <-> s' <= t2 /\ (on' = true -> (hi - rate * IZR (t2 - s') <= val v2)%R /\ (t2 - s' < min_on F cfg \/ (lo <= val v2)%R))) as Q
    by (intros; unfold down; cbn [fst snd]; tauto).
  assert (forall s', s' = t2 -> (hi <= val v2)%R -> (hi - rate * IZR (t2 - s') <= val v2)%R) as Z0.
  { intros s' -> Hle. replace (t2 - t2) with 0 by lia. rewrite Rmult_0_r. lra. }
  assert (ltb (high F cfg) v2 = true -> (hi < val v2)%R) as Hh1 by (apply Hh).
  assert (ltb v2 (low F cfg) = false -> (lo <= val v2)%R) as Hl1 by (intros E; destruct (Rle_dec lo (val v2)); auto; match goal with H : ~ (_ <= _)%R |- _ => apply Rnot_le_lt in H; apply Hl in H; congruence end).
  unfold follow. destruct on; cbn [negb].
  - destruct (U3 eq_refl) as [I J].
    assert (hi - rate * IZR (t2 - since) <= val v2)%R as I'.
    { replace (t2 - since) with ((t1 - since) + (t2 - t1)) by lia. rewrite plus_IZR. lra. }
    destruct (Z_lt_dec (t2 - since) (min_on F cfg)) as [Hd|Hd]; [apply Q; split; [lia|auto]|].
    assert (down B (if ltb (high F cfg) v2 then (true, t2) else if ltb v2 (low F cfg) then (false, t2) else (true, since)) t2 v2) as Hlast.
    { destruct (ltb (high F cfg) v2) eqn:Eh; [apply Q; split; [lia|]; intros _; specialize (Hh1 eq_refl); split; [apply Z0; auto; lra|right; lra]|].
      destruct (ltb v2 (low F cfg)) eqn:El; apply Q; (split; [lia|]); [discriminate|]. intros _. split; auto. }
    destruct (Z.eq_dec (max_on F cfg) 0); [exact Hlast|]. destruct (Z_lt_dec (max_on F cfg) (t2 - since)); [apply Q; split; [lia|discriminate]|exact Hlast].
  - destruct (Z_lt_dec (t2 - since) (min_off F cfg)); [apply Q; split; [lia|discriminate]|]. rewrite Hm. destruct (Z.eq_dec 0 0); [|congruence].
    destruct (ltb (high F cfg) v2) eqn:Eh; [apply Q; split; [lia|]; intros _; specialize (Hh1 eq_refl); split; [apply Z0; auto; lra|right; lra]|].
    destruct (ltb v2 (low F cfg)) eqn:El; apply Q; (split; [lia|discriminate]).
Qed.

(** ** All readings *)
Section All.
Variable I : bool * Z -> Z -> F -> Prop.
Variable rs : list (Z * F).
Hypothesis Htime : rising F t0 rs.
Hypothesis Hfirst : forall t v rs', rs = (t, v) :: rs' -> I (after [(t, v)]) t v.
Hypothesis Hstep : forall pre t1 v1 t2 v2 post, rs = pre ++ (t1, v1) :: (t2, v2) :: post -> t0 <= t1 -> t1 <= t2 ->
  I (after (pre ++ [(t1, v1)])) t1 v1 -> I (after (pre ++ [(t1, v1); (t2, v2)])) t2 v2.

Lemma after_all : forall post pre t v, rs = pre ++ (t, v) :: post -> I (after (pre ++ [(t, v)])) t v.
Proof.
  intros post pre. revert post. induction pre as [|[tp vp] pre IH] using rev_ind; intros post t v E; [exact (Hfirst t v post E)|].
  rewrite <- app_assoc in E. cbn [app] in E. rewrite <- app_assoc. cbn [app].
  apply (Hstep pre tp vp t v post E); [| |exact (IH ((t, v) :: post) tp vp E)].
  - rewrite E in Htime. clear -Htime. revert t0 Htime. induction pre as [|[a b] pre IH]; intros t0 H; cbn [app] in H; inversion H; subst; [assumption|].
    etransitivity; [eassumption|]. eapply IH; eassumption.
  - eapply (rising_order F rs t0 pre tp vp [] t v post); [exact Htime|exact E].
Qed.
End All.
End Plant.

Section Closed.
Context {F : Type}.
Variable val : F -> R.
Variable ltb : F -> F -> bool.
Variable cfg : config F.
Hypothesis Hs : sane F cfg.
Variables (t0 gap : Z) (rate : R).
Hypothesis Ht0 : 0 <= t0.
Hypothesis Hrate : (0 <= rate)%R.
Variable rs : list (Z * F).
Hypothesis Htime : timely F t0 rs.
Notation out := (fun h => response (readings F ltb cfg (latch_new F cfg t0) h)).
Hypothesis Hcmp : compares val ltb (high F cfg) (low F cfg) rs.

Lemma out_after pre post : rs = pre ++ post -> out pre = fst (after ltb cfg t0 pre).
Proof. intros E. apply (exact F ltb cfg Hs t0 pre Ht0). rewrite E in Htime. exact (timely_prefix F pre t0 post Htime). Qed.

Lemma out_snoc pre t v post : rs = pre ++ (t, v) :: post -> out (pre ++ [(t, v)]) = fst (after ltb cfg t0 (pre ++ [(t, v)])).
Proof. intros E. apply (out_after _ post). rewrite <- app_assoc. exact E. Qed.

Lemma ceiling : max_on F cfg = 0 -> cooled val out rate gap rs -> forall t1 v1 rs', rs = (t1, v1) :: rs' -> forall t v, In (t, v) rs ->
  (val v <= Rmax (val v1) (Rmax (val (high F cfg) + rate * IZR gap) (val (low F cfg) + rate * IZR (min_off F cfg + gap))))%R.
Proof.
  intros Hm Hc t1 v1 rs' E1 t v Hin. set (B := Rmax (val v1) _). apply in_split in Hin as (pre & post & E).
  assert (val v1 <= B /\ val (high F cfg) + rate * IZR gap <= B /\ val (low F cfg) + rate * IZR (min_off F cfg + gap) <= B)%R as (B0 & B1 & B2).
  { unfold B. splits; [apply Rmax_l| |]; (eapply Rle_trans; [|apply Rmax_r]); [apply Rmax_l|apply Rmax_r]. }
  pose proof (timely_rising F rs t0 Htime) as Hr.
  refine (proj1 (after_all ltb cfg t0 (up val cfg t0 rate B) rs Hr _ _ post pre t v E)).
  - intros a b l El. rewrite E1 in El. inversion El; subst a b l. clear El.
    assert (t0 <= t1) as Ht1 by (rewrite E1 in Hr; inversion Hr; auto). assert (In (t1, v1) rs) as Hi by (rewrite E1; left; auto).
    destruct (Hcmp t1 v1 Hi) as [Hh Hl]. unfold after. cbn [fold_left]. unfold follow.
    destruct (Z_lt_dec (t1 - (t0 - min_off F cfg)) (min_off F cfg)); [lia|].
    assert (forall st, st = (true, t1) \/ (st = (false, t1) /\ (val v1 < val (low F cfg))%R /\ (val v1 <= val (high F cfg))%R) \/ (st = (false, t0 - min_off F cfg) /\ (val v1 <= val (high F cfg))%R) -> up val cfg t0 rate B st t1 v1) as Q.
    { destruct Hs as (S1 & S2 & S3 & S4). intros st [->|[[-> [H1 H2]]|[-> H2]]]; unfold up; cbn [fst snd].
      - split; [exact B0|]. split; [lia|discriminate].
      - split; [exact B0|]. split; [lia|]. intros _. split; [right|right; exact H2]. replace (t1 - t1) with 0 by lia. rewrite Rmult_0_r. lra.
      - split; [exact B0|]. split; [lia|]. intros _. split; [left; reflexivity|right; exact H2]. }
    assert (up val cfg t0 rate B (if ltb (high F cfg) v1 then (true, t1) else if ltb v1 (low F cfg) then (false, t1) else (false, t0 - min_off F cfg)) t1 v1) as Hlast.
    { apply Q. destruct (ltb (high F cfg) v1) eqn:Eh; [left; reflexivity|right].
      assert (val v1 <= val (high F cfg))%R as Hle by (destruct (Rle_dec (val v1) (val (high F cfg))); auto; match goal with H : ~ (_ <= _)%R |- _ => apply Rnot_le_lt in H; apply Hh in H; congruence end).
      destruct (ltb v1 (low F cfg)) eqn:El; [left; splits; auto; apply Hl; auto|right; auto]. }
    destruct (Z.eq_dec (max_off F cfg) 0); [exact Hlast|]. destruct (Z_lt_dec (max_off F cfg) (t1 - (t0 - min_off F cfg))); [apply Q; left; reflexivity|exact Hlast].
  - intros p a va b vb q Eq La Lb HI. destruct (Hc p a va b vb q Eq) as [Hg Hv]. rewrite (out_snoc p a va ((b, vb) :: q) Eq) in Hv.
    change (p ++ [(a, va); (b, vb)]) with (p ++ [(a, va)] ++ [(b, vb)]). rewrite app_assoc, after_snoc.
    apply (up_step val ltb cfg t0 gap rate Hrate B _ a va b vb); auto. apply (Hcmp b vb). rewrite Eq. apply in_or_app. right. right. left. reflexivity.
Qed.

Lemma floor : max_off F cfg = 0 -> (val (low F cfg) <= val (high F cfg))%R -> warmed val out rate gap rs -> forall t1 v1 rs', rs = (t1, v1) :: rs' -> forall t v, In (t, v) rs ->
  (Rmin (val v1) (Rmin (val (low F cfg) - rate * IZR gap) (val (high F cfg) - rate * IZR (min_on F cfg + gap))) <= val v)%R.
Proof.
  intros Hm Hord Hc t1 v1 rs' E1 t v Hin. set (B := Rmin (val v1) _). apply in_split in Hin as (pre & post & E).
  assert (B <= val v1 /\ B <= val (low F cfg) - rate * IZR gap /\ B <= val (high F cfg) - rate * IZR (min_on F cfg + gap))%R as (B0 & B1 & B2).
  { unfold B. splits; [apply Rmin_l| |]; (eapply Rle_trans; [apply Rmin_r|]); [apply Rmin_l|apply Rmin_r]. }
  pose proof (timely_rising F rs t0 Htime) as Hr.
  refine (proj1 (after_all ltb cfg t0 (down val cfg rate B) rs Hr _ _ post pre t v E)).
  - intros a b l El. rewrite E1 in El. inversion El; subst a b l. clear El.
    assert (t0 <= t1) as Ht1 by (rewrite E1 in Hr; inversion Hr; auto). assert (In (t1, v1) rs) as Hi by (rewrite E1; left; auto).
    destruct (Hcmp t1 v1 Hi) as [Hh Hl]. unfold after. cbn [fold_left]. unfold follow.
    destruct (Z_lt_dec (t1 - (t0 - min_off F cfg)) (min_off F cfg)); [lia|]. rewrite Hm. destruct (Z.eq_dec 0 0); [|congruence].
    destruct Hs as (S1 & S2 & S3 & S4).
    destruct (ltb (high F cfg) v1) eqn:Eh.
    + unfold down. cbn [fst snd]. pose proof (proj1 Hh eq_refl) as H1. split; [exact B0|]. split; [lia|]. intros _. replace (t1 - t1) with 0 by lia. rewrite Rmult_0_r. split; [lra|right; lra].
    + destruct (ltb v1 (low F cfg)); unfold down; cbn [fst snd]; (split; [exact B0|]); (split; [lia|discriminate]).
  - intros p a va b vb q Eq La Lb HI. destruct (Hc p a va b vb q Eq) as [Hg Hv]. rewrite (out_snoc p a va ((b, vb) :: q) Eq) in Hv.
    change (p ++ [(a, va); (b, vb)]) with (p ++ [(a, va)] ++ [(b, vb)]). rewrite app_assoc, after_snoc.
    apply (down_step val ltb cfg gap rate Hrate B _ a va b vb); auto. apply (Hcmp b vb). rewrite Eq. apply in_or_app. right. right. left. reflexivity.
Qed.
End Closed.

(** For examples *)
Section Chain.
Context {A : Type}.
Variable P : list A -> A -> A -> Prop.
Fixpoint chain (pre rs : list A) : Prop :=
  match rs with
  | a :: rs' => match rs' with b :: _ => P (pre ++ [a]) a b | [] => True end /\ chain (pre ++ [a]) rs'
  | [] => True
  end.
Lemma chain_splits : forall rs pre, chain pre rs -> forall mid a b post, rs = mid ++ a :: b :: post -> P (pre ++ mid ++ [a]) a b.
Proof.
  induction rs as [|x rs IH]; intros pre H mid a b post E; [destruct mid; discriminate|]. cbn [chain] in H. destruct H as [H1 H2].
  destruct mid as [|y mid]; cbn [app] in E; inversion E; subst; [exact H1|].
  specialize (IH (pre ++ [y]) H2 mid a b post eq_refl). rewrite <- app_assoc in IH. exact IH.
Qed.
End Chain.
Lemma cooled_chain {F} (val : F -> R) (out : list (Z * F) -> bool) rise gap rs :
  chain (fun pre (a b : Z * F) => fst b - fst a <= gap /\ (val (snd b) <= val (snd a) + if out pre then 0 else rise * IZR (fst b - fst a))%R) [] rs -> cooled val out rise gap rs.
Proof. intros H pre t1 v1 t2 v2 post E. exact (chain_splits _ rs [] H pre (t1, v1) (t2, v2) post E). Qed.
Lemma warmed_chain {F} (val : F -> R) (out : list (Z * F) -> bool) fall gap rs :
  chain (fun pre (a b : Z * F) => fst b - fst a <= gap /\ (val (snd a) - (if out pre then fall * IZR (fst b - fst a) else 0) <= val (snd b))%R) [] rs -> warmed val out fall gap rs.
Proof. intros H pre t1 v1 t2 v2 post E. exact (chain_splits _ rs [] H pre (t1, v1) (t2, v2) post E). Qed.
Lemma compares_Z high low rs : compares IZR Z.ltb high low rs.
Proof. intros t v _. rewrite !Z.ltb_lt. split; split; try apply IZR_lt; apply lt_IZR. Qed.
