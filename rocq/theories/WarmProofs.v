(** Lemmas on the phases of PID::autotune around the tuner. *)
From Coq Require Import ZArith Bool List Lia.
From Flocq Require Import IEEE754.BinarySingleNaN.
From Verif Require Import Base FloatModel KTimeModel KTimeProofs TimersModel TimersSpec TimersProofs TunerModel WarmModel.
Import ListNotations.
Open Scope Z_scope.

Lemma half_hour : from_other MIN MS 30 = 1800000. Proof. vm_compute. reflexivity. Qed.
Lemma go_before timeout r f : 0 < timeout -> near24 (hal r) < f -> go_on timeout r (mkAlarm f false) = (true, mkAlarm f false).
Proof.
  intros T B. unfold go_on, alarm_expired, kle. cbn [aexpired afuture]. rewrite from_other_same.
  replace (f <=? near24 (hal r)) with false by (symmetry; apply Z.leb_gt; lia). reflexivity.
Qed.
Lemma go_after timeout r f : 0 < timeout -> f <= near24 (hal r) -> go_on timeout r (mkAlarm f false) = (false, mkAlarm f true).
Proof.
  intros T B. unfold go_on, alarm_expired, kle. cbn [aexpired afuture]. rewrite from_other_same.
  replace (f <=? near24 (hal r)) with true by (symmetry; apply Z.leb_le; lia). unfold keq. rewrite from_other_same.
  replace (near24 0) with 0 by reflexivity. cbn [negb orb]. destruct (Z.eqb_spec timeout 0); [lia | reflexivity].
Qed.

Section Start.
Variables (lower upper sp : float) (t0 : Z).
Definition heating (r : round) : Prop := f_lt (reading r) sp = true /\ near24 (hal r) < t0 + 1800000.
Lemma heat_on rs more : Forall heating rs ->
  heat upper sp 1800000 (rs ++ more) (mkAlarm (t0 + 1800000) false) =
  (repeat upper (length rs) ++ fst (heat upper sp 1800000 more (mkAlarm (t0 + 1800000) false)), snd (heat upper sp 1800000 more (mkAlarm (t0 + 1800000) false))).
Proof.
  induction 1 as [| r rs (L & B) F IH]; [cbn; now destruct (heat upper sp 1800000 more _) |].
  cbn [app heat length repeat]. rewrite L, go_before by (lia || assumption). rewrite IH. reflexivity.
Qed.
Lemma heat_end r rs : f_lt (reading r) sp = false \/ t0 + 1800000 <= near24 (hal r) ->
  exists a, heat upper sp 1800000 (r :: rs) (mkAlarm (t0 + 1800000) false) = ([], Some (a, rs)).
Proof.
  intros E. cbn [heat]. destruct (f_lt (reading r) sp) eqn:L; [| now eexists]. destruct E as [E | E]; [discriminate |].
  rewrite go_after by (lia || assumption). now eexists.
Qed.
Lemma start_alarm : kadd MS MS t0 (from_other MIN MS 30) = t0 + 1800000.
Proof. rewrite half_hour. unfold kadd. rewrite from_other_same, near24_id; lia. Qed.
Lemma start_done satured rs r rest : f_gt sp f_zero = true -> Forall heating rs ->
  f_lt (reading r) sp = false \/ t0 + 1800000 <= near24 (hal r) ->
  autotune_start lower upper sp satured t0 (rs ++ r :: rest) = (repeat upper (length rs) ++ [lower], Some rest).
Proof.
  intros P F E. unfold autotune_start, block_until. rewrite P, start_alarm, half_hour, heat_on by exact F.
  destruct (heat_end r rest E) as (a & ->). cbn [fst snd]. now rewrite app_nil_r.
Qed.
Lemma start_pending satured rs : f_gt sp f_zero = true -> Forall heating rs ->
  autotune_start lower upper sp satured t0 rs = (repeat upper (length rs), None).
Proof.
  intros P F. unfold autotune_start, block_until. rewrite P, start_alarm, half_hour. rewrite <- (app_nil_r rs) at 1. rewrite heat_on by exact F.
  cbn [heat fst snd]. now rewrite app_nil_r.
Qed.
End Start.

Lemma wait_short fuel start i now : short start -> short i -> start <= now -> now <= start + i -> (Z.to_nat (start + i - now) <= fuel)%nat ->
  wait fuel start i now = Ok (start + i).
Proof.
  unfold short. revert now. induction fuel as [| f IH]; intros now S1 I1 A B F; cbn [wait]; unfold klt, ksub; rewrite !from_other_same, !near24_id by lia.
  - destruct (Z.ltb_spec (now - start) i); [lia | f_equal; lia].
  - destruct (Z.ltb_spec (now - start) i); [| f_equal; lia]. apply IH; unfold short; lia.
Qed.
(** The times of the measurements *)
Fixpoint grid (n : nat) (s i : Z) : list Z := match n with O => [] | S k => s :: grid k (s + i) i end.
Lemma paced_grid c fuel vs s t : 0 < t_interval c -> 0 <= s -> s + t_interval c * Z.of_nat (length vs) <= 2 ^ 24 -> (Z.to_nat (t_interval c) <= fuel)%nat ->
  match autotune_loop c (combine vs (grid (length vs) s (t_interval c))) t with
  | Some (os, t2) => paced c fuel vs s t = Ok (combine (grid (length os) s (t_interval c)) os, t2)
  | None => paced c fuel vs s t = Fuel
  end.
Proof.
  revert s t. induction vs as [| v vs IH]; intros s t I1 S1 B F; cbn [length grid combine autotune_loop paced].
  - destruct (is_finished c t); reflexivity.
  - destruct (is_finished c t); [reflexivity |]. destruct (do_autotune c v s t) as [o t1]. rewrite wait_short by (unfold short; cbn [length] in B; nia).
    cbn [bind]. specialize (IH (s + t_interval c) t1 I1). cbn [length] in B.
    assert (A1 : 0 <= s + t_interval c) by lia. assert (A2 : s + t_interval c + t_interval c * Z.of_nat (length vs) <= 2 ^ 24) by lia.
    specialize (IH A1 A2 F). destruct (autotune_loop c _ t1) as [[os t2] |]; rewrite IH; reflexivity.
Qed.
Lemma first_end sp t0 rs :
  Forall (heating sp t0) rs \/ exists pre r post, rs = pre ++ r :: post /\ Forall (heating sp t0) pre /\
    (f_lt (reading r) sp = false \/ t0 + 1800000 <= near24 (hal r)).
Proof.
  induction rs as [| r rs IH]; [now left |].
  destruct (f_lt (reading r) sp) eqn:L; [| right; exists [], r, rs; auto].
  destruct (Z_lt_le_dec (near24 (hal r)) (t0 + 1800000)) as [B | B]; [| right; exists [], r, rs; auto].
  assert (H : heating sp t0 r) by (split; auto). destruct IH as [A | (pre & x & post & -> & P & Q)]; [left; now constructor |].
  right. exists (r :: pre), x, post. split; [reflexivity |]. split; [now constructor | exact Q].
Qed.
Lemma start_ends lower upper sp satured t0 rs m : f_gt sp f_zero = true -> 0 <= t0 -> t0 + 1000 * Z.of_nat m <= 2 ^ 24 * (1000 * Z.of_nat m - 1800000) \/ m = 1800%nat /\ t0 + 1800000 <= 2 ^ 24 ->
  (forall k r, nth_error rs k = Some r -> t0 + 1000 * Z.of_nat k <= hal r) -> (m < length rs)%nat ->
  exists n rest, (n <= m)%nat /\ autotune_start lower upper sp satured t0 rs = (repeat upper n ++ [lower], Some rest).
Proof.
  intros P T M K L.
  assert (N : forall pre post, rs = pre ++ post -> Forall (heating sp t0) pre -> (length pre <= m)%nat).
  { intros pre post E F. destruct (le_lt_dec (length pre) m) as [| G]; [assumption |]. exfalso.
    destruct (nth_error pre m) as [r |] eqn:R; [| apply nth_error_None in R; lia].
    assert (R' : nth_error rs m = Some r) by (rewrite E, nth_error_app1; [exact R | lia]).
    apply K in R'. rewrite Forall_forall in F. destruct (F r (nth_error_In _ _ R)) as (_ & B).
    apply near24_mono in R'. assert (t0 + 1800000 <= near24 (t0 + 1000 * Z.of_nat m)); [| lia].
    destruct M as [M | [-> M]]; [pose proof (near24_error (t0 + 1000 * Z.of_nat m)); lia | rewrite near24_id; lia]. }
  destruct (first_end sp t0 rs) as [A | (pre & r & post & E & F & D)].
  - pose proof (N rs [] (eq_sym (app_nil_r rs)) A). lia.
  - exists (length pre), post. split; [now apply (N pre (r :: post)) |]. rewrite E. now apply start_done.
Qed.
Lemma grid_nth n s i k x : nth_error (grid n s i) k = Some x -> x = s + i * Z.of_nat k.
Proof. revert s k. induction n as [| n IH]; intros s [| k] H; try discriminate; cbn in H; [injection H as <-; lia | apply IH in H; lia]. Qed.
Lemma grid_length n s i : length (grid n s i) = n. Proof. revert s. induction n; intros s; cbn; [reflexivity | now rewrite IHn]. Qed.
Lemma nth_combine_fst {A B} (a : list A) (b : list B) k x : nth_error (combine a b) k = Some x -> nth_error a k = Some (fst x).
Proof. revert b k. induction a as [| y a IH]; intros [| z b] [| k] H; try discriminate; cbn in *; [now injection H as <- | now apply (IH b)]. Qed.
Lemma map_snd_combine {A B} (a : list A) (b : list B) : length a = length b -> map snd (combine a b) = b.
Proof. revert b. induction a as [| x a IH]; intros [| y b] H; try discriminate; cbn; [reflexivity | rewrite IH; auto]. Qed.
Lemma pace c fuel vs s t os t2 : 0 < t_interval c -> 0 <= s -> s + t_interval c * Z.of_nat (length vs) <= 2 ^ 24 -> (Z.to_nat (t_interval c) <= fuel)%nat ->
  paced c fuel vs s t = Ok (os, t2) ->
  (forall k x, nth_error os k = Some x -> fst x = s + t_interval c * Z.of_nat k) /\
  autotune_loop c (combine vs (map (fun k => s + t_interval c * Z.of_nat k) (seq 0 (length vs)))) t = Some (map snd os, t2).
Proof.
  intros I1 S1 B F P. pose proof (paced_grid c fuel vs s t I1 S1 B F) as G.
  assert (E : forall n s0, map (fun k => s0 + t_interval c * Z.of_nat k) (seq 0 n) = grid n s0 (t_interval c)).
  { induction n as [| n IH]; intros s0; [reflexivity |]. cbn [seq map grid]. f_equal; [lia |]. rewrite <- (IH (s0 + t_interval c)), <- seq_shift, map_map.
    apply map_ext. intros k. lia. }
  rewrite E. destruct (autotune_loop c _ t) as [[os' t2'] |]; [| congruence]. rewrite G in P. injection P as <- <-. split.
  - intros k x H. apply nth_combine_fst in H. now apply grid_nth in H.
  - now rewrite map_snd_combine by apply grid_length.
Qed.

(** ** Pace at any uptime *)
Lemma wait_any fuel start i now now' : start <= now -> now <= Z.max start (near24 start + near24 i) -> wait fuel start i now = Ok now' -> now' = Z.max start (near24 start + near24 i).
Proof.
  revert now. induction fuel as [| f IH]; intros now A B H; cbn [wait] in H; unfold klt, ksub in H; rewrite !from_other_same in H;
    destruct (Z.ltb_spec (now - near24 start) (near24 i)); try discriminate.
  - injection H as <-. lia.
  - apply (IH (now + 1)); try assumption; lia.
  - injection H as <-. lia.
Qed.
(** Consecutive times *)
Inductive spaced (i : Z) : list (Z * float) -> Prop :=
| sp_one x : spaced i [x]
| sp_more x y l : 2 ^ 24 * Z.abs (fst y - fst x - i) <= Z.abs (fst x) + Z.abs i -> fst x <= fst y -> spaced i (y :: l) -> spaced i (x :: y :: l).
Lemma pace_any c fuel vs s t os t2 : 0 <= t_interval c -> 0 <= s -> paced c fuel vs s t = Ok (os, t2) ->
  (exists x, hd_error os = Some x /\ fst x = s) /\ spaced (t_interval c) os /\
  autotune_loop c (combine vs (map fst os)) t = Some (map snd os, t2).
Proof.
  intros I0. revert s t os t2. induction vs as [| v vs IH]; intros s t os t2 S0 H; cbn [paced] in H.
  - destruct (is_finished c t) eqn:E; [| discriminate]. injection H as <- <-. cbn. rewrite E. split; [eauto |]. split; [constructor | reflexivity].
  - destruct (is_finished c t) eqn:E.
    + injection H as <- <-. cbn [map combine autotune_loop fst snd hd_error]. rewrite E. split; [eauto |]. split; [constructor | reflexivity].
    + destruct (do_autotune c v s t) as [o t1] eqn:ED. destruct (wait fuel s (t_interval c) s) as [now' | | | |] eqn:EW; try discriminate. cbn [bind] in H.
      apply wait_any in EW; [| lia | lia].
      destruct (paced c fuel vs now' t1) as [[os' t2'] | | | |] eqn:EP; try discriminate. cbn [bind] in H. injection H as <- <-.
      assert (0 <= now') as N0 by lia.
      destruct (IH now' t1 os' t2' N0 EP) as ((x & Hx & Ex) & Hsp & Hl). split; [cbn; eauto |]. split.
      * destruct os' as [| y os']; [discriminate |]. injection Hx as ->. constructor; [| cbn [fst]; lia | exact Hsp]. cbn [fst]. rewrite Ex.
        pose proof (near24_error s). pose proof (near24_error (t_interval c)). lia.
      * cbn [map combine autotune_loop fst snd]. rewrite E, ED, Hl. reflexivity.
Qed.
