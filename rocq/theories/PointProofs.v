(** Lemmas on points. *)
From Coq Require Import ZArith Lia Bool.
From Verif Require Import Base PointModel.
Open Scope Z_scope.

Lemma point_ext a b : px a = px b -> py a = py b -> pz a = pz b -> a = b.
Proof. destruct a, b. cbn. congruence. Qed.
Lemma eq_iff a b : (p_eq a b = true <-> a = b) /\ p_ne a b = negb (p_eq a b).
Proof.
  unfold p_eq, p_ne. split; [| now rewrite !negb_andb]. rewrite !andb_true_iff, !Z.eqb_eq. split; [intros [[A B] C]; now apply point_ext | intros ->; auto].
Qed.
Lemma laws a b c s :
  p_add a b = p_add b a /\ p_add (p_add a b) c = p_add a (p_add b c) /\ p_add a p_zero = a /\ p_sub (p_add a b) b = a /\ p_sub a a = p_zero /\
  scale s (p_add a b) = p_add (scale s a) (scale s b) /\ subtract_from (add_to a b) b = a /\ add_to a b = p_sub a (scale (-1) b).
Proof. repeat match goal with |- _ /\ _ => split end; apply point_ext; cbn; ring. Qed.
Lemma div_mod a b : px b <> 0 -> py b <> 0 -> pz b <> 0 ->
  exists q r, p_div a b = Ok q /\ p_mod a b = Ok r /\ p_add (p_mul q b) r = a /\ Z.abs (px r) < Z.abs (px b) /\ Z.abs (py r) < Z.abs (py b) /\ Z.abs (pz r) < Z.abs (pz b).
Proof.
  intros X Y W. exists (zip Z.quot a b), (zip Z.rem a b). unfold p_div, p_mod. replace (nonzero b) with true.
  2:{ symmetry. unfold nonzero. rewrite !andb_true_iff, !negb_true_iff, !Z.eqb_neq. auto. }
  split; [reflexivity |]. split; [reflexivity |]. split.
  - apply point_ext; cbn; rewrite Z.mul_comm; symmetry; apply Z.quot_rem'.
  - cbn. repeat split; now apply Z.rem_bound_abs.
Qed.
Lemma mag_bound a : Z.abs (px a) <= mag a /\ Z.abs (py a) <= mag a /\ Z.abs (pz a) <= mag a.
Proof.
  unfold mag. assert (K : forall x s, x * x <= s -> Z.abs x <= Z.sqrt s).
  { intros x s H. rewrite <- (Z.sqrt_square (Z.abs x)) by lia. apply Z.sqrt_le_mono. now rewrite Z.abs_square. }
  repeat split; apply K; nia.
Qed.
Lemma mag_zero a : mag a = 0 <-> a = p_zero.
Proof.
  split; [| intros ->; reflexivity]. intros M. destruct (mag_bound a) as (X & Y & W). rewrite M in *. apply point_ext; cbn; lia.
Qed.
Lemma quot_unit x m : 0 < m -> Z.abs x <= m -> Z.quot x m = if Z.abs x =? m then Z.sgn x else 0.
Proof.
  intros M B. destruct (Z.eqb_spec (Z.abs x) m) as [E | E].
  - subst m. replace x with (Z.sgn x * Z.abs x) at 1 by (rewrite Z.mul_comm; apply Z.abs_sgn). apply Z.quot_mul. lia.
  - apply Z.quot_small_iff; lia.
Qed.
(** What is left of a point after normalizing *)
Lemma normalized a : a <> p_zero -> exists r, normalize a = Ok r /\
  px r = (if Z.abs (px a) =? mag a then Z.sgn (px a) else 0) /\ py r = (if Z.abs (py a) =? mag a then Z.sgn (py a) else 0) /\
  pz r = (if Z.abs (pz a) =? mag a then Z.sgn (pz a) else 0).
Proof.
  intros N. unfold normalize. cbv zeta. assert (M : 0 < mag a) by (pose proof (mag_zero a); assert (0 <= mag a) by apply Z.sqrt_nonneg; destruct (Z.eq_dec (mag a) 0); [tauto | lia]).
  destruct (Z.eqb_spec (mag a) 0); [lia |]. destruct (mag_bound a) as (X & Y & W). eexists. split; [reflexivity |]. cbn. repeat split; now apply quot_unit.
Qed.
Lemma axis x : x <> 0 -> normalize (mkPoint x 0 0) = Ok (mkPoint (Z.sgn x) 0 0) /\ normalize (mkPoint 0 x 0) = Ok (mkPoint 0 (Z.sgn x) 0) /\
  normalize (mkPoint 0 0 x) = Ok (mkPoint 0 0 (Z.sgn x)).
Proof.
  intros X. assert (S : forall s, s = x * x -> Z.sqrt s = Z.abs x) by (intros s ->; rewrite <- Z.abs_square; apply Z.sqrt_square; lia).
  assert (Q : Z.quot x (Z.abs x) = Z.sgn x) by (rewrite quot_unit by lia; now rewrite Z.eqb_refl).
  unfold normalize, mag. cbn [px py pz]. rewrite !S by ring. destruct (Z.eqb_spec (Z.abs x) 0); [lia |]. rewrite Q, Z.quot_0_l by lia. auto.
Qed.
