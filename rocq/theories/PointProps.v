(** Property C100: points. *)
From Coq Require Import ZArith Lia Bool.
From Verif Require Import Base PointModel PointProofs.
Open Scope Z_scope.

Theorem C100_laws : forall a b c s,
  p_add a b = p_add b a /\ p_add (p_add a b) c = p_add a (p_add b c) /\ p_add a p_zero = a /\ p_sub (p_add a b) b = a /\ p_sub a a = p_zero /\
  scale s (p_add a b) = p_add (scale s a) (scale s b) /\ subtract_from (add_to a b) b = a /\ add_to a b = p_sub a (scale (-1) b).
Proof. exact laws. Qed.
Print Assumptions C100_laws.
Example C100_laws_case : p_add (mkPoint 1 2 3) (mkPoint 10 20 30) = mkPoint 11 22 33 /\ add_to (mkPoint 1 2 3) (mkPoint 10 20 30) = mkPoint 11 22 33.
Proof. auto. Qed.
Theorem C100_equal : forall a b, (p_eq a b = true <-> a = b) /\ p_ne a b = negb (p_eq a b).
Proof. exact eq_iff. Qed.
Print Assumptions C100_equal.
Example C100_equal_case : p_eq (mkPoint 1 2 3) (mkPoint 1 2 4) = false /\ p_ne (mkPoint 1 2 3) (mkPoint 1 2 3) = false.
Proof. auto. Qed.
Theorem C100_division : forall a b, px b <> 0 -> py b <> 0 -> pz b <> 0 ->
  exists q r, p_div a b = Ok q /\ p_mod a b = Ok r /\ p_add (p_mul q b) r = a /\ Z.abs (px r) < Z.abs (px b) /\ Z.abs (py r) < Z.abs (py b) /\ Z.abs (pz r) < Z.abs (pz b).
Proof. exact div_mod. Qed.
Print Assumptions C100_division.
Example C100_division_case : p_div (mkPoint 7 (-7) 9) (mkPoint 2 2 (-3)) = Ok (mkPoint 3 (-3) (-3)) /\ p_mod (mkPoint 7 (-7) 9) (mkPoint 2 2 (-3)) = Ok (mkPoint 1 (-1) 0).
Proof. auto. Qed.
(** dot gives a point, the products of the components: here for two points at right angles one that is not zero *)
Theorem C100_dot_refuted : exists a b, px a * px b + py a * py b + pz a * pz b = 0 /\ p_eq (dot a b) p_zero = false.
Proof. exists (mkPoint 1 1 0), (mkPoint 1 (-1) 0). auto. Qed.
Print Assumptions C100_dot_refuted.
(** Normalizing points on an axis gives a point of length one; any other keeps the components that are as long as the whole point, with
    length one, and loses the others *)
Theorem C100_axis_partial : forall x, x <> 0 -> normalize (mkPoint x 0 0) = Ok (mkPoint (Z.sgn x) 0 0) /\ normalize (mkPoint 0 x 0) = Ok (mkPoint 0 (Z.sgn x) 0) /\
  normalize (mkPoint 0 0 x) = Ok (mkPoint 0 0 (Z.sgn x)).
Proof. exact axis. Qed.
Print Assumptions C100_axis_partial.
Example C100_axis_case : normalize (mkPoint 0 (-5) 0) = Ok (mkPoint 0 (-1) 0).
Proof. reflexivity. Qed.
Theorem C100_normalized : forall a, a <> p_zero -> exists r, normalize a = Ok r /\
  px r = (if Z.abs (px a) =? mag a then Z.sgn (px a) else 0) /\ py r = (if Z.abs (py a) =? mag a then Z.sgn (py a) else 0) /\
  pz r = (if Z.abs (pz a) =? mag a then Z.sgn (pz a) else 0).
Proof. exact normalized. Qed.
Print Assumptions C100_normalized.
Example C100_normalized_case : normalize (mkPoint 10 1 0) = Ok (mkPoint 1 0 0).
Proof. reflexivity. Qed.
(** The zero point divides by zero, (3,4,0) becomes the zero point, and (1,1,1) stays as it is *)
Theorem C100_normalize_refuted : normalize p_zero = UB /\ (exists a, a <> p_zero /\ normalize a = Ok p_zero) /\
  (exists a, normalize a = Ok a /\ px a * px a + py a * py a + pz a * pz a = 3).
Proof. split; [reflexivity |]. split; [exists (mkPoint 3 4 0) | exists (mkPoint 1 1 1)]; split; (discriminate || reflexivity). Qed.
Print Assumptions C100_normalize_refuted.
