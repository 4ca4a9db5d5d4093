(** Property C134: a quantity that a latch keeps down while it is on, and that rises while it is off. *)
From Coq Require Import ZArith List Reals.
Import ListNotations.
Open Scope Z_scope.

Section Spec.
Context {F : Type}.
(** The value of a reading as a real number *)
Variable val : F -> R.
(** The output after each history of readings *)
Variable out : list (Z * F) -> bool.

(** A reading at least every [gap] milliseconds. Between two readings the quantity rises by at most [rise] per millisecond while
    the output is off, and does not rise while it is on. *)
Definition cooled (rise : R) (gap : Z) (rs : list (Z * F)) : Prop :=
  forall pre t1 v1 t2 v2 post, rs = pre ++ (t1, v1) :: (t2, v2) :: post ->
  t2 - t1 <= gap /\ (val v2 <= val v1 + if out (pre ++ [(t1, v1)]) then 0 else rise * IZR (t2 - t1))%R.
(** ... falls by at most [fall] per millisecond while the output is on, and does not fall while it is off. *)
Definition warmed (fall : R) (gap : Z) (rs : list (Z * F)) : Prop :=
  forall pre t1 v1 t2 v2 post, rs = pre ++ (t1, v1) :: (t2, v2) :: post ->
  t2 - t1 <= gap /\ (val v1 - (if out (pre ++ [(t1, v1)]) then fall * IZR (t2 - t1) else 0) <= val v2)%R.

(** The latch compares readings with its two levels as real numbers (floats which are not NaN). *)
Definition compares (ltb : F -> F -> bool) (high low : F) (rs : list (Z * F)) : Prop :=
  forall t v, In (t, v) rs -> (ltb high v = true <-> (val high < val v)%R) /\ (ltb v low = true <-> (val v < val low)%R).
End Spec.
