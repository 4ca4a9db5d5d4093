(** Properties C30, C31: what exact kernel time arithmetic would be, and what single precision makes of it. *)
From Coq Require Import ZArith.
From Verif Require Import KTimeModel.
Open Scope Z_scope.

(** The integers single precision represents *)
Definition f32_int (z : Z) : Prop := exists m e, 0 <= e /\ Z.abs m <= 2 ^ 24 /\ z = m * 2 ^ e.

(** [r] is a single precision number nearest to [x] *)
Definition nearest_f32 (x r : Z) : Prop := f32_int r /\ forall z, f32_int z -> Z.abs (r - x) <= Z.abs (z - x).

(** Microseconds per unit *)
Definition micros_per (u : kunit) : Z :=
  match u with
  | US => 1
  | MS => 1000
  | SEC => 1000 * 1000
  | MIN => 60 * (1000 * 1000)
  | HOUR => 60 * (60 * (1000 * 1000))
  | DAY => 24 * (60 * (60 * (1000 * 1000)))
  end.

(** [r] counts of [this] are nearest to [x] counts of [other]: they differ by at most half a count of [this]. *)
Definition nearest_count (other this : kunit) (x r : Z) : Prop :=
  2 * Z.abs (r * micros_per this - x * micros_per other) <= micros_per this.
