(** Properties C37, C38: histories of readings. *)
From Coq Require Import ZArith List.
From Verif Require Import LatchModel.
Import ListNotations.
Open Scope Z_scope.

Section Spec.
Variable F : Type.
(** Times of readings do not go back, starting from [t0], and stay within what single precision counts exactly. *)
Inductive timely : Z -> list (Z * F) -> Prop :=
| tm_nil t0 : timely t0 []
| tm_cons t0 t v rs : t0 <= t <= 2 ^ 24 -> timely t rs -> timely t0 ((t, v) :: rs).

(** Times configured are neither negative nor beyond that. *)
Definition sane (cfg : config F) : Prop :=
  0 <= min_on F cfg <= 2 ^ 24 /\ 0 <= max_on F cfg <= 2 ^ 24 /\ 0 <= min_off F cfg <= 2 ^ 24 /\ 0 <= max_off F cfg <= 2 ^ 24.

(** The same without bounds *)
Inductive rising : Z -> list (Z * F) -> Prop :=
| rs_nil t0 : rising t0 []
| rs_cons t0 t v rs : t0 <= t -> rising t rs -> rising t0 ((t, v) :: rs).
Definition nonneg (cfg : config F) : Prop := 0 <= min_on F cfg /\ 0 <= max_on F cfg /\ 0 <= min_off F cfg /\ 0 <= max_off F cfg.

(** What a latch does, over plain integers: on or off, and since when. *)
Variable ltb : F -> F -> bool.
Definition follow (cfg : config F) (st : bool * Z) (r : Z * F) : bool * Z :=
  let (on, since) := st in
  let (t, v) := r in
  let (least, most) := if on then (min_on F cfg, max_on F cfg) else (min_off F cfg, max_off F cfg) in
  if Z_lt_dec (t - since) least then st
  else if Z.eq_dec most 0 then if ltb (high F cfg) v then (true, t) else if ltb v (low F cfg) then (false, t) else st
  else if Z_lt_dec most (t - since) then (negb on, t)
  else if ltb (high F cfg) v then (true, t) else if ltb v (low F cfg) then (false, t) else st.
End Spec.
