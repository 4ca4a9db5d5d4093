(** Model of points over whole numbers (structure/point.hpp). T is a signed integer type; numbers are taken to stay within its range, so
    that no operation overflows. XYPoint (point.hpp:53-87) is the same without z. *)
From Coq Require Import ZArith Bool.
From Verif Require Import Base.
Open Scope Z_scope.

Record point := mkPoint { px : Z; py : Z; pz : Z }.
(** point.hpp:13-14 *)
Definition p_zero : point := mkPoint 0 0 0.
Definition zip (f : Z -> Z -> Z) (a b : point) : point := mkPoint (f (px a) (px b)) (f (py a) (py b)) (f (pz a) (pz b)).
(** point.hpp:16-18 *)
Definition p_add := zip Z.add.
Definition p_sub := zip Z.sub.
Definition p_mul := zip Z.mul.
(** point.hpp:19-20: division by zero is undefined *)
Definition nonzero (b : point) : bool := negb (px b =? 0) && negb (py b =? 0) && negb (pz b =? 0).
Definition p_div (a b : point) : outcome point := if nonzero b then Ok (zip Z.quot a b) else UB.
Definition p_mod (a b : point) : outcome point := if nonzero b then Ok (zip Z.rem a b) else UB.
(** point.hpp:21-22 *)
Definition p_eq (a b : point) : bool := (px a =? px b) && (py a =? py b) && (pz a =? pz b).
Definition p_ne (a b : point) : bool := negb (px a =? px b) || negb (py a =? py b) || negb (pz a =? pz b).
(** point.hpp:24-38: the object after the call *)
Definition add_to (a b : point) : point := mkPoint (px a + px b) (py a + py b) (pz a + pz b).
Definition subtract_from (a b : point) : point := mkPoint (px a - px b) (py a - py b) (pz a - pz b).
Definition scale (s : Z) (a : point) : point := mkPoint (px a * s) (py a * s) (pz a * s).
(** point.hpp:39: computed in double and cut to T; for sums below 2^52 that is the integer square root *)
Definition mag (a : point) : Z := Z.sqrt (px a * px a + py a * py a + pz a * pz a).
(** point.hpp:40-45 *)
Definition normalize (a : point) : outcome point :=
  let m := mag a in if m =? 0 then UB else Ok (mkPoint (Z.quot (px a) m) (Z.quot (py a) m) (Z.quot (pz a) m)).
(** point.hpp:46 *)
Definition dot (a b : point) : point := mkPoint (px a * px b) (py a * py b) (pz a * pz b).
