(** The texts which denote times. *)
From Coq Require Import List ZArith.
From Verif Require Import KTimeModel.
Import ListNotations.
Open Scope Z_scope.

(** The suffixes of the units *)
Definition suffix_of (u : kunit) : list nat :=
  match u with
  | US => [117; 115] | MS => [109; 115] | SEC => [115] | MIN => [109] | HOUR => [104] | DAY => [100]
  end%nat.
(** The number written with decimal digits *)
Definition decimal (l : list nat) : Z := fold_left (fun a c => 10 * a + (Z.of_nat c - 48)) l 0.
Definition is_number (l : list nat) : Prop := l <> [] /\ Forall (fun c => (48 <= c <= 57)%nat) l.
(** [input] is a whole number that fits in an int, and a unit *)
Definition denotes (input : list nat) (u : kunit) (v : Z) : Prop :=
  exists ds, is_number ds /\ input = ds ++ suffix_of u /\ v = decimal ds /\ v < 2 ^ 31.
