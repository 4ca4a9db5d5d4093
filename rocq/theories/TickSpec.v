(** Property C113: clocks, and order up to a tolerance. *)
From Coq Require Import ZArith List.
From Verif Require Import Base TimersSpec TickModel.
Import ListNotations.
Open Scope Z_scope.

(** A clock that does not go back *)
Definition steady (clk : nat -> Z) : Prop := forall i j, (i <= j)%nat -> clk i <= clk j.

(** Reads in pairs, none before another *)
Fixpoint in_turn (t : Z) (rs : list (Z * Z)) : Prop :=
  match rs with [] => True | (a, b) :: rs' => t <= a /\ a <= b /\ in_turn b rs' end.
(** The time that passes within the calls, and the time until the last call *)
Definition within (rs : list (Z * Z)) : Z := fold_right Z.add 0 (map (fun r => snd r - fst r) rs).
Definition total (l : list Z) : Z := fold_right Z.add 0 l.

(** No element is due more than [d] later than one behind it *)
Definition ordered_within {A} (d : Z) (l : list (Z * A)) : Prop :=
  forall i j x y, (i < j)%nat -> nth_error l i = Some x -> nth_error l j = Some y -> fst x <= fst y + d.

(** Calls of push during which the clock advances by [d] at most, up to 4.6 hours of uptime *)
Definition brief {A} (d : Z) (o : pop A) : Prop :=
  match o with
  | PPush _ clk t _ => steady clk /\ 0 <= clk 0%nat /\ 0 <= t /\ clk 0%nat + t <= 2 ^ 24 /\ forall k, clk k <= clk 0%nat + d /\ clk k <= 2 ^ 24
  | PPop _ => True
  end.
Fixpoint pushes {A} (os : list (pop A)) : Z := match os with [] => 0 | PPush _ _ _ _ :: os' => 1 + pushes os' | PPop _ :: os' => pushes os' end.
