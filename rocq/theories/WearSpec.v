(** Property C130: when the output of a latch changes, over its whole history. *)
From Coq Require Import ZArith List Bool.
Import ListNotations.
Open Scope Z_scope.

Section Spec.
Context {F : Type}.
(** The output after each history of readings *)
Variable out : list (Z * F) -> bool.
(** The times at which the output changes during the readings [rs], those before being [pre], with the new output *)
Fixpoint changes (pre rs : list (Z * F)) : list (Z * bool) :=
  match rs with
  | [] => []
  | r :: rs' => (if eqb (out (pre ++ [r])) (out pre) then [] else [(fst r, out (pre ++ [r]))]) ++ changes (pre ++ [r]) rs'
  end.
(** The times at which it switches on *)
Definition starts (rs : list (Z * F)) : list Z := map fst (filter snd (changes [] rs)).
End Spec.
