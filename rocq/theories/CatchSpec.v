(** Property C112: what samples should do that raised an exception which was caught. *)
From Coq Require Import ZArith Bool List.
From Verif Require Import Base FloatModel.
Import ListNotations.
Open Scope Z_scope.

(** The values of a filter that takes the samples in band and no others, [inband v x]: [x] is in the band around [v] *)
Fixpoint hold (inband : float -> float -> bool) (v : float) (xs : list float) : list float :=
  match xs with
  | [] => []
  | x :: xs' => let v' := if inband v x then x else v in v' :: hold inband v' xs'
  end.
(** The samples that come after [limit] others out of band, all in a row, and are out of band themselves; [r] were so before *)
Fixpoint beyond (inband : float -> float -> bool) (limit : Z) (v : float) (r : Z) (xs : list float) : list bool :=
  match xs with
  | [] => []
  | x :: xs' => if inband v x then false :: beyond inband limit x 0 xs' else (limit <=? r) :: beyond inband limit v (r + 1) xs'
  end.
