(** Property C139: how the moving average moves. *)
From Coq Require Import ZArith Bool List.
From Verif Require Import Base FloatModel.
Import ListNotations.
Open Scope Z_scope.

(** From [a] to [y]: not away from [x] and not beyond it *)
Definition toward (a x y : float) : Prop := f_le a y && f_le y x || f_le x y && f_le y a = true.
