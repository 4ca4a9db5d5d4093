(** What the filters are specified against. *)
From Coq Require Import ZArith Bool List.
From Verif Require Import Base FloatModel.
Import ListNotations.
Open Scope Z_scope.

(** [y] lies between two members of [xs] *)
Definition between (xs : list float) (y : float) : Prop := exists a b, In a xs /\ In b xs /\ f_le a y = true /\ f_le y b = true.

(** A band filter over a list of samples, [inband v x]: the sample is in the band when the output is [v]. [r] samples before were out
    of band in a row. An out-of-band sample is passed only when more than [limit] came in a row; then [stop] ends everything. *)
Fixpoint band (inband : float -> float -> bool) (limit : Z) (stop : bool) (v : float) (r : Z) (xs : list float) : option (list float) :=
  match xs with
  | [] => Some []
  | x :: xs' =>
      let next v' r' := match band inband limit stop v' r' xs' with Some ys => Some (v' :: ys) | None => None end in
      if inband v x then next x 0
      else if Z_lt_dec limit (r + 1) then if stop then None else next x (r + 1)
      else next v (r + 1)
  end.
