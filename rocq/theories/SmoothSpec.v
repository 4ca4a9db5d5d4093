(** Property C144: times of readings, at any uptime. *)
From Coq Require Import ZArith List.
Import ListNotations.
Open Scope Z_scope.

(** Each reading comes after the start [t0] and after each earlier reading, by at least the 2^24th part of the uptime there (1 ms in
    the first 4.6 hours, 2 s for a year) *)
Definition spaced (t0 : Z) (ts : list Z) : Prop := forall p t q, ts = p ++ t :: q -> Forall (fun t' => 0 <= t' <= 2 ^ 24 * (t - t')) (t0 :: p).
