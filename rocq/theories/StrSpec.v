(** What string functions mean. *)
From Coq Require Import List ZArith.
From Verif Require Import Base StrModel.
Import ListNotations.
Open Scope nat_scope.

Definition prefix (n s : list nat) : Prop := exists r, s = n ++ r.
Definition suffix (n s : list nat) : Prop := exists r, s = r ++ n.
(** [r] is [s] without its longest prefix (suffix) of characters in [ds] *)
Definition front_stripped (ds s r : list nat) : Prop :=
  exists p, s = p ++ r /\ Forall (fun c => In c ds) p /\ match r with [] => True | c :: _ => ~ In c ds end.
Definition back_stripped (ds s r : list nat) : Prop :=
  exists p, s = r ++ p /\ Forall (fun c => In c ds) p /\ match rev r with [] => True | c :: _ => ~ In c ds end.
(** The number written with decimal digits *)
Definition decimal (l : list nat) : Z := fold_left (fun a c => (10 * a + (Z.of_nat c - 48))%Z) l 0%Z.
(** A block holding exactly the text [t], as a string literal does *)
Definition literal (t : list nat) : list nat := t ++ [0].
(** A view that lies in its block *)
Definition inside (v : view) : Prop := (0 <= len v < 2 ^ 64)%Z /\ off v + Z.to_nat (len v) <= length (mem v).
(** The strings of capacity [cap] which a caller can get, writing no more than fits and announcing what it writes *)
Definition announced (cap : nat) (o : sop) : Prop := match o with SPut l => 0 < length l <= cap | _ => True end.
Definition reached (cap : nat) (s : ss) : Prop := exists dbg os, Forall (announced cap) os /\ srun dbg (smake cap) os = Ok s.
