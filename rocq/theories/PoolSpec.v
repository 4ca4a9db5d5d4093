(** Properties C22-C24 in terms of the references clients hold. *)
From Coq Require Import List Arith ZArith Bool.
From Verif Require Import Base VectorModel VectorSpec PoolModel.
Import ListNotations.

Section Spec.
Variable W : Z.
Variable L : nat.

(** References to [o] outside the pool after a sequence of calls with their results, counted from the calls alone. *)
Fixpoint outstanding (o : nat) (ops : list pop) (xs : list pres) (n : nat) : nat :=
  match ops, xs with
  | PHold p :: ops', _ :: xs' => outstanding o ops' xs' (if p =? o then n + 1 else n)
  | PRelease p :: ops', _ :: xs' => outstanding o ops' xs' (if p =? o then n - 1 else n)
  | _ :: ops', PPtr (Some p) :: xs' => outstanding o ops' xs' (if p =? o then n + 1 else n)
  | _ :: ops', _ :: xs' => outstanding o ops' xs' n
  | _, _ => n
  end.

(** States reached from a new pool of any size; each call in a debug or a release build, with any bound on loops. *)
Inductive pexec : pworld -> list pop -> list pres -> pworld -> Prop :=
| px_nil w : pexec w [] [] w
| px_snoc dbg fuel w ops xs w1 op x w2 :
    pexec w ops xs w1 -> pstep W L dbg fuel w1 op = Ok (x, w2) -> pexec w (ops ++ [op]) (xs ++ [x]) w2.

(** [pshows w l]: the pooled pointers, oldest first. *)
Definition pshows (w : pworld) (l : list sptr) : Prop := vholds W (pv (ppool w)) l.

Definition preachable (w : pworld) : Prop :=
  exists n ops xs, (Z.of_nat n < 2 ^ W)%Z /\ pexec (mkPW (pool_new n) []) ops xs w.

(** A pointer stands for a free object: it is in the pool once and nobody else refers to it. *)
Definition free_in (l : list sptr) (refs : list nat) (p : sptr) : bool :=
  match p with
  | None => false
  | Some o => count_occ sptr_dec l (Some o) + count_occ Nat.eq_dec refs o =? 1
  end.
End Spec.
