(** Property C120: arrays as lists of elements, each its own. *)
From Coq Require Import List Arith Bool.
From Verif Require Import Base ArrayModel.
Import ListNotations.

Section Spec.
Context {A : Type}.
Variable zero : A.

(** What an array object is: a list of elements, on storage of the caller or its own; or one that was moved from, which keeps its size *)
Inductive elems := Here (ext : bool) (l : list A) | Gone (ext : bool) (n : nat).
(** The objects of a program in order of creation; None: destroyed *)
Definition world := list (option elems).
Definition is_ext (x : elems) : bool := match x with Here e _ | Gone e _ => e end.
Definition size_of (x : elems) : nat := match x with Here _ l => length l | Gone _ n => n end.
Definition moved_from (x : elems) : elems := Gone (is_ext x) (size_of x).

(** One statement; None: it is not allowed. Copies are not (see C59), nor swaps of arrays of different sizes or of which only one uses
    storage of the caller (see C120_swap_refuted and C21), nor elements out of range. *)
Definition lstep (s : world) (op : aop A) : option (ares A * world) :=
  match op with
  | ANew n => Some (AObj (length s), s ++ [Some (Here false (repeat zero n))])
  | AFillNew n x => Some (AObj (length s), s ++ [Some (Here false (repeat x n))])
  | AListNew l => Some (AObj (length s), s ++ [Some (Here false l)])
  | AExternal l => Some (AObj (length s), s ++ [Some (Here true l)])
  | ACopy _ | ACopyAssign _ _ => None
  | AMove i => match nth_error s i with Some (Some x) => Some (AObj (length s), upd s i (Some (moved_from x)) ++ [Some x]) | _ => None end
  | AMoveAssign i j =>
      match nth_error s i, nth_error s j with
      | Some (Some _), Some (Some y) => Some (AUnit, if i =? j then s else upd (upd s j (Some (moved_from y))) i (Some y))
      | _, _ => None
      end
  | AListAssign i l => match nth_error s i with Some (Some _) => Some (AUnit, upd s i (Some (Here false l))) | _ => None end
  | ASwap i j =>
      match nth_error s i, nth_error s j with
      | Some (Some x), Some (Some y) =>
          if (size_of x =? size_of y) && Bool.eqb (is_ext x) (is_ext y) then Some (AUnit, upd (upd s i (Some y)) j (Some x)) else None
      | _, _ => None
      end
  | ADestroy i => match nth_error s i with Some (Some _) => Some (AUnit, upd s i None) | _ => None end
  | AGet i k => match nth_error s i with Some (Some (Here _ l)) => match nth_error l k with Some x => Some (AVal x, s) | None => None end | _ => None end
  | ASet i k x => match nth_error s i with Some (Some (Here e l)) => if k <? length l then Some (AUnit, upd s i (Some (Here e (upd l k x)))) else None | _ => None end
  | AFill i x => match nth_error s i with Some (Some (Here e l)) => Some (AUnit, upd s i (Some (Here e (repeat x (length l))))) | _ => None end
  | ASize i => match nth_error s i with Some (Some x) => Some (ANat (size_of x), s) | _ => None end
  end.
Fixpoint lrun (s : world) (ops : list (aop A)) : option (list (ares A) * world) :=
  match ops with
  | [] => Some ([], s)
  | op :: ops => match lstep s op with Some (x, s1) => match lrun s1 ops with Some (xs, s2) => Some (x :: xs, s2) | None => None end | None => None end
  end.
End Spec.
Arguments Here {A} _ _.
Arguments Gone {A} _ _.
