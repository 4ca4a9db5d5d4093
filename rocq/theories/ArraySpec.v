(** What a program may do with arrays (C21, C59). *)
From Coq Require Import List Arith Bool.
From Verif Require Import Base ArrayModel.
Import ListNotations.

Section Spec.
Context {A : Type}.
Variable zero : A.

(** Statements that create, assign, swap or destroy arrays (as opposed to accessing elements). *)
Definition lifecycle (op : aop A) : Prop :=
  match op with AGet _ _ | ASet _ _ _ | AFill _ _ => False | _ => True end.

Definition live (h : heap A) (i : nat) : Prop := exists a, nth_error (objs h) i = Some (Some a).

(** The arrays a statement names exist. *)
Definition names_live (h : heap A) (op : aop A) : Prop :=
  match op with
  | ANew _ | AFillNew _ _ | AListNew _ | AExternal _ => True
  | ACopy i | AMove i | AListAssign i _ | ADestroy i | AGet i _ | ASet i _ _ | AFill i _ | ASize i => live h i
  | ACopyAssign i j | AMoveAssign i j | ASwap i j => live h i /\ live h j
  end.

(** swap() only between two arrays that both own their storage or both do not. *)
Definition swap_ok (h : heap A) (op : aop A) : Prop :=
  match op with
  | ASwap i j => forall a b, nth_error (objs h) i = Some (Some a) -> nth_error (objs h) j = Some (Some b) -> aint a = aint b
  | _ => True
  end.

(** Copy- and move-assignment only to arrays that own nothing. *)
Definition assign_ok (h : heap A) (op : aop A) : Prop :=
  match op with
  | ACopyAssign i j | AMoveAssign i j =>
      i = j \/ forall a, nth_error (objs h) i = Some (Some a) -> aint a = false \/ aptr a = None
  | _ => True
  end.

(** Programs whose statements satisfy [P] in the state in which they run. *)
Inductive aprog (P : heap A -> aop A -> Prop) : heap A -> list (aop A) -> heap A -> Prop :=
| ap_nil h : aprog P h [] h
| ap_cons h op x h1 ops h2 : P h op -> astep zero h op = Ok (x, h1) -> aprog P h1 ops h2 -> aprog P h (op :: ops) h2.

End Spec.
