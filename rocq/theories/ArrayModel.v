(** Model of the ownership of storage by structure/array.hpp (class Array<T>): constructors, copy, move, assignment, swap,
    destruction, element access. *)
From Coq Require Import List Arith Bool.
From Verif Require Import Base.
Import ListNotations.

(** A block of memory: obtained from malloc ([bext] = false) or owned by the caller ([bext] = true). *)
Record block (A : Type) := mkBlock { bext : bool; bfreed : bool; bdata : list A }.
Arguments mkBlock {A} _ _ _.
Arguments bext {A} _.
Arguments bfreed {A} _.
Arguments bdata {A} _.

(** array.hpp:111-115: m_store (block number, None = nullptr), m_max_size, m_store_is_internal *)
Record arr := mkArr { aptr : option nat; amax : nat; aint : bool }.

(** Blocks and array objects of a program, numbered in order of creation; None = destroyed object. *)
Record heap (A : Type) := mkHeap { blocks : list (block A); objs : list (option arr) }.
Arguments mkHeap {A} _ _.
Arguments blocks {A} _.
Arguments objs {A} _.

Inductive aop (A : Type) :=
| ANew (n : nat) | AFillNew (n : nat) (x : A) | AListNew (l : list A) | AExternal (l : list A)
| ACopy (i : nat) | AMove (i : nat) | ACopyAssign (i j : nat) | AMoveAssign (i j : nat) | AListAssign (i : nat) (l : list A)
| ASwap (i j : nat) | ADestroy (i : nat) | AGet (i k : nat) | ASet (i k : nat) (x : A) | AFill (i : nat) (x : A) | ASize (i : nat).
Arguments ANew {A} _.
Arguments AFillNew {A} _ _.
Arguments AListNew {A} _.
Arguments AExternal {A} _.
Arguments ACopy {A} _.
Arguments AMove {A} _.
Arguments ACopyAssign {A} _ _.
Arguments AMoveAssign {A} _ _.
Arguments AListAssign {A} _ _.
Arguments ASwap {A} _ _.
Arguments ADestroy {A} _.
Arguments AGet {A} _ _.
Arguments ASet {A} _ _ _.
Arguments AFill {A} _ _.
Arguments ASize {A} _.

Inductive ares (A : Type) := AUnit | AVal (x : A) | ANat (n : nat) | AObj (i : nat).
Arguments AUnit {A}.
Arguments AVal {A} _.
Arguments ANat {A} _.
Arguments AObj {A} _.

Section Array.
Context {A : Type}.
Variable zero : A.

(** Using an object that does not exist (any more) is UB. *)
Definition obj (h : heap A) (i : nat) : outcome arr :=
  match nth_error (objs h) i with Some (Some a) => Ok a | _ => UB end.
Definition set_obj (h : heap A) (i : nat) (a : option arr) : heap A := mkHeap (blocks h) (upd (objs h) i a).
Definition add_obj (h : heap A) (a : arr) : heap A := mkHeap (blocks h) (objs h ++ [Some a]).
Definition add_block (h : heap A) (b : block A) : heap A := mkHeap (blocks h ++ [b]) (objs h).

(** std::malloc succeeds always (failure is not modelled); a block of size 0 is a block. *)
Definition malloc (h : heap A) (l : list A) : nat * heap A := (length (blocks h), add_block h (mkBlock false false l)).

(** std::free: nullptr is ignored; a block already freed or not from malloc is UB. *)
Definition free (h : heap A) (p : option nat) : outcome (heap A) :=
  match p with
  | None => Ok h
  | Some b =>
      match nth_error (blocks h) b with
      | Some (mkBlock false false d) => Ok (mkHeap (upd (blocks h) b (mkBlock false true d)) (objs h))
      | _ => UB
      end
  end.

(** Reading and writing element [k] through a pointer: array.hpp:199-212 (no bounds check). *)
Definition load (h : heap A) (p : option nat) (k : nat) : outcome A :=
  match p with
  | None => UB
  | Some b => match nth_error (blocks h) b with Some (mkBlock _ false d) => rd d k | _ => UB end
  end.
Definition store (h : heap A) (p : option nat) (k : nat) (x : A) : outcome (heap A) :=
  match p with
  | None => UB
  | Some b =>
      match nth_error (blocks h) b with
      | Some (mkBlock e false d) => d' <- wr d k x ;; Ok (mkHeap (upd (blocks h) b (mkBlock e false d')) (objs h))
      | _ => UB
      end
  end.

(** array.hpp:128-132 *)
Definition arr_new (h : heap A) (n : nat) : arr * heap A :=
  let (p, h1) := malloc h (repeat zero n) in (mkArr (Some p) n true, h1).
(** array.hpp:134-137 with fill (326-330) *)
Definition arr_fill_new (h : heap A) (n : nat) (x : A) : arr * heap A :=
  let (p, h1) := malloc h (repeat x n) in (mkArr (Some p) n true, h1).
(** array.hpp:139-146 *)
Definition arr_list (h : heap A) (l : list A) : arr * heap A :=
  let (p, h1) := malloc h l in (mkArr (Some p) (length l) true, h1).
(** array.hpp:118-120: the caller's array becomes a block of its own in this model. The uint8_t* constructor (122-126) is
    not modelled: its static_cast from uint8_t* to T* only compiles for T = uint8_t. *)
Definition arr_external (h : heap A) (l : list A) : arr * heap A :=
  (mkArr (Some (length (blocks h))) (length l) false, add_block h (mkBlock true false l)).

(** array.hpp:148-154 *)
Definition arr_destroy (h : heap A) (a : arr) : outcome (heap A) := if aint a then free h (aptr a) else Ok h.

(** array.hpp:156-160 *)
Definition arr_copy (a : arr) : arr := mkArr (aptr a) (amax a) false.
(** array.hpp:162-167: (the new array, what is left in the old one) *)
Definition arr_move (a : arr) : arr * arr := (mkArr (aptr a) (amax a) (aint a), mkArr None (amax a) (aint a)).

(** One statement of a program. *)
Definition astep (h : heap A) (op : aop A) : outcome (ares A * heap A) :=
  match op with
  | ANew n => let (a, h1) := arr_new h n in Ok (AObj (length (objs h)), add_obj h1 a)
  | AFillNew n x => let (a, h1) := arr_fill_new h n x in Ok (AObj (length (objs h)), add_obj h1 a)
  | AListNew l => let (a, h1) := arr_list h l in Ok (AObj (length (objs h)), add_obj h1 a)
  | AExternal l => let (a, h1) := arr_external h l in Ok (AObj (length (objs h)), add_obj h1 a)
  | ACopy i => a <- obj h i ;; Ok (AObj (length (objs h)), add_obj h (arr_copy a))
  | AMove i => a <- obj h i ;; let (n, o) := arr_move a in Ok (AObj (length (objs h)), add_obj (set_obj h i (Some o)) n)
  (* array.hpp:169-177 *)
  | ACopyAssign i j => _ <- obj h i ;; b <- obj h j ;; if i =? j then Ok (AUnit, h) else Ok (AUnit, set_obj h i (Some (arr_copy b)))
  (* array.hpp:179-188 *)
  | AMoveAssign i j =>
      _ <- obj h i ;; b <- obj h j ;;
      if i =? j then Ok (AUnit, h)
      else let (n, o) := arr_move b in Ok (AUnit, set_obj (set_obj h j (Some o)) i (Some n))
  (* array.hpp:190-197: free the old storage, build a temporary, move-assign it, destroy the temporary *)
  | AListAssign i l =>
      a <- obj h i ;;
      h1 <- (if aint a then free h (aptr a) else Ok h) ;;
      let (t, h2) := arr_list h1 l in
      let (n, o) := arr_move t in
      h3 <- arr_destroy (set_obj h2 i (Some n)) o ;;
      Ok (AUnit, h3)
  (* array.hpp:319-324: only m_store is exchanged *)
  | ASwap i j =>
      a <- obj h i ;; b <- obj h j ;;
      Ok (AUnit, set_obj (set_obj h i (Some (mkArr (aptr b) (amax a) (aint a)))) j
                   (Some (if i =? j then mkArr (aptr b) (amax a) (aint a) else mkArr (aptr a) (amax b) (aint b))))
  | ADestroy i => a <- obj h i ;; h1 <- arr_destroy h a ;; Ok (AUnit, set_obj h1 i None)
  | AGet i k => a <- obj h i ;; x <- load h (aptr a) k ;; Ok (AVal x, h)
  | ASet i k x => a <- obj h i ;; h1 <- store h (aptr a) k x ;; Ok (AUnit, h1)
  (* array.hpp:326-330 *)
  | AFill i x =>
      a <- obj h i ;;
      h1 <- (fix loop (k : nat) (h : heap A) : outcome (heap A) :=
               match k with
               | 0 => Ok h
               | S k' => h1 <- store h (aptr a) (amax a - k) x ;; loop k' h1
               end) (amax a) h ;;
      Ok (AUnit, h1)
  (* array.hpp:309-317 *)
  | ASize i => a <- obj h i ;; Ok (ANat (amax a), h)
  end.

(** array.hpp:214-222, 304-307: front() and back() as they are read through the reference returned; empty(). data() (224-232) is
    m_store itself. *)
Definition afront (h : heap A) (i : nat) : outcome A := a <- obj h i ;; load h (aptr a) 0.
Definition aback (h : heap A) (i : nat) : outcome A := a <- obj h i ;; load h (aptr a) (if 0 <? amax a then amax a - 1 else 0).
Definition aempty (h : heap A) (i : nat) : outcome bool := a <- obj h i ;; Ok (amax a =? 0).

Fixpoint arun (h : heap A) (ops : list (aop A)) : outcome (list (ares A) * heap A) :=
  match ops with
  | [] => Ok ([], h)
  | op :: ops' => '(x, h1) <- astep h op ;; '(xs, h2) <- arun h1 ops' ;; Ok (x :: xs, h2)
  end.

Definition empty_heap : heap A := mkHeap [] [].
End Array.
