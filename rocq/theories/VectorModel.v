(** Model of structure/vector.hpp (class Vector<T>) and of the parts of structure/array.hpp it inherits. *)
From Coq Require Import List Arith ZArith Bool.
From Verif Require Import Base.
Import ListNotations.

(** vector.hpp:96-97 and array.hpp:111-112: the storage [vst] has max_size() cells. *)
Record vec (A : Type) := mkVec { vst : list A; vh : nat; vt : nat }.
Arguments mkVec {A} _ _ _.
Arguments vst {A} _.
Arguments vh {A} _.
Arguments vt {A} _.

(** Calls and observable results. *)
Inductive vop (A : Type) :=
| VPushBack (x : A) | VEmplaceBack (x : A) | VPushFront (x : A) | VEmplaceFront (x : A)
| VPopBack | VPopFront | VInsert (i : nat) (x : A) | VRemove (i : nat) | VClear | VFill (x : A) | VAssign (l : list A)
| VGet (i : nat) | VAt (i : nat) | VFront | VBack | VPeekFront | VPeekBack
| VSize | VEmpty | VFull | VMax | VIter | VRevIter.
Arguments VPushBack {A} _.
Arguments VEmplaceBack {A} _.
Arguments VPushFront {A} _.
Arguments VEmplaceFront {A} _.
Arguments VPopBack {A}.
Arguments VPopFront {A}.
Arguments VInsert {A} _ _.
Arguments VRemove {A} _.
Arguments VClear {A}.
Arguments VFill {A} _.
Arguments VAssign {A} _.
Arguments VGet {A} _.
Arguments VAt {A} _.
Arguments VFront {A}.
Arguments VBack {A}.
Arguments VPeekFront {A}.
Arguments VPeekBack {A}.
Arguments VSize {A}.
Arguments VEmpty {A}.
Arguments VFull {A}.
Arguments VMax {A}.
Arguments VIter {A}.
Arguments VRevIter {A}.

Inductive vres (A : Type) := VUnit | VVal (a : A) | VNat (n : nat) | VBool (b : bool) | VList (l : list A).
Arguments VUnit {A}.
Arguments VVal {A} _.
Arguments VNat {A} _.
Arguments VBool {A} _.
Arguments VList {A} _.

(** Iterators: array.hpp:20-51, 336-423. An iterator is an index of type size_t, kept as an integer in [0, 2^W).
    Dereferencing outside the storage is UB. *)
Section Iterators.
Context {A : Type}.
Variable W : Z.

(** array.hpp:376-379 *)
Definition deref_it (store : list A) (i : Z) : outcome A :=
  if (0 <=? i)%Z && (i <? Z.of_nat (length store))%Z then rd store (Z.to_nat i) else UB.

(** "for (it = b; it != e; ++it) visit(*it)" with operator!= of array.hpp:342-345 / 393-396 and operator++ of
    array.hpp:352-356 ([step] = 1) / 403-407 ([step] = -1, reverse iterators). *)
Fixpoint iterate (fuel : nat) (step : Z) (store : list A) (b e : Z) : outcome (list A) :=
  if (b =? e)%Z then Ok []
  else match fuel with
       | 0 => Fuel
       | S fuel' =>
           x <- deref_it store b ;;
           xs <- iterate fuel' step store (wrapW W (b + step)) e ;;
           Ok (x :: xs)
       end.

(** array.hpp:352-362: (value of the expression, iterator afterwards) *)
Definition pre_inc (i : Z) : Z * Z := let i' := wrapW W (i + 1) in (i', i').
Definition post_inc (i : Z) : Z * Z := let i' := wrapW W (i + 1) in (i', i').

(** array.hpp:236-266: begin/end of an Array of [n] cells, const and non-const *)
Definition arr_begin : Z := 0%Z.
Definition arr_end (store : list A) : Z := wrapW W (Z.of_nat (length store)).
(** array.hpp:270-278: mutable reverse iterators *)
Definition arr_rbegin (store : list A) : Z := wrapW W (Z.of_nat (length store) - 1).
Definition arr_rend : Z := wrapW W (-1).
(** array.hpp:282-300: const reverse iterators (rbegin() const, rend() const, crbegin, crend) *)
Definition arr_crbegin (store : list A) : Z := wrapW W (Z.of_nat (length store) - (if 0 <? length store then 1 else 0)).
Definition arr_crend (store : list A) : Z := wrapW W (Z.of_nat (length store) - (if 0 <? length store then 1 else 0)).
End Iterators.

Section Vector.
Context {A : Type}.
(** [zero]: the value whose bytes are all zero, also what [T{}] is. [moved x]: what is left in an object after its
    value [x] has been moved out (for a shared_ptr the null pointer, for a number the number itself). *)
Variable zero : A.
Variable moved : A -> A.
Variable W : Z.
Variable dbg : bool.

(** vector.hpp:324-336; only called on well-formed vectors (see pop_front). *)
Definition vsize (v : vec A) : nat := vt v - vh v.
Definition vmax (v : vec A) : nat := length (vst v).
Definition vempty (v : vec A) : bool := vsize v =? 0.
Definition vfull (v : vec A) : bool := vsize v =? vmax v.

(** vector.hpp:100-119 and array.hpp:118-146. *)
Definition vec_new (n : nat) : vec A := mkVec (repeat zero n) 0 0.
Definition vec_fill_new (n : nat) (x : A) : vec A := mkVec (repeat x n) 0 n.
Definition vec_list (l : list A) : vec A := mkVec l 0 (length l).
Definition vec_external (store : list A) (size : nat) : vec A := mkVec store 0 size.

(** vector.hpp:76-93; the second assertion computes size() - new_tail in size_t. *)
Definition rearrange (v : vec A) (idx : nat) : outcome (vec A) :=
  sassert dbg (idx + vsize v <? vmax v) ;;;
  st1 <- memmove (vst v) idx (vh v) (vsize v) ;;
  let new_tail := idx + vsize v in
  st2 <- memset0 zero st1 0 idx ;;
  sassert dbg (wrapW W (Z.of_nat (vsize v) - Z.of_nat new_tail) <? Z.of_nat (vmax v))%Z ;;;
  st3 <- memset0 zero st2 new_tail (vmax v - new_tail) ;;
  Ok (mkVec st3 idx new_tail).

(** vector.hpp:121-131 *)
Definition vget (v : vec A) (i : nat) : outcome A :=
  sassert dbg (vh v + i <? vt v) ;;; rd (vst v) (vh v + i).

(** vector.hpp:133-139. The item is passed by value: references into the vector's own storage are in SelfModel. *)
Definition push_back (v : vec A) (x : A) : outcome (vec A) :=
  v1 <- (if (vmax v <=? vt v) && (0 <? vh v) then rearrange v 0 else Ok v) ;;
  sassert dbg (vt v1 <? vmax v1) ;;;
  if vt v1 <? vmax v1 then st <- wr (vst v1) (vt v1) x ;; Ok (mkVec st (vh v1) (vt v1 + 1)) else Ok v1.

(** vector.hpp:141-150; a const T&& argument is copied. *)
Definition emplace_back (v : vec A) (x : A) : outcome (vec A) :=
  v1 <- (if (vmax v <=? vt v) && (0 <? vh v) then rearrange v 0 else Ok v) ;;
  sassert dbg (vt v1 <? vmax v1) ;;;
  if vt v1 <? vmax v1 then st <- wr (vst v1) (vt v1) x ;; Ok (mkVec st (vh v1) (vt v1 + 1)) else Ok v1.

(** vector.hpp:152-156; on an empty vector in a release build the index wraps when m_tail is 0. *)
Definition peek_back (v : vec A) : outcome A :=
  sassert dbg (0 <? vsize v) ;;; if 0 <? vt v then rd (vst v) (vt v - 1) else UB.

(** vector.hpp:158-169. The caller moves the element out of the returned reference. *)
Definition pop_back (v : vec A) : outcome (A * vec A) :=
  sassert dbg (0 <? vsize v) ;;;
  let t := vt v - 1 in
  let (h', t') := if 0 <? vt v then (if t =? vh v then (0, 0) else (vh v, t)) else (vh v, vt v) in
  x <- rd (vst v) t' ;;
  st <- wr (vst v) t' (moved x) ;;
  Ok (x, mkVec st h' t').

(** vector.hpp:171-187 *)
Definition push_front (v : vec A) (x : A) : outcome (vec A) :=
  sassert dbg (vsize v <? vmax v) ;;;
  if 0 <? vh v then st <- wr (vst v) (vh v - 1) x ;; Ok (mkVec st (vh v - 1) (vt v))
  else
    st1 <- memmove (vst v) (vh v + 1) (vh v) (vsize v) ;;
    st2 <- memset0 zero st1 (vh v) 1 ;;
    st3 <- wr st2 (vh v) x ;;
    Ok (mkVec st3 (vh v) (vt v + 1)).

(** vector.hpp:189-202 *)
Definition emplace_front (v : vec A) (x : A) : outcome (vec A) :=
  if 0 <? vh v then st <- wr (vst v) (vh v - 1) x ;; Ok (mkVec st (vh v - 1) (vt v))
  else
    st1 <- memmove (vst v) (vh v + 1) (vh v) (vsize v) ;;
    st2 <- memset0 zero st1 (vh v) 1 ;;
    st3 <- wr st2 (vh v) x ;;
    Ok (mkVec st3 (vh v) (vt v + 1)).

(** vector.hpp:204-208 *)
Definition peek_front (v : vec A) : outcome A :=
  sassert dbg (0 <? vsize v) ;;; rd (vst v) (vh v).

(** vector.hpp:210-219. On an empty vector in a release build the code leaves m_head = m_tail + 1; such ill-formed
    vectors are not modelled, the call counts as UB. *)
Definition pop_front (v : vec A) : outcome (A * vec A) :=
  sassert dbg (0 <? vsize v) ;;;
  (if 0 <? vsize v then Ok tt else UB) ;;;
  let cur := vh v in
  let (h', t') := if vt v =? vh v + 1 then (0, 0) else (vh v + 1, vt v) in
  x <- rd (vst v) cur ;;
  st <- wr (vst v) cur (moved x) ;;
  Ok (x, mkVec st h' t').

(** vector.hpp:221-242 *)
Definition insert (v : vec A) (i : nat) (x : A) : outcome (vec A) :=
  sassert dbg (vsize v <? vmax v) ;;;
  if i =? 0 then push_front v x
  else if vt v <=? vh v + i then push_back v x
  else
    v1 <- (if (vmax v <=? vt v) && (0 <? vh v) then rearrange v 0 else Ok v) ;;
    sassert dbg (vt v1 <? vmax v1) ;;;
    st1 <- memmove (vst v1) (vh v1 + i + 1) (vh v1 + i) (vt v1 - (vh v1 + i)) ;;
    st2 <- memset0 zero st1 (vh v1 + i) 1 ;;
    st3 <- wr st2 (vh v1 + i) x ;;
    Ok (mkVec st3 (vh v1) (vt v1 + 1)).

(** vector.hpp:244-263 *)
Definition remove (v : vec A) (i : nat) : outcome (A * vec A) :=
  if i =? vh v then pop_front v
  else if i =? vt v then pop_back v
  else if (vh v <? i) && (i <? vt v) then
    x <- rd (vst v) i ;;
    st1 <- wr (vst v) i (moved x) ;;
    st2 <- memmove st1 i (i + 1) (vt v - i) ;;
    let t := vt v - 1 in
    Ok (x, if t =? vh v then mkVec st2 0 0 else mkVec st2 (vh v) t)
  else sassert dbg false ;;; Ok (zero, v).

(** vector.hpp:265-270: one pop_back per position between begin() and end(). *)
Fixpoint clear_loop (v : vec A) (k : nat) : outcome (vec A) :=
  match k with
  | 0 => Ok v
  | S k' => '(_, v1) <- pop_back v ;; clear_loop v1 k'
  end.
Definition clear (v : vec A) : outcome (vec A) := clear_loop v (vsize v).

(** vector.hpp:338-343 *)
Definition fill (v : vec A) (x : A) : vec A := mkVec (repeat x (vmax v)) 0 (vmax v).

(** vector.hpp:109-115, array.hpp:190-197: a fresh storage with the values. *)
Definition assign (v : vec A) (l : list A) : vec A := mkVec l 0 (length l).

(** vector.hpp:272-275; array.hpp:199-202, 214-217 (inherited, unchecked, physical positions) *)
Definition vback (v : vec A) : outcome A := rd (vst v) (if 0 <? vt v then vt v - 1 else 0).
Definition vat (v : vec A) (i : nat) : outcome A := rd (vst v) i.
Definition vfront (v : vec A) : outcome A := rd (vst v) 0.

(** vector.hpp:277-297 *)
Definition vbegin (v : vec A) : Z := wrapW W (Z.of_nat (vh v)).
Definition vend (v : vec A) : Z := wrapW W (Z.of_nat (vt v)).
(** vector.hpp:299-319 *)
Definition vrbegin (v : vec A) : Z := wrapW W (Z.of_nat (vt v) - (if vt v =? vh v then 0 else 1)).
Definition vrend (v : vec A) : Z := wrapW W (Z.of_nat (vh v) - (if vt v =? vh v then 0 else 1)).

Definition vstep (v : vec A) (op : vop A) : outcome (vres A * vec A) :=
  match op with
  | VPushBack x => v' <- push_back v x ;; Ok (VUnit, v')
  | VEmplaceBack x => v' <- emplace_back v x ;; Ok (VUnit, v')
  | VPushFront x => v' <- push_front v x ;; Ok (VUnit, v')
  | VEmplaceFront x => v' <- emplace_front v x ;; Ok (VUnit, v')
  | VPopBack => '(x, v') <- pop_back v ;; Ok (VVal x, v')
  | VPopFront => '(x, v') <- pop_front v ;; Ok (VVal x, v')
  | VInsert i x => v' <- insert v i x ;; Ok (VUnit, v')
  | VRemove i => '(x, v') <- remove v i ;; Ok (VVal x, v')
  | VClear => v' <- clear v ;; Ok (VUnit, v')
  | VFill x => Ok (VUnit, fill v x)
  | VAssign l => Ok (VUnit, assign v l)
  | VGet i => x <- vget v i ;; Ok (VVal x, v)
  | VAt i => x <- vat v i ;; Ok (VVal x, v)
  | VFront => x <- vfront v ;; Ok (VVal x, v)
  | VBack => x <- vback v ;; Ok (VVal x, v)
  | VPeekFront => x <- peek_front v ;; Ok (VVal x, v)
  | VPeekBack => x <- peek_back v ;; Ok (VVal x, v)
  | VSize => Ok (VNat (vsize v), v)
  | VEmpty => Ok (VBool (vempty v), v)
  | VFull => Ok (VBool (vfull v), v)
  | VMax => Ok (VNat (vmax v), v)
  | VIter => l <- iterate W (vmax v + 1) 1 (vst v) (vbegin v) (vend v) ;; Ok (VList l, v)
  | VRevIter => l <- iterate W (vmax v + 1) (-1) (vst v) (vrbegin v) (vrend v) ;; Ok (VList l, v)
  end.

(** A sequence of calls. *)
Fixpoint vrun (v : vec A) (ops : list (vop A)) : outcome (list (vres A) * vec A) :=
  match ops with
  | [] => Ok ([], v)
  | op :: ops' => '(x, v1) <- vstep v op ;; '(xs, v2) <- vrun v1 ops' ;; Ok (x :: xs, v2)
  end.

End Vector.
