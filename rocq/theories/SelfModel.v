(** Model of structure/vector.hpp when the item handed to push_back, push_front or insert is a reference to an element of the vector itself,
    as in v.push_back(v[0]): the item is read at the moment it is copied, after elements have been moved. *)
From Coq Require Import List Arith ZArith Bool.
From Verif Require Import Base VectorModel.
Import ListNotations.

Section Self.
Context {A : Type}.
Variable zero : A.
Variable W : Z.
Variable dbg : bool.

(** vector.hpp:133-139; the item is the cell [p] of the storage. (emplace_back, vector.hpp:141-150, runs the same code.) *)
Definition push_back_ref (v : vec A) (p : nat) : outcome (vec A) :=
  v1 <- (if (vmax v <=? vt v) && (0 <? vh v) then rearrange zero W dbg v 0 else Ok v) ;;
  sassert dbg (vt v1 <? vmax v1) ;;;
  if vt v1 <? vmax v1
  then x <- rd (vst v1) p ;; st <- wr (vst v1) (vt v1) x ;; Ok (mkVec st (vh v1) (vt v1 + 1))
  else Ok v1.

(** vector.hpp:171-187. (emplace_front, vector.hpp:189-202, runs the same code without the assertion.) *)
Definition push_front_ref (v : vec A) (p : nat) : outcome (vec A) :=
  sassert dbg (vsize v <? vmax v) ;;;
  if 0 <? vh v then x <- rd (vst v) p ;; st <- wr (vst v) (vh v - 1) x ;; Ok (mkVec st (vh v - 1) (vt v))
  else
    st1 <- memmove (vst v) (vh v + 1) (vh v) (vsize v) ;;
    st2 <- memset0 zero st1 (vh v) 1 ;;
    x <- rd st2 p ;;
    st3 <- wr st2 (vh v) x ;;
    Ok (mkVec st3 (vh v) (vt v + 1)).

(** vector.hpp:221-242 *)
Definition insert_ref (v : vec A) (i : nat) (p : nat) : outcome (vec A) :=
  sassert dbg (vsize v <? vmax v) ;;;
  if i =? 0 then push_front_ref v p
  else if vt v <=? vh v + i then push_back_ref v p
  else
    v1 <- (if (vmax v <=? vt v) && (0 <? vh v) then rearrange zero W dbg v 0 else Ok v) ;;
    sassert dbg (vt v1 <? vmax v1) ;;;
    st1 <- memmove (vst v1) (vh v1 + i + 1) (vh v1 + i) (vt v1 - (vh v1 + i)) ;;
    st2 <- memset0 zero st1 (vh v1 + i) 1 ;;
    x <- rd st2 p ;;
    st3 <- wr st2 (vh v1 + i) x ;;
    Ok (mkVec st3 (vh v1) (vt v1 + 1)).

(** v.push_back(v[i]), v.push_front(v[i]), v.insert(k, v[i]): operator[] (vector.hpp:121-125) gives the reference *)
Definition ref (v : vec A) (i : nat) : outcome nat := sassert dbg (vh v + i <? vt v) ;;; Ok (vh v + i).
Definition push_back_self (v : vec A) (i : nat) : outcome (vec A) := p <- ref v i ;; push_back_ref v p.
Definition push_front_self (v : vec A) (i : nat) : outcome (vec A) := p <- ref v i ;; push_front_ref v p.
Definition insert_self (v : vec A) (k i : nat) : outcome (vec A) := p <- ref v i ;; insert_ref v k p.
End Self.
