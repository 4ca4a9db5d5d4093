(** Model of copying, assigning and destroying pools (structure/pool.hpp:17-35), where the vectors of two pools can refer to one storage
    (structure/array.hpp:148-188). The calls on one pool are those of PoolModel. *)
From Coq Require Import List Arith ZArith Bool.
From Verif Require Import Base VectorModel PoolModel.
Import ListNotations.

(** A pool: the storage its vector points to (None = nullptr), whether it frees it, max_size(), m_head, m_tail (array.hpp:111-115,
    vector.hpp:96-97) and the lookup index (pool.hpp:87). *)
Record pobj := mkObj { oblk : option nat; oown : bool; omax : nat; oh : nat; ot : nat; olook : nat }.
(** The storages, in order of allocation, with whether they were freed: a storage is freed without destroying the pointers in it
    (array.hpp:148-154), so these stay counted. The pools (None: destroyed) and the references held by clients. *)
Record pheap := mkPH { hblk : list (bool * list sptr); hobj : list (option pobj); href : list nat }.

Inductive qop :=
| QNew (n : nat) | QCopy (i : nat) | QCopyAssign (i j : nat) | QMoveAssign (i j : nat) | QDestroy (i : nat)
| QCall (i : nat) (op : pop).
Inductive qres := QUnit | QObj (i : nat) | QRes (r : pres).

Section Copy.
Variable W : Z.
Variable L : nat.
Variable dbg : bool.

Definition objat (h : pheap) (i : nat) : outcome pobj := match nth_error (hobj h) i with Some (Some a) => Ok a | _ => UB end.
(** The cells a pool's vector can access: None for a null pointer or a freed storage *)
Definition live (h : pheap) (a : pobj) : option (nat * list sptr) :=
  match oblk a with
  | Some b => match nth_error (hblk h) b with Some (false, c) => Some (b, c) | _ => None end
  | None => None
  end.
Definition pool_of (a : pobj) (c : list sptr) : pool := mkPool (mkVec c (oh a) (ot a)) (olook a).
Definition obj_of (a : pobj) (p : pool) : pobj := mkObj (oblk a) (oown a) (omax a) (vh (pv p)) (vt (pv p)) (plook p).
(** The objects referred to from all storages but [b] *)
Definition elsewhere (b : nat) (bs : list (bool * list sptr)) : list nat :=
  flat_map (fun q => flat_map (fun p => match p with Some o => [o] | None => [] end) (snd q)) (firstn b bs ++ skipn (S b) bs).
Definition put (h : pheap) (i b : nat) (a : pobj) (c : list sptr) (refs : list nat) : pheap :=
  mkPH (upd (hblk h) b (false, c)) (upd (hobj h) i (Some a)) refs.

(** A call through a vector without storage: nothing but its size can be used. (populate: emplace_back in a release build does nothing on
    a full vector; depopulate and acquire dereference.) *)
Definition dead_call (a : pobj) (op : pop) : outcome (pres * pobj) :=
  let size := ot a - oh a in
  match op with
  | PPopulate _ => sassert dbg (negb (size =? omax a)) ;;; if size =? omax a then Ok (PUnit, a) else UB
  | PDepopulate => sassert dbg (negb (size =? 0)) ;;; UB
  | PAcquire => sassert dbg (size =? omax a) ;;;
      if size =? 0 then Ok (PPtr None, mkObj (oblk a) (oown a) (omax a) (oh a) (ot a) 0) else UB
  | PSize => Ok (PNat size, a)
  | PFullyPopulated => Ok (PBool (size =? omax a), a)
  | PHold _ | PRelease _ => Ok (PUnit, a)
  end.
(** pool.hpp:37-81 on pool [i]. Pointers in other storages count as references to their objects. *)
Definition qcall (fuel : nat) (h : pheap) (i : nat) (op : pop) : outcome (qres * pheap) :=
  a <- objat h i ;;
  match live h a with
  | Some (b, c) =>
      let others := elsewhere b (hblk h) in
      '(r, w) <- pstep W L dbg fuel (mkPW (pool_of a c) (href h ++ others)) op ;;
      let refs := match op, r with
                  | PHold o, _ => o :: href h
                  | PRelease o, _ => drop_one o (href h)
                  | _, PPtr (Some o) => o :: href h
                  | _, _ => href h
                  end in
      Ok (QRes r, put h i b (obj_of a (ppool w)) (vst (pv (ppool w))) refs)
  | None =>
      '(r, a1) <- dead_call a op ;;
      let refs := match op with PHold o => o :: href h | PRelease o => drop_one o (href h) | _ => href h end in
      Ok (QRes r, mkPH (hblk h) (upd (hobj h) i (Some a1)) refs)
  end.

(** pool.hpp:18-22, then ~Vector and ~Array (array.hpp:148-154) *)
Definition qdestroy (h : pheap) (i : nat) : outcome (qres * pheap) :=
  a <- objat h i ;;
  match live h a with
  | Some (b, c) =>
      p <- pool_destroy dbg (pool_of a c) ;;
      Ok (QUnit, mkPH (upd (hblk h) b (oown a, vst (pv p))) (upd (hobj h) i None) (href h))
  | None =>
      (* with objects left the first depopulate() dereferences; freeing a freed storage is undefined, a null pointer is ignored *)
      if ot a - oh a =? 0
      then match oblk a with
           | Some _ => if oown a then UB else Ok (QUnit, mkPH (hblk h) (upd (hobj h) i None) (href h))
           | None => Ok (QUnit, mkPH (hblk h) (upd (hobj h) i None) (href h))
           end
      else UB
  end.

Definition qstep (fuel : nat) (h : pheap) (op : qop) : outcome (qres * pheap) :=
  match op with
  (* pool.hpp:17 *)
  | QNew n => Ok (QObj (length (hobj h)),
      mkPH (hblk h ++ [(false, repeat None n)]) (hobj h ++ [Some (mkObj (Some (length (hblk h))) true n 0 0 0)]) (href h))
  (* pool.hpp:23; the vector's copy constructor is the implicit one: array.hpp:156-160, m_head and m_tail. There is no move constructor: a
     pool constructed from an rvalue is copied as well. *)
  | QCopy i => a <- objat h i ;;
      Ok (QObj (length (hobj h)), mkPH (hblk h) (hobj h ++ [Some (mkObj (oblk a) false (omax a) (oh a) (ot a) (olook a))]) (href h))
  (* pool.hpp:24-29, array.hpp:169-177 *)
  | QCopyAssign i j => _ <- objat h i ;; a <- objat h j ;;
      if i =? j then Ok (QUnit, h)
      else Ok (QUnit, mkPH (hblk h) (upd (hobj h) i (Some (mkObj (oblk a) false (omax a) (oh a) (ot a) (olook a)))) (href h))
  (* pool.hpp:30-35, array.hpp:179-188: m_head and m_tail of the source stay *)
  | QMoveAssign i j => _ <- objat h i ;; a <- objat h j ;;
      if i =? j then Ok (QUnit, h)
      else Ok (QUnit, mkPH (hblk h) (upd (upd (hobj h) j (Some (mkObj None (oown a) (omax a) (oh a) (ot a) (olook a)))) i (Some a)) (href h))
  | QDestroy i => qdestroy h i
  | QCall i op => qcall fuel h i op
  end.

Fixpoint qrun (fuel : nat) (h : pheap) (ops : list qop) : outcome (list qres * pheap) :=
  match ops with
  | [] => Ok ([], h)
  | op :: ops' => '(x, h1) <- qstep fuel h op ;; '(xs, h2) <- qrun fuel h1 ops' ;; Ok (x :: xs, h2)
  end.
Definition no_pools : pheap := mkPH [] [] [].
End Copy.
