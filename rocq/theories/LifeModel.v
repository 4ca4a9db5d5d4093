(** Model of Vector and RingBuffer whose elements are std::shared_ptr (as in eventsystem/pipeline.hpp and structure/pool.hpp): how often
    each object is referred to, as the counters in the control blocks have it. Assignments of elements change the counters, memmove,
    memset and free do not. *)
From Coq Require Import List Arith ZArith Bool.
From Verif Require Import Base VectorModel RingModel.
Import ListNotations.

(** A shared_ptr: null, or an object; the bytes of a null pointer are all zero. Objects are numbered in the order they are made, and
    the counter of each is kept; an object whose counter reaches 0 is destroyed with its control block, and touching that is undefined. *)
Notation ptr := (option nat).
Definition inc (c : list nat) (x : ptr) : outcome (list nat) :=
  match x with None => Ok c | Some o => match nth_error c o with Some (S n) => Ok (upd c o (S (S n))) | _ => UB end end.
Definition dec (c : list nat) (x : ptr) : outcome (list nat) :=
  match x with None => Ok c | Some o => match nth_error c o with Some (S n) => Ok (upd c o n) | _ => UB end end.
(** cell = x, for x const T& or const T&&: the counter of the new object goes up, then that of the old one down *)
Definition asg (c : list nat) (st : list ptr) (p : nat) (x : ptr) : outcome (list nat * list ptr) :=
  old <- rd st p ;; c1 <- inc c x ;; st1 <- wr st p x ;; c2 <- dec c1 old ;; Ok (c2, st1).

Section Vec.
Variable W : Z.
Variable dbg : bool.
Notation vec := (vec ptr).
(** vector.hpp:133-139; emplace_back (141-150) runs the same code *)
Definition lpush_back (c : list nat) (v : vec) (x : ptr) : outcome (list nat * vec) :=
  v1 <- (if (vmax v <=? vt v) && (0 <? vh v) then rearrange None W dbg v 0 else Ok v) ;;
  sassert dbg (vt v1 <? vmax v1) ;;;
  if vt v1 <? vmax v1 then '(c1, st) <- asg c (vst v1) (vt v1) x ;; Ok (c1, mkVec st (vh v1) (vt v1 + 1)) else Ok (c, v1).
(** vector.hpp:171-187; emplace_front (189-202) runs the same code without the assertion *)
Definition lpush_front (c : list nat) (v : vec) (x : ptr) : outcome (list nat * vec) :=
  sassert dbg (vsize v <? vmax v) ;;;
  if 0 <? vh v then '(c1, st) <- asg c (vst v) (vh v - 1) x ;; Ok (c1, mkVec st (vh v - 1) (vt v))
  else
    st1 <- memmove (vst v) (vh v + 1) (vh v) (vsize v) ;;
    st2 <- memset0 None st1 (vh v) 1 ;;
    '(c1, st3) <- asg c st2 (vh v) x ;;
    Ok (c1, mkVec st3 (vh v) (vt v + 1)).
(** vector.hpp:221-242 *)
Definition linsert (c : list nat) (v : vec) (i : nat) (x : ptr) : outcome (list nat * vec) :=
  sassert dbg (vsize v <? vmax v) ;;;
  if i =? 0 then lpush_front c v x
  else if vt v <=? vh v + i then lpush_back c v x
  else
    v1 <- (if (vmax v <=? vt v) && (0 <? vh v) then rearrange None W dbg v 0 else Ok v) ;;
    sassert dbg (vt v1 <? vmax v1) ;;;
    st1 <- memmove (vst v1) (vh v1 + i + 1) (vh v1 + i) (vt v1 - (vh v1 + i)) ;;
    st2 <- memset0 None st1 (vh v1 + i) 1 ;;
    '(c1, st3) <- asg c st2 (vh v1 + i) x ;;
    Ok (c1, mkVec st3 (vh v1) (vt v1 + 1)).
(** What is left in a cell whose reference was returned: taken by a move, or as it was if the caller discards the reference *)
Definition left (keep : bool) (x : ptr) : ptr := if keep then None else x.
(** vector.hpp:158-169, 210-219 *)
Definition lpop_back (keep : bool) (v : vec) : outcome (ptr * vec) := pop_back (left keep) dbg v.
Definition lpop_front (keep : bool) (v : vec) : outcome (ptr * vec) := pop_front (left keep) dbg v.
(** vector.hpp:244-263: the element removed is moved out in every case *)
Definition lremove (v : vec) (i : nat) : outcome (ptr * vec) := remove None (left true) dbg v i.
(** vector.hpp:265-270: each element is moved to a local variable that is destroyed *)
Fixpoint lclear (c : list nat) (v : vec) (k : nat) : outcome (list nat * vec) :=
  match k with
  | 0 => Ok (c, v)
  | S k' => '(x, v1) <- lpop_back true v ;; c1 <- dec c x ;; lclear c1 v1 k'
  end.
(** array.hpp:325-329, from cell [i] on *)
Fixpoint lfill (c : list nat) (st : list ptr) (i k : nat) (x : ptr) : outcome (list nat * list ptr) :=
  match k with
  | 0 => Ok (c, st)
  | S k' => '(c1, st1) <- asg c st i x ;; lfill c1 st1 (i + 1) k' x
  end.
(** array.hpp:138-146: the values of a list assigned to the cells of a new storage. The copies in the list itself, which live as long as
    the call, are left out. *)
Fixpoint llist (c : list nat) (st : list ptr) (i : nat) (l : list ptr) : outcome (list nat * list ptr) :=
  match l with
  | [] => Ok (c, st)
  | x :: l' => '(c1, st1) <- asg c st i x ;; llist c1 st1 (i + 1) l'
  end.

(** A program: the counters, a vector with a storage of its own (None once destroyed) and variables, which are shared_ptrs too. A
    variable that is not there counts as a null pointer, and calls on the vector once it is destroyed do nothing. *)
Record lw := mkLW { lc : list nat; lv : option vec; lvars : list ptr }.
Inductive lop :=
| LMake                       (** auto x = std::make_shared<..>(); *)
| LShare (k : nat)            (** auto x = variable k; *)
| LDrop (k : nat)             (** variable k.reset(); *)
| LPushBack (k : nat) | LPushFront (k : nat) | LInsert (i k : nat) | LFill (k : nat) | LAssign (ks : list nat)
| LPopBack (keep : bool) | LPopFront (keep : bool)  (** auto x = v.pop_back(); or v.pop_back(); *)
| LRemove (i : nat) | LGet (i : nat)                (** auto x = v.remove(i); auto x = v[i]; *)
| LClear | LDestroy.
Definition var (w : lw) (k : nat) : ptr := match nth_error (lvars w) k with Some x => x | None => None end.
Definition on_vec (w : lw) (f : vec -> outcome (list nat * vec)) : outcome lw :=
  match lv w with None => Ok w | Some v => '(c, v1) <- f v ;; Ok (mkLW c (Some v1) (lvars w)) end.
Definition lstep (w : lw) (op : lop) : outcome lw :=
  match op with
  | LMake => Ok (mkLW (lc w ++ [1]) (lv w) (lvars w ++ [Some (length (lc w))]))
  | LShare k => c <- inc (lc w) (var w k) ;; Ok (mkLW c (lv w) (lvars w ++ [var w k]))
  | LDrop k => c <- dec (lc w) (var w k) ;; Ok (mkLW c (lv w) (upd (lvars w) k None))
  | LPushBack k => on_vec w (fun v => lpush_back (lc w) v (var w k))
  | LPushFront k => on_vec w (fun v => lpush_front (lc w) v (var w k))
  | LInsert i k => on_vec w (fun v => linsert (lc w) v i (var w k))
  (* vector.hpp:338-343 *)
  | LFill k => on_vec w (fun v => '(c, st) <- lfill (lc w) (vst v) 0 (vmax v) (var w k) ;; Ok (c, mkVec st 0 (vmax v)))
  (* vector.hpp:109-115, array.hpp:190-197: the old storage is freed *)
  | LAssign ks => on_vec w (fun v => '(c, st) <- llist (lc w) (repeat None (length ks)) 0 (map (var w) ks) ;; Ok (c, mkVec st 0 (length ks)))
  | LPopBack keep => match lv w with None => Ok w | Some v => '(x, v1) <- lpop_back keep v ;;
      Ok (mkLW (lc w) (Some v1) (if keep then lvars w ++ [x] else lvars w)) end
  | LPopFront keep => match lv w with None => Ok w | Some v => '(x, v1) <- lpop_front keep v ;;
      Ok (mkLW (lc w) (Some v1) (if keep then lvars w ++ [x] else lvars w)) end
  | LRemove i => match lv w with None => Ok w | Some v => '(x, v1) <- lremove v i ;; Ok (mkLW (lc w) (Some v1) (lvars w ++ [x])) end
  | LGet i => match lv w with None => Ok w | Some v => x <- vget dbg v i ;; c <- inc (lc w) x ;; Ok (mkLW c (lv w) (lvars w ++ [x])) end
  | LClear => on_vec w (fun v => lclear (lc w) v (vsize v))
  (* array.hpp:148-154 *)
  | LDestroy => Ok (mkLW (lc w) None (lvars w))
  end.
Fixpoint lrun (w : lw) (ops : list lop) : outcome lw := match ops with [] => Ok w | op :: ops' => w1 <- lstep w op ;; lrun w1 ops' end.
(** Vector<std::shared_ptr<..>> v(n); no objects and no variables yet *)
Definition lstart (n : nat) : lw := mkLW [] (Some (vec_new None n)) [].
End Vec.

(** ** Ring buffers of shared_ptrs *)
Section Ring.
Variable W : Z.
(** ringbuffer.hpp:78-90 *)
Definition lpush (c : list nat) (r : ring ptr) (x : ptr) (ro : bool) : outcome (list nat * ring ptr) :=
  if rfull r && negb ro then Ok (c, r)
  else
    '(c1, b) <- asg c (buf r) (rhead r) x ;;
    let h := (rhead r + 1) mod length b in
    if h =? rtail r then Ok (c1, mkRing b h (rtail r) (over r) true)
    else if rfull r
         then Ok (c1, mkRing b h ((rtail r + 1) mod length b) (wrapW W (over r + 1)) (rfull r))
         else Ok (c1, mkRing b h (rtail r) (over r) (rfull r)).
(** As [lw], with a ring buffer *)
Record gw := mkGW { gc : list nat; gr : option (ring ptr); gvars : list ptr }.
Inductive gop :=
| GMake | GShare (k : nat) | GDrop (k : nat)
| GPush (k : nat) (ro : bool)
| GPop (keep : bool)                   (** T x; r.pop(x); or r.pop(); *)
| GPeek (i : nat)                      (** T x; r.peek_at(x, i); *)
| GDropLast (n : nat) | GDropFirst (n : nat) | GClear
| GDestroy.
Definition gvar (w : gw) (k : nat) : ptr := match nth_error (gvars w) k with Some x => x | None => None end.
Definition flat (x : option ptr) : ptr := match x with Some p => p | None => None end.
Definition on_ring (w : gw) (f : ring ptr -> outcome gw) : outcome gw := match gr w with None => Ok w | Some r => f r end.
Definition gstep (w : gw) (op : gop) : outcome gw :=
  match op with
  | GMake => Ok (mkGW (gc w ++ [1]) (gr w) (gvars w ++ [Some (length (gc w))]))
  | GShare k => c <- inc (gc w) (gvar w k) ;; Ok (mkGW c (gr w) (gvars w ++ [gvar w k]))
  | GDrop k => c <- dec (gc w) (gvar w k) ;; Ok (mkGW c (gr w) (upd (gvars w) k None))
  | GPush k ro => on_ring w (fun r => '(c, r1) <- lpush (gc w) r (gvar w k) ro ;; Ok (mkGW c (Some r1) (gvars w)))
  (* ringbuffer.hpp:103-118: "value = m_buffer[m_tail]", with a variable of the caller or one that is destroyed on return *)
  | GPop keep => on_ring w (fun r => '(x, r1) <- pop r ;; c <- inc (gc w) (flat x) ;;
      if keep then Ok (mkGW c (Some r1) (gvars w ++ [flat x])) else c1 <- dec c (flat x) ;; Ok (mkGW c1 (Some r1) (gvars w)))
  (* ringbuffer.hpp:134-141 *)
  | GPeek i => on_ring w (fun r => x <- peek_at r i ;; c <- inc (gc w) (flat x) ;; Ok (mkGW c (Some r) (gvars w ++ [flat x])))
  | GDropLast n => on_ring w (fun r => '(_, r1) <- drop_last W r n ;; Ok (mkGW (gc w) (Some r1) (gvars w)))
  | GDropFirst n => on_ring w (fun r => '(_, r1) <- drop_first W r n ;; Ok (mkGW (gc w) (Some r1) (gvars w)))
  | GClear => on_ring w (fun r => r1 <- clear W r ;; Ok (mkGW (gc w) (Some r1) (gvars w)))
  (* array.hpp:148-154 *)
  | GDestroy => Ok (mkGW (gc w) None (gvars w))
  end.
Fixpoint grun (w : gw) (ops : list gop) : outcome gw := match ops with [] => Ok w | op :: ops' => w1 <- gstep w op ;; grun w1 ops' end.
(** RingBuffer<std::shared_ptr<..>> r(n); n at least 1 *)
Definition gstart (n : nat) : gw := mkGW [] (Some (mkRing (repeat None n) 0 0 0%Z false)) [].
End Ring.
