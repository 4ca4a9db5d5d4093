(** Who refers to an object: variables of the program and elements a container shows. Nothing here mentions counters except [alive]. *)
From Coq Require Import List Arith ZArith Bool Lia.
From Verif Require Import Base VectorModel VectorSpec RingOps RingModel LifeModel.
Import ListNotations.

(** How many of these pointers point at object [o] *)
Definition refs (o : nat) (l : list ptr) : nat :=
  length (filter (fun x => match x with Some p => p =? o | None => false end) l).
(** Object [o] has been made and not been destroyed. *)
Definition alive (c : list nat) (o : nat) : Prop := exists n, nth_error c o = Some (S n).

(** ** The same program with plain pointers: nothing is counted and nothing is ever destroyed *)
Record pw := mkPW { pn : nat; pv : option (vec ptr); pvars : list ptr }.
Definition plain (w : lw) : pw := mkPW (length (lc w)) (lv w) (lvars w).
Definition pvar (w : pw) (k : nat) : ptr := nth k (pvars w) None.
(** A call on the vector; a result that is kept becomes a new variable. *)
Definition pcall (W : Z) (dbg keep : bool) (w : pw) (op : vop ptr) : outcome pw :=
  match pv w with
  | None => Ok w
  | Some v => '(x, v1) <- vstep None (left keep) W dbg v op ;;
      Ok (mkPW (pn w) (Some v1) (match x with VVal y => if keep then pvars w ++ [y] else pvars w | _ => pvars w end))
  end.
Definition pstep (W : Z) (dbg : bool) (w : pw) (op : lop) : outcome pw :=
  match op with
  | LMake => Ok (mkPW (pn w + 1) (pv w) (pvars w ++ [Some (pn w)]))
  | LShare k => Ok (mkPW (pn w) (pv w) (pvars w ++ [pvar w k]))
  | LDrop k => Ok (mkPW (pn w) (pv w) (upd (pvars w) k None))
  | LPushBack k => pcall W dbg true w (VPushBack (pvar w k))
  | LPushFront k => pcall W dbg true w (VPushFront (pvar w k))
  | LInsert i k => pcall W dbg true w (VInsert i (pvar w k))
  | LFill k => pcall W dbg true w (VFill (pvar w k))
  | LAssign ks => pcall W dbg true w (VAssign (map (pvar w) ks))
  | LPopBack keep => pcall W dbg keep w VPopBack
  | LPopFront keep => pcall W dbg keep w VPopFront
  | LRemove i => pcall W dbg true w (VRemove i)
  | LGet i => pcall W dbg true w (VGet i)
  | LClear => pcall W dbg true w VClear
  | LDestroy => Ok (mkPW (pn w) None (pvars w))
  end.
Fixpoint prun (W : Z) (dbg : bool) (w : pw) (ops : list lop) : outcome pw :=
  match ops with [] => Ok w | op :: ops' => w1 <- pstep W dbg w op ;; prun W dbg w1 ops' end.

(** What the vector shows; nothing once it is destroyed. *)
Definition elems (W : Z) (w : lw) (l : list ptr) : Prop := match lv w with None => l = [] | Some v => vholds W v l end.

(** ** Careful use of a vector: results are kept, the vector is neither destroyed nor assigned to, and every call respects its guard
    ([vguard]) and is [vtidy]. *)
Definition vcall (w : lw) (op : lop) : option (vop ptr) :=
  match op with
  | LPushBack k => Some (VPushBack (var w k)) | LPushFront k => Some (VPushFront (var w k)) | LInsert i k => Some (VInsert i (var w k))
  | LFill k => Some (VFill (var w k)) | LPopBack _ => Some VPopBack | LPopFront _ => Some VPopFront | LRemove i => Some (VRemove i)
  | LGet i => Some (VGet i) | LClear => Some VClear | _ => None
  end.
Definition careful_op (W : Z) (w : lw) (op : lop) : Prop :=
  match op with LPopBack false | LPopFront false | LAssign _ | LDestroy => False | _ => True end /\
  forall v c, lv w = Some v -> vcall w op = Some c -> vguard W (vsize v) (vmax v) (offset v) c /\ vtidy v c.
Fixpoint careful (W : Z) (dbg : bool) (w : lw) (ops : list lop) : Prop :=
  match ops with [] => True | op :: ops' => careful_op W w op /\ forall w1, lstep W dbg w op = Ok w1 -> careful W dbg w1 ops' end.

(** Programs that do not call remove *)
Definition no_remove (ops : list lop) : Prop := forall i, ~ In (LRemove i) ops.

(** Calls that free the storage of a vector *)
Definition frees (op : lop) : Prop := op = LDestroy \/ exists ks, op = LAssign ks.

(** ** Ring buffers *)
Record qw := mkQW { qn : nat; qr : option (ring ptr); qvars : list ptr }.
Definition gplain (w : gw) : qw := mkQW (length (gc w)) (gr w) (gvars w).
Definition qvar (w : qw) (k : nat) : ptr := nth k (qvars w) None.
Definition qcall (W : Z) (w : qw) (op : rop ptr) (keep : bool) : outcome qw :=
  match qr w with
  | None => Ok w
  | Some r => '(x, r1) <- ring_step W r op ;;
      Ok (mkQW (qn w) (Some r1) (match x with RVal y => if keep then qvars w ++ [match y with Some p => p | None => None end] else qvars w | _ => qvars w end))
  end.
Definition qstep (W : Z) (w : qw) (op : gop) : outcome qw :=
  match op with
  | GMake => Ok (mkQW (qn w + 1) (qr w) (qvars w ++ [Some (qn w)]))
  | GShare k => Ok (mkQW (qn w) (qr w) (qvars w ++ [qvar w k]))
  | GDrop k => Ok (mkQW (qn w) (qr w) (upd (qvars w) k None))
  | GPush k ro => qcall W w (OpPush (qvar w k) ro) true
  | GPop keep => qcall W w OpPop keep
  | GPeek i => qcall W w (OpPeek i) true
  | GDropLast n => qcall W w (OpDropLast n) true
  | GDropFirst n => qcall W w (OpDropFirst n) true
  | GClear => qcall W w OpClear true
  | GDestroy => Ok (mkQW (qn w) None (qvars w))
  end.
Fixpoint qrun (W : Z) (w : qw) (ops : list gop) : outcome qw :=
  match ops with [] => Ok w | op :: ops' => w1 <- qstep W w op ;; qrun W w1 ops' end.
(** What is in the buffer from oldest to newest, as peek_at shows it *)
Definition gelems (w : gw) (l : list ptr) : Prop :=
  match gr w with None => l = [] | Some r => used_space r = length l /\ forall i x, nth_error l i = Some x -> peek_at r i = Ok (Some x) end.
