(** A bounded double-ended sequence: a list and a capacity. *)
From Coq Require Import List Arith ZArith Bool.
From Verif Require Import Base VectorModel.
Import ListNotations.

Section Spec.
Context {A : Type}.
Variable zero : A.
Variable moved : A -> A.
Variable W : Z.

Definition insert_at (i : nat) (x : A) (l : list A) : list A := firstn i l ++ x :: skipn i l.
Definition remove_at (i : nat) (l : list A) : list A := firstn i l ++ skipn (i + 1) l.

(** Result and contents after a call; [d] stands for "no element" (never met under [vguard]). *)
Definition seq_step (cap : nat) (l : list A) (op : vop A) : vres A * list A :=
  match op with
  | VPushBack x | VEmplaceBack x => (VUnit, l ++ [x])
  | VPushFront x | VEmplaceFront x => (VUnit, x :: l)
  | VPopBack => (VVal (last l zero), removelast l)
  | VPopFront => (VVal (hd zero l), tl l)
  | VInsert i x => (VUnit, insert_at i x l)
  | VRemove i => (VVal (nth i l zero), remove_at i l)
  | VClear => (VUnit, [])
  | VFill x => (VUnit, repeat x cap)
  | VAssign l' => (VUnit, l')
  | VGet i | VAt i => (VVal (nth i l zero), l)
  | VFront | VPeekFront => (VVal (hd zero l), l)
  | VBack | VPeekBack => (VVal (last l zero), l)
  | VSize => (VNat (length l), l)
  | VEmpty => (VBool (length l =? 0), l)
  | VFull => (VBool (length l =? cap), l)
  | VMax => (VNat cap, l)
  | VIter => (VList l, l)
  | VRevIter => (VList (rev l), l)
  end.

(** The capacity only changes by list assignment. *)
Definition seq_cap (cap : nat) (op : vop A) : nat := match op with VAssign l => length l | _ => cap end.

(** [offset v]: how many cells the first element lies behind data(), i.e. &v[0] - v.data(). *)
Definition offset (v : vec A) : nat := vh v.

(** What a caller has to respect, with [n] = size(), [cap] = max_size(), [off] = offset. The conditions on [off] are
    those under which the code is right (see the refutations of C15, C16, C17). *)
Definition vguard (n cap off : nat) (op : vop A) : Prop :=
  match op with
  | VPushBack _ | VEmplaceBack _ | VPushFront _ | VEmplaceFront _ | VInsert _ _ => n < cap
  | VPopFront | VPeekFront | VPeekBack | VBack => 1 <= n
  | VPopBack => 2 <= n \/ (n = 1 /\ off = 0)
  | VRemove i => i < n /\ off = 0 /\ (i = 0 \/ n < cap)
  | VGet i => i < n
  | VAt i => i < n /\ off = 0
  | VFront => 1 <= n /\ off = 0
  | VClear | VFill _ | VSize | VEmpty | VFull | VMax | VIter | VRevIter => True
  | VAssign l => (Z.of_nat (length l) < 2 ^ W)%Z
  end.

(** Histories: every call respects the guard in the state in which it is made. *)
Inductive vhist (dbg : bool) : vec A -> list (vop A) -> list (vres A) -> vec A -> Prop :=
| vh_nil v : vhist dbg v [] [] v
| vh_cons v op x v1 ops xs v2 :
    vguard (vsize v) (vmax v) (offset v) op -> vstep zero moved W dbg v op = Ok (x, v1) -> vhist dbg v1 ops xs v2 ->
    vhist dbg v (op :: ops) (x :: xs) v2.

Fixpoint seq_run (cap : nat) (l : list A) (ops : list (vop A)) : list (vres A) * list A :=
  match ops with
  | [] => ([], l)
  | op :: ops' =>
      let (x, l1) := seq_step cap l op in
      let (xs, l2) := seq_run (seq_cap cap op) l1 ops' in
      (x :: xs, l2)
  end.

(** The list of elements: [vholds v l] when a caller that iterates over [v] sees [l] and size() is its length. *)
Definition vholds (v : vec A) (l : list A) : Prop :=
  vsize v = length l /\ iterate W (vmax v + 1) 1 (vst v) (vbegin W v) (vend W v) = Ok l.

(** Constructors: empty, filled, from a list. *)
Inductive vmade : vec A -> nat -> list A -> Prop :=
| made_new n : (Z.of_nat n < 2 ^ W)%Z -> vmade (vec_new zero n) n []
| made_fill n x : (Z.of_nat n < 2 ^ W)%Z -> vmade (vec_fill_new n x) n (repeat x n)
| made_list l : (Z.of_nat (length l) < 2 ^ W)%Z -> vmade (vec_list l) (length l) l
| made_ext store k : (Z.of_nat (length store) < 2 ^ W)%Z -> k <= length store ->
    vmade (vec_external store k) (length store) (firstn k store).

(** A list of 2^W or more values does not fit into memory. *)
Definition vfits (op : vop A) : Prop := match op with VAssign l => (Z.of_nat (length l) < 2 ^ W)%Z | _ => True end.

(** Calls without any other restriction that returned to the caller; each in a debug or a release build. *)
Inductive vexec : vec A -> list (vop A) -> list (vres A) -> vec A -> Prop :=
| vx_nil v : vexec v [] [] v
| vx_cons dbg v op x v1 ops xs v2 :
    vfits op -> vstep zero moved W dbg v op = Ok (x, v1) -> vexec v1 ops xs v2 -> vexec v (op :: ops) (x :: xs) v2.

(** Any state a program can bring a vector into. *)
Definition vreachable (v : vec A) : Prop :=
  exists v0 cap l ops xs, vmade v0 cap l /\ vexec v0 ops xs v.

(** The documented preconditions alone: room for an insertion, an element to remove, an index in range. *)
Definition vlegal (n cap : nat) (op : vop A) : Prop :=
  match op with
  | VPushBack _ | VEmplaceBack _ | VPushFront _ | VEmplaceFront _ | VInsert _ _ => n < cap
  | VPopFront | VPopBack | VPeekFront | VPeekBack | VBack | VFront => 1 <= n
  | VRemove i | VGet i | VAt i => i < n
  | _ => True
  end.

(** Calls whose preconditions are checked by an assertion. *)
Definition vchecked (op : vop A) : Prop :=
  match op with
  | VPushBack _ | VEmplaceBack _ | VPushFront _ | VInsert _ _ | VPopFront | VPopBack | VPeekFront | VPeekBack | VGet _ => True
  | _ => False
  end.

(** A storage cell that is not part of the sequence holds nothing. *)
Definition no_stale (null : A -> Prop) (v : vec A) : Prop :=
  forall k y, nth_error (vst v) k = Some y -> (k < offset v \/ offset v + vsize v <= k) -> null y.

(** Calls that may leave an element behind: taking out the only element from the back, or clearing, when it does not sit
    at the start of the storage. *)
Definition vtidy (v : vec A) (op : vop A) : Prop :=
  match op with
  | VClear => offset v = 0 \/ vsize v = 0
  | VPopBack => offset v = 0 \/ 2 <= vsize v
  | VRemove i => offset v = 0 \/ 2 <= vsize v \/ i = offset v
  | _ => True
  end.

Inductive vexec_tidy (dbg : bool) : vec A -> list (vop A) -> vec A -> Prop :=
| vxt_nil v : vexec_tidy dbg v [] v
| vxt_cons v op x v1 ops v2 :
    vfits op -> vtidy v op -> vstep zero moved W dbg v op = Ok (x, v1) -> vexec_tidy dbg v1 ops v2 -> vexec_tidy dbg v (op :: ops) v2.

End Spec.
