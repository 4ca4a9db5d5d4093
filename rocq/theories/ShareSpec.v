(** Property C121: ring buffers, line buffers and vectors as objects that are each their own. *)
From Coq Require Import List Arith Bool ZArith.
From Verif Require Import Base RingOps VectorModel VectorSpec ShareModel.
Import ListNotations.

Definition answers {X S : Type} (o : outcome (X * S)) : outcome X := '(x, _) <- o ;; Ok x.

Section Own.
Context {N H A O R : Type}.
Variable C : cls N H A O R.

(** An object that has its contents, or one whose contents were moved away *)
Inductive cont := Mine (hd : H) (st : list A) | Void (hd : H) (n : nat).
(** The objects of a program, each holding its own contents; None: destroyed *)
Definition estate := list (option cont).
Definition at_ (s : estate) (i : nat) : outcome cont := match nth_error s i with Some (Some c) => Ok c | _ => UB end.
Definition hdr_c (c : cont) : H := match c with Mine hd _ | Void hd _ => hd end.
Definition max_c (c : cont) : nat := match c with Mine _ st => length st | Void _ n => n end.

(** A call on one object changes that object alone. *)
Definition ecall (c : cont) (op : O) : outcome (R * cont) :=
  match c with
  | Mine hd st =>
      '(r, hd', st') <- call C hd (if renews C op then repeat (blank C) (length st) else st) op ;; Ok (r, Mine hd' st')
  | Void hd n =>
      if renews C op then '(r, hd', st') <- call C hd (repeat (blank C) n) op ;; Ok (r, Mine hd' st')
      else if touches C hd n op then UB
      else '(r, hd', _) <- call C hd (repeat (blank C) n) op ;; Ok (r, Void hd' n)
  end.
Definition estep (s : estate) (op : sop N O) : outcome (sres R * estate) :=
  match op with
  | SNew n => '(_, hd, st) <- make C n ;; Ok (SObj (length s), s ++ [Some (Mine hd st)])
  | SMove i => c <- at_ s i ;; Ok (SObj (length s), upd s i (Some (Void (hdr_c c) (max_c c))) ++ [Some c])
  | SMoveAssign i j => _ <- at_ s i ;; c <- at_ s j ;;
      if i =? j then Ok (SUnit, s) else Ok (SUnit, upd (upd s j (Some (Void (hdr_c c) (max_c c)))) i (Some c))
  | SDestroy i => _ <- at_ s i ;; Ok (SUnit, upd s i None)
  | SCall i op => c <- at_ s i ;; '(r, c') <- ecall c op ;; Ok (SRes r, upd s i (Some c'))
  (* copies as a user would have them: with contents of their own *)
  | SCopy i => c <- at_ s i ;; Ok (SObj (length s), s ++ [Some c])
  | SCopyAssign i j => _ <- at_ s i ;; c <- at_ s j ;; Ok (SUnit, upd s i (Some c))
  end.
Fixpoint erun (s : estate) (ops : list (sop N O)) : outcome (list (sres R) * estate) :=
  match ops with
  | [] => Ok ([], s)
  | op :: ops' => '(x, s1) <- estep s op ;; '(xs, s2) <- erun s1 ops' ;; Ok (x :: xs, s2)
  end.
Definition no_copy (op : sop N O) : Prop := match op with SCopy _ | SCopyAssign _ _ => False | _ => True end.

(** What calls on one object answer, in order *)
Definition told (h : sheap H A) (i : nat) (ops : list O) : outcome (list (sres R)) := answers (srun C h (map (SCall i) ops)).
(** The object frees the storage it uses *)
Definition owner (h : sheap H A) (i b : nat) : Prop := exists a, nth_error (sobjs h) i = Some (Some a) /\ sown a = true /\ sblk a = Some b.
Definition uses (h : sheap H A) (i : nat) (b : option nat) : Prop := exists a, nth_error (sobjs h) i = Some (Some a) /\ sblk a = b.
End Own.

(** The elements a ring buffer shows *)
Definition ring_shows {A} (zero : A) W dbg (h : sheap rhdr A) (i : nat) (q : list A) : Prop :=
  told (ring_cls A zero W dbg) h i [OpUsed] = Ok [SRes (RNat (length q))] /\
  forall k, told (ring_cls A zero W dbg) h i [OpPeek k] = Ok [SRes (RVal (nth_error q k))].
(** The elements a vector shows *)
Definition vec_shows {A} (zero : A) moved W dbg (h : sheap (nat * nat) A) (i : nat) (l : list A) : Prop :=
  told (vec_cls A zero moved W dbg) h i [VSize] = Ok [SRes (VNat (length l))] /\
  forall k x, nth_error l k = Some x -> told (vec_cls A zero moved W dbg) h i [VGet k] = Ok [SRes (VVal x)].

(** Programs in which no storage is written or freed while two objects use it *)
Section Lawful.
Context {N H A O R : Type}.
Variable C : cls N H A O R.
Definition alone (h : sheap H A) (i : nat) : Prop := forall j b, uses h i (Some b) -> uses h j (Some b) -> j = i.
(** The call leaves the storage as it is. *)
Definition reads (op : O) : Prop := renews C op = false /\ forall hd st r hd' st', call C hd st op = Ok (r, hd', st') -> st' = st.
Definition lawful (h : sheap H A) (op : sop N O) : Prop :=
  match op with
  | SCall i op => reads op \/ alone h i \/ (renews C op = true /\ forall b, ~ owner h i b)
  | SDestroy i => alone h i \/ forall b, ~ owner h i b
  | _ => True
  end.
Fixpoint lawful_run (h : sheap H A) (ops : list (sop N O)) : Prop :=
  match ops with
  | [] => True
  | op :: ops' => lawful h op /\ forall x h', sstep C h op = Ok (x, h') -> lawful_run h' ops'
  end.
(** Calls never change the number of cells, but for those that bring a new storage. *)
Definition fixed_size : Prop := forall hd st op r hd' st', renews C op = false -> call C hd st op = Ok (r, hd', st') -> length st' = length st.
End Lawful.

(** Calls that leave the elements in their cells; taking elements off a ring buffer does. *)
Definition ring_reader {A} (op : rop A) : Prop := match op with OpPush _ _ | OpPushN _ _ => False | _ => True end.
Definition line_reader (op : lcall) : Prop := match op with LRing op => ring_reader op | LPush _ => False | _ => True end.
Definition vec_reader {A} (op : vop A) : Prop :=
  match op with VGet _ | VAt _ | VFront | VBack | VPeekFront | VPeekBack | VSize | VEmpty | VFull | VMax | VIter | VRevIter => True | _ => False end.

(** Ring buffers have at least one cell. *)
Definition sized {A} (op : sop (nat * A) (rop A)) : Prop := match op with SNew n => 1 <= fst n | _ => True end.
(** Sizes are numbers of W bits, and a vector on a given array does not claim more elements than the array has. *)
Definition vnew_ok {A} (W : Z) (n : vnew A) : Prop :=
  match n with
  | NSize n | NFill n _ => (Z.of_nat n < 2 ^ W)%Z
  | NList l => (Z.of_nat (length l) < 2 ^ W)%Z
  | NStore l k => (Z.of_nat (length l) < 2 ^ W)%Z /\ k <= length l
  end.
Definition vsized {A} (W : Z) (op : sop (vnew A) (vop A)) : Prop := match op with SNew n => vnew_ok W n | SCall _ op => vfits W op | _ => True end.

(** What is claimed of each of the classes *)
Section Claims.
Context {N H A O R : Type}.
Variable C : cls N H A O R.
(** Every program that copies nothing is answered as if each object held its contents itself. *)
Definition own_answers : Prop := forall ops, Forall no_copy ops -> answers (srun C nothing ops) = answers (erun C [] ops).
(** So is every program that copies but writes no storage, and frees none, while two objects use it. *)
Definition lawful_answers : Prop := forall ops, lawful_run C nothing ops -> answers (srun C nothing ops) = answers (erun C [] ops).
(** A copy answers every sequence of calls as the original would; so does the target of an assignment; all others are as before. *)
Definition copies : Prop := forall ops xs h cops, srun C nothing ops = Ok (xs, h) ->
  (forall i h' k, sstep C h (SCopy i) = Ok (SObj k, h') -> told C h' k cops = told C h i cops /\ (forall j, j < k -> told C h' j cops = told C h j cops)) /\
  (forall i j h', sstep C h (SCopyAssign i j) = Ok (SUnit, h') -> told C h' i cops = told C h j cops /\ (forall k, k <> i -> told C h' k cops = told C h k cops)).
(** In every program, with any copies, destroying any object that exists is defined. *)
Definition destroys : Prop := forall ops xs h i a, srun C nothing ops = Ok (xs, h) -> nth_error (sobjs h) i = Some (Some a) -> exists h', sstep C h (SDestroy i) = Ok (SUnit, h').
(** A call that reads, or one on a storage the other object does not use, changes no answer of the other object. *)
Definition others (reader : O -> Prop) : Prop := forall ops xs h i op x h' j cops, srun C nothing ops = Ok (xs, h) -> sstep C h (SCall i op) = Ok (x, h') -> j <> i ->
  reader op \/ (forall b, uses h i (Some b) -> ~ uses h j (Some b)) -> told C h' j cops = told C h j cops.
End Claims.
