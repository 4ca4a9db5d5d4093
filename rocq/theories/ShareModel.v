(** Model of ring buffers, line buffers and vectors as objects of a program: made, copied, moved, assigned and destroyed. Their storage is
    that of an Array (structure/array.hpp:108-197), which copies share; the calls on one object are those of RingModel, LineModel and
    VectorModel. *)
From Coq Require Import List Arith ZArith Bool Ascii.
From Verif Require Import Base RingOps RingModel LineModel VectorModel.
Import ListNotations.

(** A class over an Array: constructors from arguments [N] (whether the storage is the caller's, the other data members, the storage), calls
    [O] with results [R], which calls read or write the storage of an object with these members and this max_size(), and which calls give
    the object a new storage (assignment of a list). *)
Record cls (N H A O R : Type) := mkCls {
  make : N -> outcome (bool * H * list A);
  call : H -> list A -> O -> outcome (R * H * list A);
  touches : H -> nat -> O -> bool;
  renews : O -> bool;
  blank : A }.
Arguments mkCls {N H A O R} _ _ _ _ _.
Arguments make {N H A O R} _ _.
Arguments call {N H A O R} _ _ _ _.
Arguments touches {N H A O R} _ _ _ _.
Arguments renews {N H A O R} _ _.
Arguments blank {N H A O R} _.

Inductive sop (N O : Type) :=
| SNew (n : N) | SCopy (i : nat) | SMove (i : nat) | SCopyAssign (i j : nat) | SMoveAssign (i j : nat) | SDestroy (i : nat) | SCall (i : nat) (op : O).
Arguments SNew {N O} _.
Arguments SCopy {N O} _.
Arguments SMove {N O} _.
Arguments SCopyAssign {N O} _ _.
Arguments SMoveAssign {N O} _ _.
Arguments SDestroy {N O} _.
Arguments SCall {N O} _ _.
Inductive sres (R : Type) := SUnit | SObj (i : nat) | SRes (r : R).
Arguments SUnit {R}.
Arguments SObj {R} _.
Arguments SRes {R} _.

Section Share.
Context {N H A O R : Type}.
Variable C : cls N H A O R.

(** array.hpp:111-115 and the members of the derived or containing class *)
Record sobj := mkSO { sblk : option nat; sown : bool; smax : nat; shdr : H }.
(** The storages in order of allocation with whether they were freed; the objects in order of construction, None: destroyed. Running out of
    memory is not modelled. *)
Record sheap := mkSH { sblks : list (bool * list A); sobjs : list (option sobj) }.
Definition nothing : sheap := mkSH [] [].

Definition sobjat (h : sheap) (i : nat) : outcome sobj := match nth_error (sobjs h) i with Some (Some a) => Ok a | _ => UB end.
Definition slive (h : sheap) (a : sobj) : option (nat * list A) :=
  match sblk a with
  | Some b => match nth_error (sblks h) b with Some (false, c) => Some (b, c) | _ => None end
  | None => None
  end.
(** std::free: nothing for null, undefined for a storage freed before; the elements are not destroyed (array.hpp:148-154) *)
Definition sfree (bs : list (bool * list A)) (p : option nat) : outcome (list (bool * list A)) :=
  match p with
  | None => Ok bs
  | Some b => match nth_error bs b with Some (false, c) => Ok (upd bs b (true, c)) | _ => UB end
  end.

(** A call on object [i] *)
Definition scall (h : sheap) (i : nat) (op : O) : outcome (sres R * sheap) :=
  a <- sobjat h i ;;
  if renews C op then
    (* array.hpp:190-197: the storage is freed if it is the object's own, then replaced *)
    '(r, hd, st) <- call C (shdr a) (repeat (blank C) (smax a)) op ;;
    bs <- (if sown a then sfree (sblks h) (sblk a) else Ok (sblks h)) ;;
    Ok (SRes r, mkSH (bs ++ [(false, st)]) (upd (sobjs h) i (Some (mkSO (Some (length bs)) true (length st) hd))))
  else match slive h a with
  | Some (b, c) =>
      '(r, hd, st) <- call C (shdr a) c op ;;
      Ok (SRes r, mkSH (upd (sblks h) b (false, st)) (upd (sobjs h) i (Some (mkSO (sblk a) (sown a) (smax a) hd))))
  | None =>
      (* no storage: every access is undefined; what does not touch it works on the other members *)
      if touches C (shdr a) (smax a) op then UB
      else '(r, hd, _) <- call C (shdr a) (repeat (blank C) (smax a)) op ;;
           Ok (SRes r, mkSH (sblks h) (upd (sobjs h) i (Some (mkSO (sblk a) (sown a) (smax a) hd))))
  end.

Definition sstep (h : sheap) (op : sop N O) : outcome (sres R * sheap) :=
  match op with
  (* array.hpp:118-146 *)
  | SNew n =>
      '(ext, hd, st) <- make C n ;;
      Ok (SObj (length (sobjs h)), mkSH (sblks h ++ [(false, st)]) (sobjs h ++ [Some (mkSO (Some (length (sblks h))) (negb ext) (length st) hd)]))
  (* array.hpp:156-160; the implicit copy constructors of RingBuffer, LineBuffer and Vector copy the other members *)
  | SCopy i => a <- sobjat h i ;; Ok (SObj (length (sobjs h)), mkSH (sblks h) (sobjs h ++ [Some (mkSO (sblk a) false (smax a) (shdr a))]))
  (* array.hpp:162-167; the implicit move constructors: the other members are numbers and views, which stay as they are in the source *)
  | SMove i => a <- sobjat h i ;;
      Ok (SObj (length (sobjs h)), mkSH (sblks h) (upd (sobjs h) i (Some (mkSO None (sown a) (smax a) (shdr a))) ++ [Some a]))
  (* array.hpp:169-177: the former storage is not freed *)
  | SCopyAssign i j => _ <- sobjat h i ;; a <- sobjat h j ;;
      if i =? j then Ok (SUnit, h) else Ok (SUnit, mkSH (sblks h) (upd (sobjs h) i (Some (mkSO (sblk a) false (smax a) (shdr a)))))
  (* array.hpp:179-188 *)
  | SMoveAssign i j => _ <- sobjat h i ;; a <- sobjat h j ;;
      if i =? j then Ok (SUnit, h)
      else Ok (SUnit, mkSH (sblks h) (upd (upd (sobjs h) j (Some (mkSO None (sown a) (smax a) (shdr a)))) i (Some a)))
  (* array.hpp:148-154 *)
  | SDestroy i => a <- sobjat h i ;;
      bs <- (if sown a then sfree (sblks h) (sblk a) else Ok (sblks h)) ;;
      Ok (SUnit, mkSH bs (upd (sobjs h) i None))
  | SCall i op => scall h i op
  end.
Fixpoint srun (h : sheap) (ops : list (sop N O)) : outcome (list (sres R) * sheap) :=
  match ops with
  | [] => Ok ([], h)
  | op :: ops' => '(x, h1) <- sstep h op ;; '(xs, h2) <- srun h1 ops' ;; Ok (x :: xs, h2)
  end.
End Share.
Arguments sobj : clear implicits.
Arguments sheap : clear implicits.
Arguments mkSH {H A} _ _.
Arguments sblks {H A} _.
Arguments sobjs {H A} _.
Arguments mkSO {H} _ _ _ _.
Arguments sblk {H} _.
Arguments sown {H} _.
Arguments smax {H} _.
Arguments shdr {H} _.
Arguments nothing {H A}.

(** ringbuffer.hpp:71-76: m_head, m_tail, m_overwritten, m_is_full *)
Record rhdr := mkRH { hhead : nat; htail : nat; hover : Z; hfull : bool }.
Definition ring_of {A} (hd : rhdr) (st : list A) : ring A := mkRing st (hhead hd) (htail hd) (hover hd) (hfull hd).
Definition hdr_of {A} (r : ring A) : rhdr := mkRH (rhead r) (rtail r) (over r) (rfull r).
(** used_space() of a ring buffer of capacity [n] (ringbuffer.hpp:171-176) *)
Definition hused (hd : rhdr) (n : nat) : nat := used_space (ring_of hd (repeat tt n)).
(** RingBuffer<A>(capacity, init_value): the calls of ringbuffer.hpp:13-61 *)
Definition ring_cls (A : Type) (zero : A) (W : Z) (dbg : bool) : cls (nat * A) rhdr A (rop A) (rres A) :=
  mkCls (fun n => r <- ring_new dbg (fst n) (snd n) ;; Ok (false, hdr_of r, buf r))
    (fun hd st op => '(x, r) <- ring_step W (ring_of hd st) op ;; Ok (x, hdr_of r, buf r))
    (fun hd n op =>
       match op with
       | OpPush _ ro => negb (hfull hd && negb ro)
       | OpPushN l ro => match l with [] => false | _ => negb (hfull hd && negb ro) end
       | OpPop => negb (hused hd n =? 0)
       | OpPopN k => negb (k =? 0) && (k <=? hused hd n)
       | OpPeek k | OpPeekPtr k => k <? hused hd n
       | _ => false
       end)
    (fun _ => false) zero.

(** LineBuffer(capacity): besides the calls of the ring buffer those of linebuffer.hpp:10-38. A buffer of [m] zeros is handed to
    get_next_line, and the text of a view is read at once. *)
Inductive lcall :=
| LRing (op : rop ascii) | LPush (s : list ascii) | LDelims (ds : list ascii) | LHas | LLen
| LGet (m : nat) (d : option nat) | LView (d : option nat) | LDrop (d : option nat).
Inductive lans := LAns (x : rres ascii) | LText (n : nat) (out : list ascii) | LViewed (v : option (list ascii)).
Definition line_call (W : Z) (hd : rhdr * list ascii) (st : list ascii) (op : lcall) : outcome (lans * (rhdr * list ascii) * list ascii) :=
  let r := ring_of (fst hd) st in
  let ds := snd hd in
  match op with
  | LRing op => '(x, r') <- ring_step W r op ;; Ok (LAns x, (hdr_of r', ds), buf r')
  | LPush s => '(n, r') <- line_push W r s ;; Ok (LAns (RNat n), (hdr_of r', ds), buf r')
  | LDelims ds' => Ok (LAns RUnit, (fst hd, ds'), st)
  | LHas => b <- has_line ds r ;; Ok (LAns (RBool b), hd, st)
  | LLen => n <- length_of_next_line ds r ;; Ok (LAns (RNat n), hd, st)
  | LGet m d => '(n, out, r') <- get_next_line ds r (repeat NUL m) m d ;; Ok (LText n out, (hdr_of r', ds), buf r')
  | LView d => v <- get_next_line_view ds r d ;;
      match v with
      | None => Ok (LViewed None, hd, st)
      | Some (p, n) => t <- view_read st p n ;; Ok (LViewed (Some t), hd, st)
      end
  | LDrop d => '(b, r') <- drop_next_line ds r d ;; Ok (LAns (RBool b), (hdr_of r', ds), buf r')
  end.
Definition line_cls (W : Z) (dbg : bool) : cls (nat * list ascii) (rhdr * list ascii) ascii lcall lans :=
  mkCls (fun n => r <- line_new dbg (fst n) ;; Ok (false, (hdr_of r, snd n), buf r))
    (line_call W)
    (fun hd n op =>
       match op with
       | LRing op => touches (ring_cls ascii NUL W dbg) (fst hd) n op
       | LPush s => touches (ring_cls ascii NUL W dbg) (fst hd) n (OpPushN s false)
       | LDelims _ => false
       | _ => negb (hused (fst hd) n =? 0)
       end)
    (fun _ => false) NUL.

(** Vector<A>: the four constructors (vector.hpp:100-119) and the calls of VectorModel *)
Inductive vnew (A : Type) := NSize (n : nat) | NFill (n : nat) (x : A) | NList (l : list A) | NStore (l : list A) (size : nat).
Arguments NSize {A} _.
Arguments NFill {A} _ _.
Arguments NList {A} _.
Arguments NStore {A} _ _.
Definition vec_cls (A : Type) (zero : A) (moved : A -> A) (W : Z) (dbg : bool) : cls (vnew A) (nat * nat) A (vop A) (vres A) :=
  mkCls (fun n => let '(ext, v) := match n with
                                   | NSize n => (false, vec_new zero n)
                                   | NFill n x => (false, vec_fill_new n x)
                                   | NList l => (false, vec_list l)
                                   | NStore l k => (true, vec_external l k)
                                   end in Ok (ext, (vh v, vt v), vst v))
    (fun hd st op => '(x, v) <- vstep zero moved W dbg (mkVec st (fst hd) (snd hd)) op ;; Ok (x, (vh v, vt v), vst v))
    (fun hd n op =>
       let (h, t) := hd in
       let size := t - h in
       match op with
       | VSize | VEmpty | VFull | VMax => false
       | VPushBack _ | VEmplaceBack _ => negb ((n <=? t) && (h =? 0))
       | VPushFront _ => negb (dbg && (n <=? size))
       | VInsert i _ => negb (dbg && (n <=? size)) && negb (negb (i =? 0) && (t <=? h + i) && (n <=? t) && (h =? 0))
       | VPopBack | VPopFront | VPeekBack | VPeekFront => negb (dbg && (size =? 0))
       | VGet i => negb (dbg && (t <=? h + i))
       | VRemove i => if (h <=? i) && (i <=? t) then negb (dbg && (size =? 0)) else false
       | VClear | VIter | VRevIter => negb (size =? 0)
       | VFill _ => negb (n =? 0)
       | VAssign _ => false
       | VEmplaceFront _ | VAt _ | VFront | VBack => true
       end)
    (fun op => match op with VAssign _ => true | _ => false end) zero.
