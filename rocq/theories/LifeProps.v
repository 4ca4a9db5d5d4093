(** Property C122: objects held by Vector and RingBuffer through std::shared_ptr live as long as they are referred to. *)
From Coq Require Import List Arith ZArith Bool Lia.
From Verif Require Import Base VectorModel VectorSpec RingOps RingModel LifeModel LifeSpec LifeProofs LifeRing.
Import ListNotations.

(** C122. Without calls of remove, a program with a Vector of shared_ptrs does what it does with plain pointers, and no object that a
    variable or an element of the vector refers to is destroyed. *)
Theorem C122_alive_partial :
  forall (W : Z) (dbg : bool) (n : nat) (ops : list lop),
  no_remove ops ->
  (w <- lrun W dbg (lstart n) ops ;; Ok (plain w)) = prun W dbg (plain (lstart n)) ops /\
  forall w l o, lrun W dbg (lstart n) ops = Ok w -> elems W w l -> In (Some o) (l ++ lvars w) -> alive (lc w) o.
Proof. exact @lives. Qed.
Print Assumptions C122_alive_partial.

(** C122. In careful programs the calls succeed, an object exists exactly if a variable or an element refers to it, and use_count() is
    the number of these. *)
Theorem C122_exact_partial :
  forall (W : Z) (dbg : bool) (n : nat) (ops : list lop),
  (Z.of_nat n < 2 ^ W)%Z -> careful W dbg (lstart n) ops ->
  exists w l, lrun W dbg (lstart n) ops = Ok w /\ elems W w l /\
    (forall o, alive (lc w) o <-> In (Some o) (l ++ lvars w)) /\
    forall o k, nth_error (lc w) o = Some k -> k = refs o (l ++ lvars w).
Proof. exact @exact_count. Qed.
Print Assumptions C122_exact_partial.

(** C122. A vector that is destroyed or assigned a list never gives up its elements: they live on whatever the program does after that. *)
Theorem C122_leaks :
  forall (W : Z) (dbg : bool) (n : nat) (ops : list lop) (w : lw) (l : list ptr) (o : nat) (op : lop) (ops' : list lop) (w' : lw),
  no_remove ops -> no_remove ops' -> lrun W dbg (lstart n) ops = Ok w -> elems W w l -> In (Some o) l ->
  frees op -> lrun W dbg w (op :: ops') = Ok w' -> alive (lc w') o.
Proof. exact @leaks. Qed.
Print Assumptions C122_leaks.

(** C122. A ring buffer of shared_ptrs: as with plain pointers, and no object in use is destroyed. *)
Theorem C122_ring_alive :
  forall (W : Z) (n : nat) (ops : list gop),
  (w <- grun W (gstart n) ops ;; Ok (gplain w)) = qrun W (gplain (gstart n)) ops /\
  forall w l o, grun W (gstart n) ops = Ok w -> gelems w l -> In (Some o) (l ++ gvars w) -> alive (gc w) o.
Proof. exact @ring_lives. Qed.
Print Assumptions C122_ring_alive.

(** C122. Whenever the ring buffer is full, the objects that exist are those in it and those of variables, and use_count() is exact. *)
Theorem C122_ring_full_partial :
  forall (W : Z) (n : nat) (ops : list gop) (w : gw) (r : ring ptr) (l : list ptr),
  1 <= n -> ~ In GDestroy ops -> grun W (gstart n) ops = Ok w -> gr w = Some r -> full r = true -> gelems w l ->
  (forall o, alive (gc w) o <-> In (Some o) (l ++ gvars w)) /\
  forall o k, nth_error (gc w) o = Some k -> k = refs o (l ++ gvars w).
Proof. exact @ring_full. Qed.
Print Assumptions C122_ring_full_partial.

(** C122. A ring buffer that is destroyed never gives up its elements either. *)
Theorem C122_ring_leaks :
  forall (W : Z) (n : nat) (ops : list gop) (w : gw) (l : list ptr) (o : nat) (ops' : list gop) (w' : gw),
  grun W (gstart n) ops = Ok w -> gelems w l -> In (Some o) l -> grun W w (GDestroy :: ops') = Ok w' -> alive (gc w') o.
Proof. exact @ring_leaks. Qed.
Print Assumptions C122_ring_leaks.

(** C122 is false with remove: it copies the bytes of the cell behind the elements. Where pop_back of the only element of a shifted
    vector has left a pointer there, the two copies are later released one after the other, and the object is destroyed while a variable
    still refers to it; using that variable is undefined. All results are kept and the debug build raises no error. *)
Definition twice_ops : list lop :=
  [LMake; LMake; LMake; LPushBack 0; LPushBack 1; LPushBack 2; LPopFront true; LPopFront true; LPopBack true;
   LPushBack 0; LPushBack 1; LRemove 1; LPushBack 0; LPushBack 0].
Theorem C122_remove_refuted :
  exists (ops : list lop) (w : lw) (o k : nat),
    (forall b, In (LPopBack b) ops \/ In (LPopFront b) ops -> b = true) /\ ~ In LDestroy ops /\ (forall ks, ~ In (LAssign ks) ops) /\
    lrun 64 true (lstart 3) ops = Ok w /\ nth_error (lvars w) k = Some (Some o) /\ ~ alive (lc w) o /\
    (exists p, prun 64 true (plain (lstart 3)) (ops ++ [LShare k]) = Ok p) /\ lrun 64 true (lstart 3) (ops ++ [LShare k]) = UB.
Proof.
  exists twice_ops. eexists. exists 2, 2. splits.
  - intros b H. unfold twice_ops in H. cbn in H. intuition congruence.
  - unfold twice_ops. cbn. intuition congruence.
  - intros ks. unfold twice_ops. cbn. intuition congruence.
  - vm_compute. reflexivity.
  - reflexivity.
  - intros [m H]. vm_compute in H. discriminate.
  - eexists. vm_compute. reflexivity.
  - vm_compute. reflexivity.
Qed.
Print Assumptions C122_remove_refuted.

(** C122 is false for what nothing refers to any more: after the vector is destroyed or assigned a list, or an element is taken out and
    its reference discarded, the object lives on though no variable and no element refers to it. *)
Theorem C122_leak_refuted :
  exists (o : nat), forall op, In op [LDestroy; LAssign []; LPopBack false; LPopFront false] ->
    exists w, lrun 64 true (lstart 3) [LMake; LPushBack 0; LDrop 0; op] = Ok w /\ elems 64 w [] /\ ~ In (Some o) (lvars w) /\ alive (lc w) o.
Proof.
  exists 0. intros op H. cbn in H. decompose [or] H; clear H; try contradiction; subst op; eexists.
  all: split; [vm_compute; reflexivity|]; split; [vm_compute; auto|]; split; [vm_compute; intuition congruence|]; exists 0; reflexivity.
Qed.
Print Assumptions C122_leak_refuted.

(** C122 is false for what is taken out of a ring buffer: the object lives on until its cell is written again. *)
Theorem C122_ring_refuted :
  exists (ops : list gop) (w : gw) (o : nat),
    ~ In GDestroy ops /\ grun 64 (gstart 3) ops = Ok w /\ gelems w [] /\ ~ In (Some o) (gvars w) /\ alive (gc w) o.
Proof.
  exists [GMake; GPush 0 false; GDrop 0; GPop true; GDrop 1]. eexists. exists 0. splits.
  - cbn. intuition congruence.
  - vm_compute. reflexivity.
  - split; [reflexivity|]. intros i x E. destruct i; discriminate.
  - vm_compute. intuition congruence.
  - exists 0. reflexivity.
Qed.
Print Assumptions C122_ring_refuted.

(** Three objects pass through a vector of two cells, with a move of the elements to the front of the storage on the way: the first
    is gone once its variable is, the others are referred to once or twice. *)
Definition pass_ops : list lop :=
  [LMake; LMake; LPushBack 0; LPushBack 1; LPopFront true; LMake; LPushBack 3; LDrop 0; LDrop 2; LDrop 1].
Example C122_case :
  exists w, lrun 64 true (lstart 2) pass_ops = Ok w /\ elems 64 w [Some 1; Some 2] /\ lvars w = [None; None; None; Some 2] /\ lc w = [0; 1; 2] /\
    no_remove pass_ops.
Proof.
  eexists. splits; try (vm_compute; reflexivity).
  - split; vm_compute; reflexivity.
  - intros i H. unfold pass_ops in H. cbn in H. intuition congruence.
Qed.
Ltac one := split; [cbn [careful_op]; split; [exact Logic.I|intros v c Hv Hc; vm_compute in Hv; vm_compute in Hc;
  try discriminate; assert (Hv' := Hv); injection Hv' as <-; injection Hc as <-; split; vm_compute; intuition lia]|
  let w := fresh "w" in let H := fresh "H" in intros w H; vm_compute in H; injection H as <-].
Example C122_exact_case : careful 64 true (lstart 2) pass_ops.
Proof. unfold pass_ops. cbn [careful]. do 10 one. exact Logic.I. Qed.
Example C122_leaks_case :
  exists w w', lrun 64 true (lstart 2) [LMake; LPushBack 0] = Ok w /\ elems 64 w [Some 0] /\
    lrun 64 true w [LAssign [0]; LDrop 0; LClear] = Ok w' /\ lvars w' = [None] /\ elems 64 w' [] /\ lc w' = [1].
Proof. eexists. eexists. splits; try (vm_compute; reflexivity); split; vm_compute; reflexivity. Qed.
Example C122_ring_case :
  exists w r, grun 64 (gstart 2) [GMake; GPush 0 true; GDrop 0; GMake; GPush 1 true; GMake; GPush 2 true; GPeek 1] = Ok w /\
    gr w = Some r /\ full r = true /\ gelems w [Some 1; Some 2] /\ gvars w = [None; Some 1; Some 2; Some 2] /\ gc w = [0; 2; 3].
Proof.
  eexists. eexists. splits; try (vm_compute; reflexivity). split; [reflexivity|]. intros i x E.
  destruct i as [|[|i]]; cbn in E; try (injection E as <-; vm_compute; reflexivity). destruct i; discriminate.
Qed.
Example C122_ring_leaks_case :
  exists w w', grun 64 (gstart 2) [GMake; GPush 0 false] = Ok w /\ gelems w [Some 0] /\ grun 64 w [GDestroy; GDrop 0] = Ok w' /\ gvars w' = [None] /\ gc w' = [1].
Proof.
  eexists. eexists. splits; try (vm_compute; reflexivity). split; [reflexivity|]. intros i x E. destruct i as [|i]; cbn in E; [injection E as <-; vm_compute; reflexivity|destruct i; discriminate].
Qed.
