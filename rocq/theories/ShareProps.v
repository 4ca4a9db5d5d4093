(** * C121: ring buffers, line buffers and vectors that are copied, moved, assigned and destroyed *)
From Coq Require Import List Arith Bool ZArith Ascii Lia.
From Verif Require Import Base RingOps RingModel LineModel VectorModel VectorSpec ShareModel ShareSpec ShareProofs ShareInst ShareTwin.
Import ListNotations.

(** Programs that construct, move, move-assign, destroy and call, but do not copy: the objects are each their own. *)
Theorem C121_own_partial : forall (A : Type) (zero : A) (moved : A -> A) (W : Z) (dbg : bool),
  own_answers (ring_cls A zero W dbg) /\ own_answers (line_cls W dbg) /\ own_answers (vec_cls A zero moved W dbg).
Proof. intros. splits; intros ops; apply own_thm; [apply ring_fixed|apply line_fixed|apply vec_fixed]. Qed.
Print Assumptions C121_own_partial.

(** With copies: so long as nothing is written or freed while two objects use it. *)
Theorem C121_lawful_partial : forall (A : Type) (zero : A) (moved : A -> A) (W : Z) (dbg : bool),
  lawful_answers (ring_cls A zero W dbg) /\ lawful_answers (line_cls W dbg) /\ lawful_answers (vec_cls A zero moved W dbg).
Proof. intros. splits; intros ops; apply lawful_thm; [apply ring_fixed|apply line_fixed|apply vec_fixed]. Qed.
Print Assumptions C121_lawful_partial.

Theorem C121_copies : forall (A : Type) (zero : A) (moved : A -> A) (W : Z) (dbg : bool),
  copies (ring_cls A zero W dbg) /\ copies (line_cls W dbg) /\ copies (vec_cls A zero moved W dbg).
Proof.
  intros. splits; intros ops xs h cops E; split; intros;
    first [eapply (copy_thm _ (ring_fixed A zero W dbg)) | eapply (assign_thm _ (ring_fixed A zero W dbg)) | eapply (copy_thm _ (line_fixed W dbg)) | eapply (assign_thm _ (line_fixed W dbg))
          | eapply (copy_thm _ (vec_fixed zero moved W dbg)) | eapply (assign_thm _ (vec_fixed zero moved W dbg))]; eassumption.
Qed.
Print Assumptions C121_copies.

Theorem C121_destroys : forall (A : Type) (zero : A) (moved : A -> A) (W : Z) (dbg : bool),
  destroys (ring_cls A zero W dbg) /\ destroys (line_cls W dbg) /\ destroys (vec_cls A zero moved W dbg).
Proof. intros. splits; intros ops xs h i a; apply destroy_thm; [apply ring_fixed|apply line_fixed|apply vec_fixed]. Qed.
Print Assumptions C121_destroys.

Theorem C121_others : forall (A : Type) (zero : A) (moved : A -> A) (W : Z) (dbg : bool),
  others (ring_cls A zero W dbg) ring_reader /\ others (line_cls W dbg) line_reader /\ others (vec_cls A zero moved W dbg) vec_reader.
Proof.
  intros. splits; intros ops xs h i op x h' j cops E Es Nj [Hr|Hu].
  - eapply (apart_thm _ (ring_fixed A zero W dbg)); eauto. left. now apply ring_reads_cls.
  - eapply (apart_thm _ (ring_fixed A zero W dbg)); eauto.
  - eapply (apart_thm _ (line_fixed W dbg)); eauto. left. now apply line_reads_cls.
  - eapply (apart_thm _ (line_fixed W dbg)); eauto.
  - eapply (apart_thm _ (vec_fixed zero moved W dbg)); eauto. left. now apply vec_reads_cls.
  - eapply (apart_thm _ (vec_fixed zero moved W dbg)); eauto.
Qed.
Print Assumptions C121_others.

(** What does become of a ring buffer whose copy is pushed to: with room left it does not notice, until it is pushed to itself;
    then the copy shows that element in place of its own. *)
Theorem C121_ring_room : forall (A : Type) (zero : A) (W : Z) (dbg : bool) ops xs h i q k h1 v h2 w h3,
  Forall sized ops -> srun (ring_cls A zero W dbg) nothing ops = Ok (xs, h) -> ring_shows zero W dbg h i q ->
  sstep (ring_cls A zero W dbg) h (SCopy i) = Ok (SObj k, h1) ->
  sstep (ring_cls A zero W dbg) h1 (SCall k (OpPush v false)) = Ok (SRes (RBool true), h2) ->
  sstep (ring_cls A zero W dbg) h2 (SCall i (OpPush w false)) = Ok (SRes (RBool true), h3) ->
  ring_shows zero W dbg h2 k (q ++ [v]) /\ ring_shows zero W dbg h2 i q /\
  ring_shows zero W dbg h3 i (q ++ [w]) /\ ring_shows zero W dbg h3 k (q ++ [w]).
Proof. exact @ring_room. Qed.
Print Assumptions C121_ring_room.

(** Rolling over in the copy of a full ring buffer puts the new element in the first place of the original. *)
Theorem C121_ring_roll : forall (A : Type) (zero : A) (W : Z) (dbg : bool) ops xs h i q k h1 v h2,
  Forall sized ops -> srun (ring_cls A zero W dbg) nothing ops = Ok (xs, h) -> ring_shows zero W dbg h i q ->
  told (ring_cls A zero W dbg) h i [OpFull] = Ok [SRes (RBool true)] ->
  sstep (ring_cls A zero W dbg) h (SCopy i) = Ok (SObj k, h1) ->
  sstep (ring_cls A zero W dbg) h1 (SCall k (OpPush v true)) = Ok (SRes (RBool true), h2) ->
  ring_shows zero W dbg h2 k (tl q ++ [v]) /\ ring_shows zero W dbg h2 i (v :: tl q).
Proof. exact @ring_roll. Qed.
Print Assumptions C121_ring_roll.

(** Popping from the copy of a vector leaves the moved-from element in the original. *)
Theorem C121_vec_pops : forall (A : Type) (zero : A) (moved : A -> A) (W : Z) (dbg : bool) ops xs h i k h1 y h2,
  Forall (vsized W) ops -> srun (vec_cls A zero moved W dbg) nothing ops = Ok (xs, h) ->
  sstep (vec_cls A zero moved W dbg) h (SCopy i) = Ok (SObj k, h1) ->
  (forall l x, vec_shows zero moved W dbg h i (l ++ [x]) -> l <> [] -> sstep (vec_cls A zero moved W dbg) h1 (SCall k VPopBack) = Ok (y, h2) ->
     y = SRes (VVal x) /\ vec_shows zero moved W dbg h2 k l /\ vec_shows zero moved W dbg h2 i (l ++ [moved x])) /\
  (forall l x, vec_shows zero moved W dbg h i (x :: l) -> sstep (vec_cls A zero moved W dbg) h1 (SCall k VPopFront) = Ok (y, h2) ->
     y = SRes (VVal x) /\ vec_shows zero moved W dbg h2 k l /\ vec_shows zero moved W dbg h2 i (moved x :: l)).
Proof. exact @vec_pops. Qed.
Print Assumptions C121_vec_pops.

(** The copy of a ring buffer or vector that owned its storage, once the original is destroyed: it still gives its size, and
    every access to an element is undefined. *)
Theorem C121_ring_outlives : forall (A : Type) (zero : A) (W : Z) (dbg : bool) ops xs h i b x q k h1 y h2 v ro,
  Forall sized ops -> srun (ring_cls A zero W dbg) nothing ops = Ok (xs, h) -> ring_shows zero W dbg h i (x :: q) -> owner h i b ->
  sstep (ring_cls A zero W dbg) h (SCopy i) = Ok (SObj k, h1) -> sstep (ring_cls A zero W dbg) h1 (SDestroy i) = Ok (y, h2) ->
  told (ring_cls A zero W dbg) h2 k [OpUsed] = Ok [SRes (RNat (length (x :: q)))] /\
  told (ring_cls A zero W dbg) h2 k [OpPop] = UB /\ told (ring_cls A zero W dbg) h2 k [OpPeek 0] = UB /\ told (ring_cls A zero W dbg) h2 k [OpPush v true] = UB /\
  (told (ring_cls A zero W dbg) h i [OpFull] = Ok [SRes (RBool false)] -> told (ring_cls A zero W dbg) h2 k [OpPush v ro] = UB).
Proof. exact @ring_dangling. Qed.
Print Assumptions C121_ring_outlives.

Theorem C121_vec_outlives : forall (A : Type) (zero : A) (moved : A -> A) (W : Z) (dbg : bool) ops xs h i b x l k h1 y h2,
  Forall (vsized W) ops -> srun (vec_cls A zero moved W dbg) nothing ops = Ok (xs, h) -> vec_shows zero moved W dbg h i (x :: l) -> owner h i b ->
  sstep (vec_cls A zero moved W dbg) h (SCopy i) = Ok (SObj k, h1) -> sstep (vec_cls A zero moved W dbg) h1 (SDestroy i) = Ok (y, h2) ->
  told (vec_cls A zero moved W dbg) h2 k [VSize] = Ok [SRes (VNat (length (x :: l)))] /\
  (forall j, j < length (x :: l) -> told (vec_cls A zero moved W dbg) h2 k [VGet j] = UB) /\
  told (vec_cls A zero moved W dbg) h2 k [VPopBack] = UB /\ told (vec_cls A zero moved W dbg) h2 k [VPopFront] = UB /\ told (vec_cls A zero moved W dbg) h2 k [VIter] = UB.
Proof. exact @vec_dangling. Qed.
Print Assumptions C121_vec_outlives.

(** The claim for all programs, those with copies among them, is false of each class: pushing to a copy of a ring buffer, taking a
    line from the copy of a destroyed line buffer, popping from the copy of a vector. *)
Theorem C121_ring_refuted : exists ops, Forall sized ops /\ answers (srun (ring_cls nat 0 64 true) nothing ops) <> answers (erun (ring_cls nat 0 64 true) [] ops).
Proof.
  exists [SNew (2, 0); SCopy 0; SCall 0 (OpPush 5 false); SCall 1 (OpPush 6 false); SCall 0 OpPop]. split; [repeat constructor|]. vm_compute. discriminate.
Qed.
Print Assumptions C121_ring_refuted.
Theorem C121_line_refuted : exists ops, answers (srun (line_cls 64 true) nothing ops) <> answers (erun (line_cls 64 true) [] ops).
Proof.
  exists [SNew (4, ["010"%char]); SCall 0 (LPush ["a"%char; "010"%char]); SCopy 0; SDestroy 0; SCall 1 (LGet 4 None)]. vm_compute. discriminate.
Qed.
Print Assumptions C121_line_refuted.
Theorem C121_vec_refuted : exists ops, Forall (vsized 64) ops /\ answers (srun (vec_cls nat 0 (fun _ => 0) 64 true) nothing ops) <> answers (erun (vec_cls nat 0 (fun _ => 0) 64 true) [] ops).
Proof.
  exists [SNew (NList [1; 2; 3]); SCopy 0; SCall 1 VPopBack; SCall 0 (VGet 2)]. split; [repeat constructor|]. vm_compute. discriminate.
Qed.
Print Assumptions C121_vec_refuted.

(** Two vectors, one moved to the other's place, the source used again after a list was assigned to it. *)
Example C121_own_case :
  let ops := [SNew (NList [1; 2; 3]); SNew (NFill 2 7); SMoveAssign 1 0; SCall 1 VPopFront; SCall 0 (VAssign [9]); SMove 0; SCall 2 VIter; SDestroy 0; SCall 1 VIter] in
  Forall no_copy ops /\ answers (srun (vec_cls nat 0 (fun _ => 0) 64 true) nothing ops) =
    Ok [SObj 0; SObj 1; SUnit; SRes (VVal 1); SRes VUnit; SObj 2; SRes (VList [9]); SUnit; SRes (VList [2; 3])].
Proof. cbv zeta. split; [repeat constructor|vm_compute; reflexivity]. Qed.
(** A ring buffer read by a copy: both take the same elements off. *)
Example C121_lawful_case :
  let ops := [SNew (3, 0); SCall 0 (OpPush 4 false); SCall 0 (OpPush 5 false); SCopy 0; SCall 1 OpPop; SCall 0 OpPop; SCall 0 OpPop; SDestroy 1; SCall 0 (OpPush 6 false)] in
  lawful_run (ring_cls nat 0 64 true) nothing ops /\ answers (srun (ring_cls nat 0 64 true) nothing ops) =
    Ok [SObj 0; SRes (RBool true); SRes (RBool true); SObj 1; SRes (RVal (Some 4)); SRes (RVal (Some 4)); SRes (RVal (Some 5)); SUnit; SRes (RBool true)].
Proof.
  cbv zeta. split; [|vm_compute; reflexivity].
  assert (AL : forall (h : sheap rhdr nat), (forall j b, uses h j (Some b) -> j = 0) -> forall i, (i = 0 -> alone h i)) by (intros h H0 i -> j b _ Hj; eauto).
  repeat (cbn [lawful_run]; split;
    [cbn [lawful]; first [exact Logic.I | left; apply ring_reads_cls; exact Logic.I
       | right; left; apply AL; [|reflexivity]; intros j b (a & E & _); destruct j as [|[|[|j]]]; [reflexivity| | |]; cbn in E; discriminate
       | right; intros b (a & E & Eo & _); assert (a = mkSO (Some 0) false 3 (mkRH 2 1 0 false)) as -> by (vm_compute in E; congruence); discriminate] |
     let x := fresh in let h' := fresh in let E := fresh in intros x h' E; vm_compute in E;
     match type of E with Ok (_, ?t) = Ok (_, ?u) => assert (u = t) as -> by congruence end; clear E]).
  exact Logic.I.
Qed.
(** A ring buffer of three cells that holds 4 and 5; 6 is pushed to a copy, 7 to the original. *)
Example C121_ring_room_case :
  let C := ring_cls nat 0 64 true in let ops := [SNew (3, 0); SCall 0 (OpPush 4 false); SCall 0 (OpPush 5 false)] in
  exists xs h h1 h2 h3, Forall sized ops /\ srun C nothing ops = Ok (xs, h) /\ ring_shows 0 64 true h 0 [4; 5] /\ owner h 0 0 /\
    sstep C h (SCopy 0) = Ok (SObj 1, h1) /\ sstep C h1 (SCall 1 (OpPush 6 false)) = Ok (SRes (RBool true), h2) /\
    sstep C h2 (SCall 0 (OpPush 7 false)) = Ok (SRes (RBool true), h3) /\ told C h3 1 [OpPeek 2] = Ok [SRes (RVal (Some 7))].
Proof.
  cbv zeta. do 5 eexists. split; [repeat constructor|]. split; [vm_compute; reflexivity|]. split.
  { split; [vm_compute; reflexivity|]. intros [|[|[|k]]]; vm_compute; reflexivity. }
  split; [eexists; repeat split; reflexivity|]. split; [vm_compute; reflexivity|]. split; [vm_compute; reflexivity|]. split; vm_compute; reflexivity.
Qed.
(** A full one: rolling over in the copy. *)
Example C121_ring_roll_case :
  let C := ring_cls nat 0 64 true in let ops := [SNew (2, 0); SCall 0 (OpPush 4 false); SCall 0 (OpPush 5 false)] in
  exists xs h h1 h2, Forall sized ops /\ srun C nothing ops = Ok (xs, h) /\ told C h 0 [OpFull] = Ok [SRes (RBool true)] /\
    sstep C h (SCopy 0) = Ok (SObj 1, h1) /\ sstep C h1 (SCall 1 (OpPush 6 true)) = Ok (SRes (RBool true), h2) /\
    told C h2 0 [OpPop; OpPop; OpPop] = Ok [SRes (RVal (Some 6)); SRes (RVal (Some 5)); SRes (RVal None)].
Proof.
  cbv zeta. do 4 eexists. split; [repeat constructor|]. split; [vm_compute; reflexivity|]. split; [vm_compute; reflexivity|]. split; [vm_compute; reflexivity|]. split; vm_compute; reflexivity.
Qed.
(** A vector of three elements whose copy is popped from, then outlives it. *)
Example C121_vec_case :
  let C := vec_cls nat 0 (fun _ => 0) 64 true in let ops := [SNew (NList [1; 2; 3])] in
  exists xs h h1 h2 h3, Forall (vsized 64) ops /\ srun C nothing ops = Ok (xs, h) /\ vec_shows 0 (fun _ => 0) 64 true h 0 [1; 2; 3] /\ owner h 0 0 /\
    sstep C h (SCopy 0) = Ok (SObj 1, h1) /\ sstep C h1 (SCall 1 VPopBack) = Ok (SRes (VVal 3), h2) /\ told C h2 0 [VIter] = Ok [SRes (VList [1; 2; 0])] /\
    sstep C h1 (SDestroy 0) = Ok (SUnit, h3) /\ told C h3 1 [VGet 1] = UB.
Proof.
  cbv zeta. do 5 eexists. split; [repeat constructor|]. split; [vm_compute; reflexivity|]. split.
  { split; [vm_compute; reflexivity|]. intros [|[|[|k]]] x Hx; cbn in Hx; [| | |destruct k; discriminate]; assert (x = _) as -> by (symmetry; exact (f_equal (fun o => match o with Some y => y | None => 0 end) Hx)); vm_compute; reflexivity. }
  split; [eexists; repeat split; reflexivity|]. split; [vm_compute; reflexivity|]. split; [vm_compute; reflexivity|]. split; [vm_compute; reflexivity|]. split; vm_compute; reflexivity.
Qed.
(** Programs with copies, assignments and a call on a storage of its own: the hypotheses of the three other theorems. *)
Example C121_copies_case :
  let C := line_cls 64 true in let nl := "010"%char in let ops := [SNew (4, [nl]); SNew (3, [nl]); SCall 0 (LPush ["a"%char; nl]); SCopy 0; SCopyAssign 1 2] in
  exists xs h h', srun C nothing ops = Ok (xs, h) /\ told C h 1 [LGet 4 None] = Ok [SRes (LText 1 ["a"%char; NUL; NUL; NUL])] /\
    sstep C h (SDestroy 0) = Ok (SUnit, h') /\ told C h' 1 [LGet 4 None] = UB.
Proof. cbv zeta. do 3 eexists. split; [vm_compute; reflexivity|]. split; [vm_compute; reflexivity|]. split; vm_compute; reflexivity. Qed.
