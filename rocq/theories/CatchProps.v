(** Property C112: filters whose exception was caught. *)
From Coq Require Import ZArith Lia Bool List.
From Verif Require Import Base FloatModel FilterModel FilterSpec FilterProofs CatchModel CatchSpec CatchProofs.
Import ListNotations.
Open Scope Z_scope.

Definition ints (l : list Z) : list float := map f_ofZ l.
Definition same (l m : list float) : bool := (length l =? length m)%nat && forallb (fun p => f_eq (fst p) (snd p)) (combine l m).
Definition raised (l : list (bool * float)) : list bool := map fst l.

(** A call raises where the machine of C43 to C47 would have halted, and otherwise answers and changes as there *)
Theorem C112_same : (forall s f, bp_step s f = match bp_caught s f with (Some y, f') => Ok (y, f') | (None, _) => Halt end) /\
  (forall dbg s f, invert_value dbg s f = match invert_caught dbg s f with (Some y, f') => Ok (y, f') | (None, _) => Halt end) /\
  (forall s f, mapped_value s f = match mapped_caught s f with (Some y, f') => Ok (y, f') | (None, _) => Halt end).
Proof. exact (conj bp_agree (conj invert_agree mapped_agree)). Qed.
Print Assumptions C112_same.
Example C112_same_case : bp_step (f_ofZ 50) (bp_reset (f_ofZ 0) (bp_new (mkBC RELATIVE (f_ofZ 10) (f_ofZ 0) 0 true))) = Halt /\
  fst (bp_caught (f_ofZ 50) (bp_reset (f_ofZ 0) (bp_new (mkBC RELATIVE (f_ofZ 10) (f_ofZ 0) 0 true)))) = None.
Proof. split; vm_compute; reflexivity. Qed.

(** The values of a band filter, exceptions caught, are the samples in band and nothing else, however many exceptions there are; a
    sample raises when it is out of band and [limit] others in a row were so before it. Missing: a first sample that raises. *)
Theorem C112_band_partial : forall c x xs, Forall (fun x => f_eq x bp_default = false) (x :: xs) -> 0 < bc_limit c -> bc_throw c = true ->
  bp_caughts (x :: xs) (bp_new c) =
  (false, x) :: combine (beyond (in_band c) (bc_limit c) x (if in_band c x x then 0 else 1) xs) (hold (in_band c) x xs).
Proof. exact bp_caught_thm. Qed.
Print Assumptions C112_band_partial.
Example C112_band_case : let c := mkBC RELATIVE (f_ofZ 10) (f_ofZ 0) 2 true in
  Forall (fun x => f_eq x bp_default = false) (ints [50; 100; 101; 102; 103; 55; 200]) /\
  raised (bp_caughts (ints [50; 100; 101; 102; 103; 55; 200]) (bp_new c)) = [false; false; false; true; true; false; false] /\
  same (map snd (bp_caughts (ints [50; 100; 101; 102; 103; 55; 200]) (bp_new c))) (ints [50; 50; 50; 50; 50; 55; 55]) = true.
Proof. split; [repeat constructor; vm_compute; reflexivity|]. split; [vm_compute; reflexivity|]. vm_compute. reflexivity. Qed.

(** value() is what it was before the call that raised *)
Theorem C112_value_partial : (forall f, keeps (c_ewma f)) /\ (forall dbg f, keeps (c_invert dbg f)) /\ (forall f, keeps (c_mapped f)) /\
  (forall v, keeps (c_passthrough v)) /\
  forall x s s', f_eq (bp_value s) bp_default = false -> bp_caught x s = (None, s') -> bp_value s' = bp_value s.
Proof. exact (conj keeps_ewma (conj keeps_invert (conj keeps_mapped (conj keeps_passthrough keeps_bandpass)))). Qed.
Print Assumptions C112_value_partial.
Example C112_value_case : let f := mkMap (f_ofZ 0) (f_ofZ 10) (f_ofZ 0) (f_ofZ 100) true (f_ofZ 30) in
  fst (c_run (f_ofZ 11) (c_mapped f)) = None /\ f_eq (c_value (snd (c_run (f_ofZ 11) (c_mapped f)))) (f_ofZ 30) = true.
Proof. split; [vm_compute; reflexivity|]. vm_compute. reflexivity. Qed.
(** C112 is false of the first sample of a band filter with a limit of 0: the sample that raised is the value afterwards *)
Theorem C112_first_refuted : exists c x f', bc_throw c = true /\ bp_caught x (bp_new c) = (None, f') /\ (forall v, in_band c v x = false) /\ f_eq (bp_value f') x = true.
Proof.
  set (c := mkBC ABSOLUTE (f_ofZ 10) (f_ofZ 0) 0 true).
  assert (T : match bp_caught (f_ofZ 100) (bp_new c) with (None, f') => f_eq (bp_value f') (f_ofZ 100) | _ => false end = true) by (vm_compute; reflexivity).
  destruct (bp_caught (f_ofZ 100) (bp_new c)) as [[y|] f'] eqn:E; [discriminate|]. exists c, (f_ofZ 100), f'.
  split; [reflexivity|]. split; [exact E|]. split; [|exact T]. intros v. vm_compute. reflexivity.
Qed.

(** Which filters of a stack have taken a sample that raised: those before the one that raised, as they would have without it; the one
    that raised is left as by its own call, those behind it as they were. In a debug build a null filter raises. *)
Theorem C112_stack : forall dbg s x s', c_stack dbg x s = (None, s') ->
  exists s1 s1' o o' s2 y, s = s1 ++ o :: s2 /\ s' = s1' ++ o' :: s2 /\ c_stack dbg x s1 = (Some y, s1') /\
    match o with
    | Some f => exists f', o' = Some f' /\ c_run y f = (None, f')
    | None => o' = None /\ dbg = true
    end.
Proof. exact stack_caught. Qed.
Print Assumptions C112_stack.
Definition demo_stack : list (option cfilter) :=
  [Some (c_ewma (mkEw (f_ofZ 2) (f_ofZ 2) (f_ofZ 4))); Some (c_mapped (mkMap (f_ofZ 0) (f_ofZ 10) (f_ofZ 0) (f_ofZ 100) true (f_ofZ 40))); Some (c_passthrough (f_ofZ 40))].
Definition values (s : list (option cfilter)) : list float := map (fun o => match o with Some f => c_value f | None => f_zero end) s.
Example C112_stack_case : fst (c_stack true (f_ofZ 24) demo_stack) = None /\ same (values (snd (c_stack true (f_ofZ 24) demo_stack))) (ints [14; 40; 40]) = true.
Proof. split; [vm_compute; reflexivity|]. vm_compute. reflexivity. Qed.
(** C112 is false of stacks: a sample that raised has an effect on the samples after it. The mean of 4 and 24 is 14, which raises; the
    mean of 14 and 4 is 9, and 90 is the answer to the next 4, which would have been 40. *)
Theorem C112_stack_refuted : exists x s s' z y y' s1 s2, c_stack true x s = (None, s') /\ c_stack true z s = (Some y, s1) /\
  c_stack true z s' = (Some y', s2) /\ f_eq y y' = false.
Proof.
  exists (f_ofZ 24), demo_stack, (snd (c_stack true (f_ofZ 24) demo_stack)), (f_ofZ 4).
  assert (T : match c_stack true (f_ofZ 24) demo_stack, c_stack true (f_ofZ 4) demo_stack, c_stack true (f_ofZ 4) (snd (c_stack true (f_ofZ 24) demo_stack)) with
    | (None, _), (Some y, _), (Some y', _) => negb (f_eq y y') | _, _, _ => false end = true) by (vm_compute; reflexivity).
  destruct (c_stack true (f_ofZ 24) demo_stack) as [[?|] s']; [discriminate|]. cbn [snd] in *.
  destruct (c_stack true (f_ofZ 4) demo_stack) as [[y|] s1]; [|discriminate]. destruct (c_stack true (f_ofZ 4) s') as [[y'|] s2]; [|discriminate].
  exists y, y', s1, s2. repeat (split; [reflexivity|]). apply negb_true_iff. exact T.
Qed.
