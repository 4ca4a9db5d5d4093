(** Properties C21 and C59: ownership of storage in structure/array.hpp. *)
From Coq Require Import List Arith Bool Lia.
From Verif Require Import Base ArrayModel ArraySpec ArrayProofs.
Import ListNotations.

(** C21. As long as swap() is only used between two owners or two non-owners, every creation, assignment, swap and
    destruction of existing arrays succeeds: nothing is freed twice and no storage of the caller is freed. *)
Theorem C21_free_once_partial :
  forall (A : Type) (zero : A) h ops op,
  aprog zero swap_ok empty_heap ops h -> lifecycle op -> names_live h op -> exists x h', astep zero h op = Ok (x, h').
Proof. exact @progress. Qed.
Print Assumptions C21_free_once_partial.
Example C21_free_once_case : exists h, aprog 0 swap_ok empty_heap [AListNew [1; 2]; AListNew [3]; ACopy 1; ASwap 0 1] h /\ names_live h (ADestroy 0) /\
  exists h', astep 0 h (ADestroy 0) = Ok (AUnit, h') /\ map bfreed (blocks h') = [false; true].
Proof.
  eexists. split; [|split].
  - repeat (eapply ap_cons; [simpl; auto; intros a b X Y; inversion X; inversion Y; reflexivity | vm_compute; reflexivity |]). constructor.
  - eexists; reflexivity.
  - eexists; split; reflexivity.
Qed.

(** C21. External storage stays unfreed. *)
Theorem C21_external_kept_partial :
  forall (A : Type) (zero : A) h ops k b,
  aprog zero swap_ok empty_heap ops h -> nth_error (blocks h) k = Some b -> bext b = true -> bfreed b = false.
Proof. exact @external_kept. Qed.
Print Assumptions C21_external_kept_partial.
Example C21_external_kept_case : exists h, aprog 0 swap_ok empty_heap [AExternal [7; 8]; ACopy 0; AMove 1; ADestroy 0; ADestroy 1; ADestroy 2] h /\
  map bext (blocks h) = [true] /\ map bfreed (blocks h) = [false].
Proof.
  eexists. split.
  - repeat (eapply ap_cons; [simpl; auto | vm_compute; reflexivity |]). constructor.
  - split; reflexivity.
Qed.

(** C21. If moreover copy- and move-assignment only target arrays that own nothing, everything allocated has been freed
    once all arrays are destroyed. *)
Theorem C21_no_leak_partial :
  forall (A : Type) (zero : A) h ops k b,
  aprog zero (fun h op => swap_ok h op /\ assign_ok h op) empty_heap ops h -> (forall i, ~ live h i) ->
  nth_error (blocks h) k = Some b -> bext b = false -> bfreed b = true.
Proof. exact @no_leak. Qed.
Print Assumptions C21_no_leak_partial.

(** C21 is false: swapping an owner with an array on external storage and destroying it frees the external storage. *)
Theorem C21_swap_external_refuted :
  exists h xs, arun 0 empty_heap [ANew 2; AExternal [1; 2]; ASwap 0 1] = Ok (xs, h) /\
    live h 0 /\ astep 0 h (ADestroy 0) = UB.
Proof. do 2 eexists. split; [reflexivity|]. split; [eexists; reflexivity|reflexivity]. Qed.

(** C21 is false: swapping an owner with a copy of another owner makes two owners of one block: a double free. *)
Theorem C21_swap_copy_refuted :
  exists h xs, arun 0 empty_heap [ANew 2; ANew 3; ACopy 1; ASwap 0 2; ADestroy 0] = Ok (xs, h) /\
    live h 1 /\ astep 0 h (ADestroy 1) = UB.
Proof. do 2 eexists. split; [reflexivity|]. split; [eexists; reflexivity|reflexivity]. Qed.

(** C21 is false: assigning to an owner leaks its storage, for copy- and for move-assignment. *)
Theorem C21_move_assign_leak_refuted :
  exists h xs b, arun 0 empty_heap [AListNew [1; 2]; AListNew [3]; AMoveAssign 0 1; ADestroy 0; ADestroy 1] = Ok (xs, h) /\
    (forall i, ~ live h i) /\ nth_error (blocks h) 0 = Some b /\ bext b = false /\ bfreed b = false.
Proof.
  do 3 eexists. split; [reflexivity|]. split.
  - intros [|[|i]] (a & E); simpl in E; try discriminate. destruct i; discriminate.
  - split; [reflexivity|auto].
Qed.

Theorem C21_copy_assign_leak_refuted :
  exists h xs b, arun 0 empty_heap [AListNew [1; 2]; AListNew [3]; ACopyAssign 0 1; ADestroy 0; ADestroy 1] = Ok (xs, h) /\
    (forall i, ~ live h i) /\ nth_error (blocks h) 0 = Some b /\ bext b = false /\ bfreed b = false.
Proof.
  do 3 eexists. split; [reflexivity|]. split.
  - intros [|[|i]] (a & E); simpl in E; try discriminate. destruct i; discriminate.
  - split; [reflexivity|auto].
Qed.

Definition demo_prog : list (aop nat) :=
  [ANew 2; AListNew [4; 5; 6]; AExternal [7; 8]; ACopy 1; AMove 1; AMoveAssign 2 4; AListAssign 0 [9]; ASwap 0 2; ASet 0 1 3;
   ADestroy 4; ADestroy 0; ADestroy 2; ADestroy 1; ADestroy 3].

Example C21_case : exists h, aprog 0 (fun h op => swap_ok h op /\ assign_ok h op) empty_heap demo_prog h /\ (forall i, ~ live h i) /\
  map bfreed (blocks h) = [true; true; false; true].
Proof.
  eexists. split.
  - unfold demo_prog. repeat (eapply ap_cons;
      [split; [simpl; auto; intros a b X Y; inversion X; inversion Y; reflexivity
              |simpl; auto; right; intros a X; inversion X; auto] | vm_compute; reflexivity |]). constructor.
  - split; [|reflexivity]. intros [|[|[|[|[|i]]]]] (a & E); simpl in E; try discriminate. destruct i; discriminate.
Qed.

(** C59. A copy of an array shows the same elements; what is written through the copy is read back through the original. *)
Theorem C59_copy_aliases_partial :
  forall (A : Type) (zero : A) h i x h' k,
  astep zero h (ACopy i) = Ok (x, h') -> x = AObj (length (objs h)) /\
  (forall r, astep zero h (AGet i k) = Ok (r, h) -> astep zero h' (AGet (length (objs h)) k) = Ok (r, h')) /\
  (forall y h2, astep zero h' (ASet (length (objs h)) k y) = Ok (AUnit, h2) -> astep zero h2 (AGet i k) = Ok (AVal y, h2)).
Proof. exact @copy_aliases. Qed.
Print Assumptions C59_copy_aliases_partial.

(** C59 is false: the copy is not independent, and is left dangling when the original is destroyed. *)
Theorem C59_copy_independent_refuted :
  exists h xs h2 xs2, arun 0 empty_heap [AListNew [1; 2]; ACopy 0; ASet 1 0 9; AGet 0 0] = Ok (xs, h) /\
    nth_error xs 3 = Some (AVal 9) /\
    arun 0 empty_heap [AListNew [1; 2]; ACopy 0; ADestroy 0] = Ok (xs2, h2) /\ live h2 1 /\ astep 0 h2 (AGet 1 0) = UB.
Proof. do 4 eexists. splits; try reflexivity. eexists; reflexivity. Qed.

Example C59_case : exists h h' xs x, arun 0 empty_heap [AListNew [1; 2]] = Ok (xs, h) /\ astep 0 h (ACopy 0) = Ok (x, h') /\
  astep 0 h (AGet 0 1) = Ok (AVal 2, h) /\ astep 0 h' (AGet 1 1) = Ok (AVal 2, h').
Proof. do 4 eexists. splits; reflexivity. Qed.
