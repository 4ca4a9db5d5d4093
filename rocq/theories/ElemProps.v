(** Property C120: an array holds what was put in it. *)
From Coq Require Import List Arith Lia Bool.
From Verif Require Import Base ArrayModel ElemSpec ArrayProofs ElemProofs.
Import ListNotations.

(** C120. Programs that make arrays of a size, filled with a value, from a list or on storage of their own, move them, assign lists to
    them, swap those of equal size, destroy them, and read and write elements in range, see exactly lists: every answer of every call is
    that of the lists, no program of that kind meets undefined behaviour, and no array changes when another one is written to. Not
    covered: copies, which share their storage (C59). *)
Theorem C120_lists_partial : forall (A : Type) (zero : A) ops xs s, lrun zero [] ops = Some (xs, s) ->
  exists h, arun zero empty_heap ops = Ok (xs, h).
Proof. intros A zero ops xs s E. destruct (run_right zero ops _ _ _ _ R_empty E) as (h & E1 & _). eauto. Qed.
Print Assumptions C120_lists_partial.

(** C120. front, back and empty speak of the same list: the first and last of its elements, and whether there are none. *)
Theorem C120_ends_partial : forall (A : Type) (zero : A) ops xs s h i e y l, lrun zero [] ops = Some (xs, s) ->
  nth_error s i = Some (Some (Here e (y :: l))) -> arun zero empty_heap ops = Ok (xs, h) ->
  aempty h i = Ok false /\ afront h i = Ok y /\ aback h i = Ok (last (y :: l) y).
Proof.
  intros A zero ops xs s h i e y l E Ei Eh. destruct (run_right zero ops _ _ _ _ R_empty E) as (h1 & E1 & HR). assert (h1 = h) by congruence. subst h1.
  destruct (ends_right _ _ _ _ _ HR Ei) as (H1 & H2 & H3). auto.
Qed.
Print Assumptions C120_ends_partial.

(** C120. back() of an array without elements, which is written to give its first one, reads storage that does not exist, in any program. *)
Theorem C120_empty : forall (A : Type) (zero : A) ops xs s h i e, lrun zero [] ops = Some (xs, s) ->
  nth_error s i = Some (Some (Here e [])) -> arun zero empty_heap ops = Ok (xs, h) ->
  aempty h i = Ok true /\ afront h i = UB /\ aback h i = UB.
Proof.
  intros A zero ops xs s h i e E Ei Eh. destruct (run_right zero ops _ _ _ _ R_empty E) as (h1 & E1 & HR). assert (h1 = h) by congruence. subst h1.
  destruct (ends_right _ _ _ _ _ HR Ei) as (H1 & H2 & H3). auto.
Qed.
Print Assumptions C120_empty.

(** C120. Whatever one array is told, every element of an array that is not named in the call reads as it did before. *)
Theorem C120_others : forall (A : Type) (zero : A) ops xs s h op x s' k j v, lrun zero [] ops = Some (xs, s) -> lstep zero s op = Some (x, s') ->
  arun zero empty_heap ops = Ok (xs, h) -> astep zero h (AGet k j) = Ok (AVal v, h) ->
  match op with
  | AMove i | AListAssign i _ | ADestroy i | ASet i _ _ | AFill i _ => k <> i
  | AMoveAssign i i' | ASwap i i' => k <> i /\ k <> i'
  | _ => True
  end -> exists h', astep zero h op = Ok (x, h') /\ astep zero h' (AGet k j) = Ok (AVal v, h').
Proof.
  intros A zero ops xs s h op x s' k j v E Eop Eh Eg N. destruct (run_right zero ops _ _ _ _ R_empty E) as (h1 & E1 & HR). assert (h1 = h) by congruence. subst h1.
  destruct (step_right zero _ _ _ _ _ HR Eop) as (h' & E2 & HR'). exists h'. split; auto. destruct (get_back zero _ _ _ _ _ _ HR Eg) as (e & l & Ek & El).
  assert (Hk : k < length s) by (apply nth_error_Some; congruence). pose proof (lstep_others zero s op x s' k Eop Hk N) as Ek'. rewrite Ek in Ek'.
  assert (Es : lstep zero s' (AGet k j) = Some (AVal v, s')) by (cbn [lstep]; now rewrite Ek', El). destruct (step_right zero _ _ _ _ _ HR' Es) as (h2 & E3 & _).
  rewrite E3. cbn [astep] in E3. destruct (obj h' k); try discriminate. cbn [bind] in E3. destruct (load h' (aptr a) j); try discriminate. cbn [bind] in E3. congruence.
Qed.
Print Assumptions C120_others.

(** C120 is false of swap: the arrays exchange their storage but not their sizes. After swapping an array of one element with one of three,
    the first has size 1 with the storage of three elements, and the second says it has three elements: reading its last one runs off
    its storage. *)
Theorem C120_swap_refuted : exists xs h, arun 0 empty_heap [AListNew [1]; AListNew [2; 3; 4]; ASwap 0 1; ASize 0; ASize 1; AGet 0 0] = Ok (xs, h) /\
  skipn 3 xs = [ANat 1; ANat 3; AVal 2] /\ astep 0 h (AGet 1 2) = UB /\ aback h 1 = UB /\ astep 0 h (AFill 1 9) = UB.
Proof. do 2 eexists. splits; reflexivity. Qed.

(** C120 is false of moved-from arrays: one that was moved from says it has its elements still, and reading them dereferences null. *)
Theorem C120_moved_refuted : exists xs h, arun 0 empty_heap [AListNew [1; 2]; AMove 0; ASize 0; AGet 1 1] = Ok (xs, h) /\
  skipn 2 xs = [ANat 2; AVal 2] /\ aempty h 0 = Ok false /\ afront h 0 = UB /\ astep 0 h (AGet 0 1) = UB.
Proof. do 2 eexists. splits; reflexivity. Qed.

Example C120_case : exists s h, let ops := [ANew 3; AFillNew 2 7; AListNew [4; 5]; AExternal [8; 9]; ASet 0 1 6; ASwap 1 2; AFill 3 1; AListAssign 3 [2; 3; 4]; AMove 1;
    AMoveAssign 1 0; ASize 3; AGet 3 2; AGet 1 1; AGet 4 0; AGet 2 1; ASize 0] in
  let xs := [AObj 0; AObj 1; AObj 2; AObj 3; AUnit; AUnit; AUnit; AUnit; AObj 4; AUnit; ANat 3; AVal 4; AVal 6; AVal 4; AVal 7; ANat 3] in
  lrun 0 [] ops = Some (xs, s) /\ s = [Some (Gone false 3); Some (Here false [0; 6; 0]); Some (Here false [7; 7]); Some (Here false [2; 3; 4]); Some (Here false [4; 5])] /\
  arun 0 empty_heap ops = Ok (xs, h) /\ afront h 1 = Ok 0 /\ aback h 4 = Ok 5 /\ aempty h 3 = Ok false.
Proof. do 2 eexists. cbv zeta. splits; reflexivity. Qed.
Example C120_others_case : exists s s' h h', let ops := [AListNew [1; 2]; AListNew [3; 4]] in
  lrun 0 [] ops = Some ([AObj 0; AObj 1], s) /\ lstep 0 s (ASet 0 1 9) = Some (AUnit, s') /\ arun 0 empty_heap ops = Ok ([AObj 0; AObj 1], h) /\
  astep 0 h (AGet 1 1) = Ok (AVal 4, h) /\ astep 0 h (ASet 0 1 9) = Ok (AUnit, h') /\ astep 0 h' (AGet 0 1) = Ok (AVal 9, h').
Proof. do 4 eexists. cbv zeta. splits; reflexivity. Qed.
Example C120_empty_case : exists s h, lrun 0 [] [ANew 0] = Some ([AObj 0], s) /\ nth_error s 0 = Some (Some (Here false [])) /\
  arun 0 empty_heap [ANew 0] = Ok ([AObj 0], h) /\ aempty h 0 = Ok true.
Proof. do 2 eexists. splits; reflexivity. Qed.
