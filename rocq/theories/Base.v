(** Outcomes of C++ calls and the memory primitives shared by all models. *)
From Coq Require Import List Arith ZArith Lia Bool.
Import ListNotations.

(** [Ok a]   the call returned [a].
    [Halt]   the code reported an error with [throw_exception], whose end is [HAL::halt] (core/exception.cpp:26-34); a failed
             [spn_assert] does so in a build with DEBUG_SPINE (core/debugging.hpp:22-28).
    [UB]     undefined behaviour of C++ (access outside the storage, null dereference, division by zero).
    [Throw]  a C++ exception of the standard library escapes.
    [Fuel]   a loop did not end within the number of iterations granted by the model. *)
Inductive outcome (A : Type) : Type :=
| Ok (a : A)
| Halt
| UB
| Throw
| Fuel.
Arguments Ok {A} _.
Arguments Halt {A}.
Arguments UB {A}.
Arguments Throw {A}.
Arguments Fuel {A}.

Definition bind {A B} (x : outcome A) (f : A -> outcome B) : outcome B :=
  match x with
  | Ok a => f a
  | Halt => Halt
  | UB => UB
  | Throw => Throw
  | Fuel => Fuel
  end.

Declare Scope outcome_scope.
Delimit Scope outcome_scope with out.
Notation "x <- e ;; f" := (bind e (fun x => f))
  (at level 61, e at next level, right associativity) : outcome_scope.
Notation "' p <- e ;; f" := (bind e (fun p => f))
  (at level 61, p pattern, e at next level, right associativity) : outcome_scope.
Notation "e ;;; f" := (bind e (fun _ => f)) (at level 61, right associativity) : outcome_scope.
Open Scope outcome_scope.

(** core/debugging.hpp, macro spn_assert: active only with DEBUG_SPINE ([dbg = true]). *)
Definition sassert (dbg : bool) (c : bool) : outcome unit :=
  if c then Ok tt else if dbg then Halt else Ok tt.

(** Storage is a list of cells, [upd] replaces one cell. *)
Fixpoint upd {A} (l : list A) (i : nat) (a : A) : list A :=
  match l, i with
  | [], _ => []
  | _ :: t, O => a :: t
  | x :: t, S j => x :: upd t j a
  end.

(** Reading and writing one cell of a store; outside is UB. *)
Definition rd {A} (l : list A) (i : nat) : outcome A :=
  match nth_error l i with Some a => Ok a | None => UB end.

Definition wr {A} (l : list A) (i : nat) (a : A) : outcome (list A) :=
  if i <? length l then Ok (upd l i a) else UB.

(** memmove of [n] cells from [src] to [dst] inside one store; both ranges must lie in the store. *)
Definition memmove {A} (l : list A) (dst src n : nat) : outcome (list A) :=
  if (dst + n <=? length l) && (src + n <=? length l)
  then Ok (firstn dst l ++ firstn n (skipn src l) ++ skipn (dst + n) l)
  else UB.

(** memset to zero bits of [n] cells from [dst]. *)
Definition memset0 {A} (zero : A) (l : list A) (dst n : nat) : outcome (list A) :=
  if dst + n <=? length l
  then Ok (firstn dst l ++ repeat zero n ++ skipn (dst + n) l)
  else UB.

(** Unsigned wrap-around for a machine word of [W] bits (size_t is 64 bit on the native target, 32 bit on Cortex-M). *)
Definition wrapW (W : Z) (x : Z) : Z := (x mod 2 ^ W)%Z.

(** ** Lemmas *)

Lemma upd_length {A} (l : list A) i a : length (upd l i a) = length l.
Proof. revert i; induction l; destruct i; simpl; auto. Qed.

Lemma nth_error_upd {A} (l : list A) i j a :
  nth_error (upd l i a) j = if (i =? j) && (j <? length l) then Some a else nth_error l j.
Proof.
  revert i j; induction l as [|x l IH]; intros [|i] [|j]; simpl; auto.
  - now rewrite andb_false_r.
  - now rewrite IH.
Qed.

Lemma nth_error_upd_eq {A} (l : list A) i a :
  i < length l -> nth_error (upd l i a) i = Some a.
Proof.
  intros; rewrite nth_error_upd, Nat.eqb_refl.
  destruct (Nat.ltb_spec i (length l)); [easy|lia].
Qed.

Lemma nth_error_upd_neq {A} (l : list A) i j a :
  i <> j -> nth_error (upd l i a) j = nth_error l j.
Proof.
  intros; rewrite nth_error_upd. destruct (Nat.eqb_spec i j); [easy|reflexivity].
Qed.

Lemma upd_split {A} (l : list A) i a :
  i < length l -> upd l i a = firstn i l ++ a :: skipn (S i) l.
Proof.
  revert i; induction l as [|x l IH]; intros [|i] H; simpl in *; try lia; auto.
  rewrite IH by lia. reflexivity.
Qed.

Lemma nth_error_ext {A} (l1 l2 : list A) :
  (forall i, nth_error l1 i = nth_error l2 i) -> l1 = l2.
Proof.
  revert l2; induction l1 as [|x l1 IH]; intros [|y l2] H; auto.
  - specialize (H 0); discriminate.
  - specialize (H 0); discriminate.
  - f_equal; [now specialize (H 0); inversion H|].
    apply IH; intro i; exact (H (S i)).
Qed.

Lemma wr_ok {A} (l : list A) i a : i < length l -> wr l i a = Ok (upd l i a).
Proof. intros; unfold wr; destruct (Nat.ltb_spec i (length l)); [easy|lia]. Qed.

Lemma wr_ub {A} (l : list A) i a : length l <= i -> wr l i a = UB.
Proof. intros; unfold wr; destruct (Nat.ltb_spec i (length l)); [lia|easy]. Qed.

Lemma rd_ok {A} (l : list A) i a : nth_error l i = Some a -> rd l i = Ok a.
Proof. intros H; unfold rd; now rewrite H. Qed.

Lemma rd_ub {A} (l : list A) i : length l <= i -> rd l i = UB.
Proof. intros H; unfold rd. apply nth_error_None in H. now rewrite H. Qed.

Lemma nth_error_skipn {A} (l : list A) n i : nth_error (skipn n l) i = nth_error l (n + i).
Proof.
  revert l; induction n; intros l; simpl; auto.
  destruct l; simpl; auto. now destruct i.
Qed.

Lemma nth_error_firstn {A} (l : list A) n i :
  nth_error (firstn n l) i = if i <? n then nth_error l i else None.
Proof.
  revert l i; induction n; intros l i; simpl.
  - now destruct i.
  - destruct l as [|x l]; simpl.
    + destruct i; simpl; auto. now destruct (S i <? S n).
    + destruct i; simpl; auto. now rewrite IHn.
Qed.

Lemma nth_error_repeat_lt {A} (a : A) n i : i < n -> nth_error (repeat a n) i = Some a.
Proof. revert i; induction n; intros [|i] H; simpl; try lia; auto. apply IHn; lia. Qed.

Lemma mod_add_small a b c : a < c -> b <= c ->
  (a + b) mod c = if a + b <? c then a + b else a + b - c.
Proof.
  intros Ha Hb. destruct (Nat.ltb_spec (a + b) c).
  - now apply Nat.mod_small.
  - replace (a + b) with ((a + b - c) + 1 * c) at 1 by lia.
    rewrite Nat.mod_add by lia. destruct (Nat.eq_dec (a + b - c) c).
    + lia.
    + apply Nat.mod_small. lia.
Qed.

Lemma mod_add_self a c : (a + c) mod c = a mod c.
Proof.
  destruct (Nat.eq_dec c 0) as [->|H]; [rewrite Nat.add_0_r; reflexivity|].
  replace (a + c) with (a + 1 * c) by lia. now apply Nat.mod_add.
Qed.

(** Used in the examples and refutations: run a concrete history. *)
Ltac demo :=
  lazymatch goal with
  | |- exists _, _ => eexists; demo
  | |- _ /\ _ => split; [demo | demo]
  | |- _ = _ => vm_compute; reflexivity
  | |- (_ <= _)%nat => apply Nat.leb_le; vm_compute; reflexivity
  | |- _ => progress hnf; demo
  end.

Ltac splits := repeat match goal with |- _ /\ _ => split end.
