(** What users are told about Result: a Result is in one of four states, and what each function does in each of them. *)
From Coq Require Import List.
From Verif Require Import Base ResultModel.
Import ListNotations.

(** The four states a Result can be made in *)
Inductive lawful {den : nat -> Type} {t e i} : result den t e i -> Prop :=
| L_none : lawful (no_value den)
| L_good x : lawful (success den x)
| L_half x : lawful (intermediary den x)
| L_bad x : lawful (failed den x).

(** [acts k good half bad none]: what the function [k] answers in the four states *)
Definition acts {den : nat -> Type} {t e i} {B} (k : result den t e i -> outcome B)
    (good : den t -> outcome B) (half : den i -> outcome B) (bad : den e -> outcome B) (none : outcome B) : Prop :=
  (forall x, k (success den x) = good x) /\ (forall x, k (intermediary den x) = half x) /\ (forall x, k (failed den x) = bad x) /\
  k (no_value den) = none.

Definition ends_lawful {den : nat -> Type} {t e i} (o : outcome (result den t e i)) : Prop := forall r, o = Ok r -> lawful r.

(** A payload of type [c] taken as one of type [d]: itself, if the types are the same *)
Definition seen_as {den : nat -> Type} {c d} (x : den c) (o : outcome (den d)) : Prop :=
  (forall E : c = d, o = Ok (eq_rect c den x d E)) /\ (c <> d -> o = Throw).
