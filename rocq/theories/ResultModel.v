(** Model of structure/result.hpp and core/meta/unique_type_variant.hpp. C++ types are codes [c : nat] with values [den c]; two types
    are the same type exactly when their codes are equal. Moves and what unwrap leaves behind are
    in MoveModel. Not modelled: operator-> and operator* (they are value()), exceptions of the payload's own constructors. *)
From Coq Require Import List Arith Bool.
From Verif Require Import Base.
Import ListNotations.

(** ** Type lists, for any type [A] of types with decidable equality *)
Section TypeList.
Variable A : Type.
Variable eq_dec : forall x y : A, {x = y} + {x <> y}.
(** unique_type_variant.hpp:45-53 *)
Fixpoint contains (l : list A) (t : A) : bool :=
  match l with [] => false | h :: tl => if eq_dec h t then true else contains tl t end.
(** unique_type_variant.hpp:37-40 *)
Definition prepend (l : list A) (t : A) : list A := t :: l.
(** unique_type_variant.hpp:58-71 *)
Fixpoint unique (l : list A) : list A :=
  match l with [] => [] | h :: tl => if contains (unique tl) h then unique tl else prepend (unique tl) h end.
End TypeList.

Section Result.
Variable den : nat -> Type.
(** Implicit conversion from bool, and from one type to another, where C++ has one *)
Variable from_bool : forall c, option (bool -> den c).
Variable conv : forall c d, option (den c -> den d).

(** result.hpp:176 *)
Inductive rtype := NO_VALUE | OK | INTERMEDIARY | FAILED.
(** result.hpp:182, 187-188: an optional variant over the unique types among T, E and I, so a payload is known by its type only *)
Definition payload := option {c : nat & den c}.
Record result (t e i : nat) := mkR { rv : payload; rt : rtype }.
Arguments mkR {t e i} _ _.
Arguments rv {t e i} _.
Arguments rt {t e i} _.
Definition wrap (c : nat) (x : den c) : payload := Some (existT den c x).

Section One.
Context {t e i : nat}.
Notation R := (result t e i).
(** result.hpp:21 *)
Definition no_value : R := mkR None NO_VALUE.
(** result.hpp:29-30, from a constant or a temporary *)
Definition success (x : den t) : R := mkR (wrap t x) OK.
(** result.hpp:32-36 *)
Definition intermediary (x : den i) : R := mkR (wrap i x) INTERMEDIARY.
Definition failed (x : den e) : R := mkR (wrap e x) FAILED.
(** result.hpp:29-30 and 41-42, from a variable that is not const. The constructor template binds to it without adding const and so
    is chosen when it exists: for E other than T, when T converts to E. *)
Definition from_variable (x : den t) : R :=
  if Nat.eq_dec e t then success x else match conv t e with Some f => failed (f x) | None => success x end.
(** result.hpp:23, 41-42 and 48, a copy of a variable that is not const: again the template is chosen when a Result converts to E,
    which it does through operator bool when bool converts to E. *)
Definition is_ok (r : R) : bool := match rt r with OK => true | _ => false end.
Definition copy_of_variable (r : R) : R :=
  if Nat.eq_dec e t then r else match from_bool e with Some f => failed (f (is_ok r)) | None => r end.
(** result.hpp:44-48 *)
Definition is_success (r : R) : bool := is_ok r.
Definition is_intermediary (r : R) : bool := match rt r with INTERMEDIARY => true | _ => false end.
Definition is_failed (r : R) : bool := match rt r with FAILED => true | _ => false end.
(** std::holds_alternative with the check of the optional before it *)
Definition holds (c : nat) (r : R) : bool := match rv r with Some (existT _ c' _) => Nat.eqb c' c | None => false end.
(** std::get on the optional's value: an empty optional is UB, another alternative throws std::bad_variant_access *)
Definition get (c : nat) (r : R) : outcome (den c) :=
  match rv r with
  | None => UB
  | Some (existT _ c' x) => match Nat.eq_dec c' c with left E => Ok (eq_rect c' den x c E) | right _ => Throw end
  end.
Variable dbg : bool.
(** result.hpp:50-66, 68-84 *)
Definition error_value (r : R) : outcome (den e) := sassert dbg (is_failed r) ;;; sassert dbg (holds e r) ;;; get e r.
Definition intermediary_value (r : R) : outcome (den i) := sassert dbg (is_intermediary r) ;;; sassert dbg (holds i r) ;;; get i r.
Definition value (r : R) : outcome (den t) := sassert dbg (is_success r) ;;; sassert dbg (holds t r) ;;; get t r.
Definition unwrap (r : R) : outcome (den t) := sassert dbg (is_success r || is_intermediary r) ;;; sassert dbg (holds t r) ;;; get t r.
(** result.hpp:170-173 *)
Definition intermediary_value_mut (r : R) : outcome (den i) := sassert dbg (is_intermediary r) ;;; get i r.
(** result.hpp:91-99: "return *this" copies a variable that is not const *)
Definition chain (f : den i -> outcome R) (r : R) : outcome R :=
  if is_failed r || is_success r then Ok (copy_of_variable r) else x <- intermediary_value_mut r ;; f x.
(** result.hpp:147-151 *)
Definition rmatch {B} (fs : den t -> B) (fe : den e -> B) (fi : den i -> B) (r : R) : outcome B :=
  if is_success r then x <- value r ;; Ok (fs x)
  else if is_intermediary r then x <- intermediary_value r ;; Ok (fi x)
  else x <- error_value r ;; Ok (fe x).
(** result.hpp:153-167 *)
Definition value_or (d : den t) (r : R) : outcome (den t) := if is_success r then value r else Ok d.
Definition error_or (d : den e) (r : R) : outcome (den e) := if is_failed r then error_value r else Ok d.
Definition unwrap_or_else (f : unit -> den t) (r : R) : outcome (den t) := if is_success r then value r else Ok (f tt).
End One.

Section Two.
Variable dbg : bool.
Context {t e i : nat}.
(** result.hpp:102-108 *)
Definition rmap {t'} (f : den t -> den t') (r : result t e i) : outcome (result t' e i) :=
  if is_success r then x <- value dbg r ;; Ok (success (f x))
  else if is_failed r then x <- error_value dbg r ;; Ok (failed x)
  else if is_intermediary r then x <- intermediary_value dbg r ;; Ok (intermediary x)
  else Ok no_value.
(** result.hpp:111-117 *)
Definition map_error {e'} (f : den e -> den e') (r : result t e i) : outcome (result t e' i) :=
  if is_failed r then x <- error_value dbg r ;; Ok (failed (f x))
  else if is_success r then x <- value dbg r ;; Ok (success x)
  else if is_intermediary r then x <- intermediary_value dbg r ;; Ok (intermediary x)
  else Ok no_value.
(** result.hpp:120-126 *)
Definition map_intermediary {i'} (f : den i -> den i') (r : result t e i) : outcome (result t e i') :=
  if is_intermediary r then x <- intermediary_value dbg r ;; Ok (intermediary (f x))
  else if is_success r then x <- value dbg r ;; Ok (success x)
  else if is_failed r then x <- error_value dbg r ;; Ok (failed x)
  else Ok no_value.
(** result.hpp:129-135 *)
Definition and_then {t'} (f : den t -> outcome (result t' e i)) (r : result t e i) : outcome (result t' e i) :=
  if is_success r then x <- value dbg r ;; f x
  else if is_failed r then x <- error_value dbg r ;; Ok (failed x)
  else if is_intermediary r then x <- intermediary_value dbg r ;; Ok (intermediary x)
  else Ok no_value.
(** result.hpp:138-144 *)
Definition or_else {e'} (f : den e -> outcome (result t e' i)) (r : result t e i) : outcome (result t e' i) :=
  if is_failed r then x <- error_value dbg r ;; f x
  else if is_success r then x <- value dbg r ;; Ok (success x)
  else if is_intermediary r then x <- intermediary_value dbg r ;; Ok (intermediary x)
  else Ok no_value.
End Two.
End Result.
Arguments mkR {den t e i} _ _.
Arguments rv {den t e i} _.
Arguments rt {den t e i} _.
