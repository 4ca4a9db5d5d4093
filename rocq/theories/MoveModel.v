(** Model of structure/result.hpp:23-27, 68-84 and 91-99: Results kept in variables, moved, assigned and unwrapped. Payloads are as in
    ResultModel; [moved x] is what a payload [x] is left as once moved from, a type's own affair. Assumes payload types without
    converting constructors of their own that accept uv::Wrapper. Moving a Result into itself is left out, as its effect is the payload
    type's. *)
From Coq Require Import List Arith Bool.
From Verif Require Import Base ResultModel.
Import ListNotations.

Section Move.
Variable den : nat -> Type.
Variable from_bool : forall c, option (bool -> den c).
Variable moved : forall c, den c -> den c.
Variable dbg : bool.
Context {t e i : nat}.
Notation R := (result den t e i).

(** result.hpp:24 and 26, the defaulted moves, seen from the source: std::optional stays engaged, std::variant keeps its alternative, the
    wrapper's value (unique_type_variant.hpp:81-87, whose moves are implicit) is moved from; the enumeration _type is copied *)
Definition moved_payload (p : payload den) : payload den :=
  match p with None => None | Some (existT _ c x) => Some (existT den c (moved c x)) end.
Definition moved_from (r : R) : R := mkR (moved_payload (rv r)) (rt r).

(** result.hpp:68-84. "return std::move(std::get<WrappedT>(*_v))" converts a Wrapper<T>&& to T. The only conversion is
    Wrapper::operator T&() (unique_type_variant.hpp:85), which gives an lvalue: the T returned is copied from it and the payload stays. *)
Inductive which := Value | Error | Half.
Inductive answer := AnsT (x : den t) | AnsE (x : den e) | AnsI (x : den i) | Done.
Definition unwrap_of (w : which) (r : R) : outcome (answer * R) :=
  match w with
  | Value => x <- unwrap den dbg r ;; Ok (AnsT x, r)
  | Error => x <- error_value den dbg r ;; Ok (AnsE x, r)
  | Half => x <- intermediary_value den dbg r ;; Ok (AnsI x, r)
  end.
(** result.hpp:50-66 and 86-87: value(), * and ->, error_value(), intermediary_value(), by const reference *)
Definition read_of (w : which) (r : R) : outcome answer :=
  match w with
  | Value => x <- value den dbg r ;; Ok (AnsT x)
  | Error => x <- error_value den dbg r ;; Ok (AnsE x)
  | Half => x <- intermediary_value den dbg r ;; Ok (AnsI x)
  end.

(** result.hpp:91-99 with a function that may change the intermediary value it is given by reference, and returns a Result. What it
    leaves there is stored before its Result is. *)
Definition chain_in (f : den i -> den i * R) (r : R) : outcome (R * R) :=
  if is_failed den r || is_success den r then Ok (r, copy_of_variable den from_bool r)
  else x <- intermediary_value_mut den dbg r ;; Ok (mkR (wrap den i (fst (f x))) (rt r), snd (f x)).

(** Programs over variables, numbered in the order they come into being *)
Inductive mop :=
| MMake (r : R)                 (* Result v = ..., from a temporary *)
| MCopy (n : nat)               (* const Result& to a new variable: result.hpp:23 *)
| MMove (n : nat)               (* Result v = std::move(n): result.hpp:24 *)
| MAssign (m n : nat)           (* m = n: result.hpp:25 *)
| MMoveTo (m n : nat)           (* m = std::move(n), m and n different: result.hpp:26 *)
| MRead (w : which) (n : nat)
| MUnwrap (w : which) (n : nat)
| MChain (f : den i -> den i * R) (n : nat). (* Result v = n.chain(f) *)
Definition vars := list R.
Definition with_var {B} (w : vars) (n : nat) (k : R -> outcome B) : outcome B := match nth_error w n with Some r => k r | None => UB end.
Definition mstep (o : mop) (w : vars) : outcome (answer * vars) :=
  match o with
  | MMake r => Ok (Done, w ++ [r])
  | MCopy n => with_var w n (fun r => Ok (Done, w ++ [r]))
  | MMove n => with_var w n (fun r => Ok (Done, upd w n (moved_from r) ++ [r]))
  | MAssign m n => with_var w m (fun _ => with_var w n (fun r => Ok (Done, upd w m r)))
  | MMoveTo m n => with_var w m (fun _ => with_var w n (fun r => Ok (Done, upd (upd w n (moved_from r)) m r)))
  | MRead k n => with_var w n (fun r => a <- read_of k r ;; Ok (a, w))
  | MUnwrap k n => with_var w n (fun r => '(a, r') <- unwrap_of k r ;; Ok (a, upd w n r'))
  | MChain f n => with_var w n (fun r => '(r', r'') <- chain_in f r ;; Ok (Done, upd w n r' ++ [r'']))
  end.
Fixpoint mrun (os : list mop) (w : vars) : outcome (list answer * vars) :=
  match os with
  | [] => Ok ([], w)
  | o :: os => '(a, w) <- mstep o w ;; '(rs, w) <- mrun os w ;; Ok (a :: rs, w)
  end.
End Move.
