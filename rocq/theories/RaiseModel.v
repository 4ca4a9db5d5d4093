(** Model of the machine-wide exception handler (core/exception.{hpp,cpp}) with handlers that use it themselves: while they handle an
    error they raise others, install or remove handlers, keep the handlers they replaced in local variables or let go of them, read their
    own members and leave by C++ exceptions. LogModel has the same functions for handlers that do none of this. Left out: the log
    messages and the destructors of handlers. *)
From Coq Require Import List Arith Bool.
Import ListNotations.

(** A handler object: its number, which no other has, and its kind, which says what it does *)
Definition handler : Type := nat * nat.
(** What handle_exception does, in order. [Install k keep] makes a new handler of kind k and gives it to
    set_machine_exception_handler; [keep]: the handler it returns is kept in a local variable, else it is destroyed. [Restore] gives the
    handler kept last back, and the one returned is destroyed. [Touch] reads a member of the handler itself. *)
Inductive act := Raise (e : nat) | Install (k : nat) (keep : bool) | Remove (keep : bool) | Restore | Touch | Leave.
Inductive ev := Called (h : handler) (e : nat) | Halted.
(** The global pointer (core/exception.cpp:12-16), the handlers destroyed, the number of the next, what happened (the latest last) *)
Record st := mkSt { cur : option handler; dead : list nat; next : nat; trace : list ev }.
(** Returned; the platform stopped; a C++ exception leaves it; a destroyed object was read; not yet known *)
Inductive res := Done | Stopped | Left | Undef | NoFuel.

Definition note (x : ev) (s : st) : st := mkSt (cur s) (dead s) (next s) (trace s ++ [x]).
Definition ids (o : option handler) : list nat := match o with Some h => [fst h] | None => [] end.
Definition destroy (l : list nat) (s : st) : st := mkSt (cur s) (l ++ dead s) (next s) (trace s).
(** core/exception.cpp:18-22: the handler given is swapped with the global pointer; the old one is returned *)
Definition set_handler (h : option handler) (s : st) : option handler * st := (cur s, mkSt h (dead s) (next s) (trace s)).
Definition fresh (k : nat) (s : st) : handler * st := ((next s, k), mkSt (cur s) (dead s) (S (next s)) (trace s)).
(** What becomes of the handler returned *)
Definition settle (keep : bool) (old : option handler) (kept : list (option handler)) (s : st) : list (option handler) * st :=
  if keep then (old :: kept, s) else (kept, destroy (ids old) s).
(** The body of handle_exception; [raise] is throw_error. The local variables are destroyed at the end of it, also when a C++ exception
    leaves it. *)
Fixpoint body_run (raise : nat -> st -> res * st) (self : nat) (kept : list (option handler)) (l : list act) (s : st) : res * st :=
  match l with
  | [] => (Done, destroy (flat_map ids kept) s)
  | Raise e :: l => let '(r, s) := raise e s in
      match r with Done => body_run raise self kept l s | Left => (Left, destroy (flat_map ids kept) s) | _ => (r, s) end
  | Install k keep :: l =>
      let '(h, s) := fresh k s in let '(old, s) := set_handler (Some h) s in
      let '(kept, s) := settle keep old kept s in body_run raise self kept l s
  | Remove keep :: l =>
      let '(old, s) := set_handler None s in let '(kept, s) := settle keep old kept s in body_run raise self kept l s
  | Restore :: l =>
      let '(h, kept) := match kept with h :: kept => (h, kept) | [] => (None, []) end in
      let '(old, s) := set_handler h s in body_run raise self kept l (destroy (ids old) s)
  | Touch :: l => if existsb (Nat.eqb self) (dead s) then (Undef, s) else body_run raise self kept l s
  | Leave :: _ => (Left, destroy (flat_map ids kept) s)
  end.
(** core/exception.cpp:24, 26-34; [does k e] is what handlers of kind k do about the error e. HAL::halt ends the program or, on the mock
    platform (mock.hpp:199), returns. *)
Definition halt (returns : bool) (s : st) : res * st := (if returns then Done else Stopped, note Halted s).
Fixpoint throw_error (does : nat -> nat -> list act) (returns : bool) (fuel : nat) (e : nat) (s : st) : res * st :=
  match fuel with
  | O => (NoFuel, s)
  | S fuel =>
      match cur s with
      | Some h =>
          let '(r, s) := body_run (throw_error does returns fuel) (fst h) [] (does (snd h) e) (note (Called h e) s) in
          match r with Done => halt returns s | _ => (r, s) end
      | None => halt returns s
      end
  end.
