(** Property C119: handlers that take care of themselves before they raise further errors. *)
From Coq Require Import List Arith.
From Verif Require Import RaiseModel.
Import ListNotations.

(** What a handler of rank [r] does in [l] is careful: it installs handlers of its rank or lower ones only; when it raises an error, no handler
    of its rank or a higher one is installed (so it has removed itself, or installed a lower one); and it reads its members only while it is
    installed or kept in one of its local variables. [here]: it is installed itself; [b]: the rank of the handler installed is below b
    (0: there is none); [kept]: the same about the handlers kept, the latest first. *)
Fixpoint careful (rank : nat -> nat) (r : nat) (here : bool) (b : nat) (kept : list (nat * bool)) (l : list act) : Prop :=
  match l with
  | [] => True
  | Raise _ :: l => b <= r /\ careful rank r false b kept l
  | Install k keep :: l => rank k <= r /\ careful rank r false (S (rank k)) (if keep then (b, here) :: kept else kept) l
  | Remove keep :: l => careful rank r false 0 (if keep then (b, here) :: kept else kept) l
  | Restore :: l => match kept with (b', here') :: kept' => careful rank r here' b' kept' l | [] => careful rank r false 0 [] l end
  | Touch :: l => (here = true \/ exists b', In (b', true) kept) /\ careful rank r here b kept l
  | Leave :: _ => True
  end.
Definition all_careful (rank : nat -> nat) (does : nat -> nat -> list act) : Prop :=
  forall k e, careful rank (rank k) true (S (rank k)) [] (does k e).

(** On a platform that stops: handlers of ever lower rank are called, and at the end the platform is halted or a C++ exception leaves *)
Inductive chain (rank : nat -> nat) : nat -> list ev -> res -> Prop :=
| ch_halt b : chain rank b [Halted] Stopped
| ch_left b h e : rank (snd h) < b -> chain rank b [Called h e] Left
| ch_call b h e t r : rank (snd h) < b -> chain rank (rank (snd h)) t r -> chain rank b (Called h e :: t) r.
(** The numbers of handlers destroyed and installed were given out, and the one installed is not destroyed *)
Definition sound (s : st) : Prop :=
  (forall x, In x (dead s) -> x < next s) /\
  match cur s with Some h => fst h < next s /\ ~ In (fst h) (dead s) | None => True end.
Definition below (rank : nat -> nat) (b : nat) (s : st) : Prop := match cur s with Some h => rank (snd h) < b | None => True end.
