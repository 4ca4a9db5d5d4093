(** Property C111: what the transactions of a program should consume. *)
From Coq Require Import List Arith ZArith Bool Ascii.
From Verif Require Import Base RingOps RingModel LineModel LineSpec StreamModel SlotModel.
Import ListNotations.

(** The input without its first [k] lines (or without all of its lines) *)
Fixpoint drop_lines (delims : list ascii) (k : nat) (q : list ascii) : list ascii :=
  match k with
  | 0 => q
  | S k' => match first_line delims q with Some (_, rest) => drop_lines delims k' rest | None => q end
  end.
(** The transaction in a variable is neither committed nor aborted *)
Definition open (o : option tx) : bool := match o with Some t => negb (t_final t) | None => false end.
Definition opens (w : xw) : nat := length (filter open (xv w)).
Definition open_at (w : xw) (i : nat) : bool := match nth_error (xv w) i with Some o => open o | None => false end.
Definition has_at (w : xw) (i : nat) : bool := match nth_error (xv w) i with Some (Some _) => true | _ => false end.
(** One step makes a transaction *)
Definition makes (op : xop) (r : xres) : nat := match op, r with XTake _, XHas true => 1 | _, _ => 0 end.
(** One step puts a transaction into a variable that holds an open one *)
Definition overwrites (w : xw) (op : xop) (r : xres) : nat :=
  match op, r with
  | XTake i, XHas true => if open_at w i then 1 else 0
  | XMove i j, _ => if negb (i =? j) && has_at w j && open_at w i then 1 else 0
  | _, _ => 0
  end.
(** A run, with the numbers of transactions made and overwritten while open *)
Inductive xhist (W : Z) (dbg : bool) : xw -> list xop -> nat -> nat -> xw -> Prop :=
| xh_nil w : xhist W dbg w [] 0 0 w
| xh_cons w op r w1 ops m o w2 :
    xstep W dbg w op = Ok (r, w1) -> xhist W dbg w1 ops m o w2 ->
    xhist W dbg w (op :: ops) (makes op r + m) (overwrites w op r + o) w2.
(** The lines shown in a run *)
Definition shown (rs : list xres) : list (list ascii) := flat_map (fun r => match r with XText l => [l] | _ => [] end) rs.
(** Calls that queue output *)
Definition queues (op : txop) : Prop := match op with TOutC _ | TOut _ => True | _ => False end.
(** Ways to end the transaction in v[i] *)
Definition ends (i : nat) (op : xop) : Prop := op = XUse i TCommit \/ op = XUse i TAbort \/ op = XReset i.
(** One pass of a loop that takes a transaction into v[i], looks at its line, replies with [ws] *)
Definition pass (i : nat) (ws : list txop) : list xop := XTake i :: XShow i :: map (XUse i) ws.
