(** What users of the clocks and pins rely on. *)
From Coq Require Import ZArith Bool List.
From Verif Require Import Base PlatModel.
Import ListNotations.
Open Scope Z_scope.

(** Time waited in each unit *)
Fixpoint waited_ms (ds : list delay) : Z := match ds with [] => 0 | DelayMs n :: r => n + waited_ms r | DelayUs _ :: r => waited_ms r end.
Fixpoint waited_us (ds : list delay) : Z := match ds with [] => 0 | DelayUs n :: r => n + waited_us r | DelayMs _ :: r => waited_us r end.
Definition amount (d : delay) : Z := match d with DelayUs n => n | DelayMs n => n end.
(** Single waits up to 2^24 counts: almost five hours for milliseconds, almost 17 seconds for microseconds *)
Definition plain_delay (d : delay) : Prop := 0 <= amount d <= 2 ^ 24.
Definition in_ms (d : delay) : Prop := match d with DelayMs _ => True | _ => False end.
Definition in_us (d : delay) : Prop := match d with DelayUs _ => True | _ => False end.
(** Clocks that show the same elapsed time at their resolutions *)
Definition agree (ms us : Z) : Prop := ms = us / 1000.

(** Whether the output should be on after a history of calls; a state that is neither on nor off counts as off, and cannot be flipped *)
Fixpoint wanted (on : bool) (os : list dop) : bool :=
  match os with
  | [] => on
  | DInit b :: r | DBool b :: r => wanted b r
  | DSet s :: r => wanted (match s with L_ON => true | _ => false end) r
  | DFlip :: r => wanted (negb on) r
  end.
Definition defined (o : dop) : Prop := o <> DSet L_UNDEFINED.

(** The callback and trigger given last *)
Definition given {A} (start : A) (gs : list (option A)) : A := fold_left (fun s g => match g with Some x => x | None => s end) gs start.
(** A sequence of attachments, each with an optional callback and trigger *)
Fixpoint attach_all (dbg raw : bool) (map : nat -> option nat) (i : irq) (t : itable) (gs : list (option callback * trigger)) : outcome (irq * itable) :=
  match gs with
  | [] => Ok (i, t)
  | (c, m) :: r => '(i', t') <- attach dbg raw map i t c m ;; attach_all dbg raw map i' t' r
  end.
Definition cb_of (g : option callback * trigger) : option (option callback) := match fst g with Some c => Some (Some c) | None => None end.
Definition tr_of (g : option callback * trigger) : option trigger := match snd g with Undefined => None | m => Some m end.
