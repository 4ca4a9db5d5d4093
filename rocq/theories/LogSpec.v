(** What the log shows, what handlers see. *)
From Coq Require Import List Arith ZArith Ascii String.
From Verif Require Import ReprSpec LogModel.
Import ListNotations.
Open Scope list_scope.

(** The last level set before a message *)
Fixpoint last_level (start : level) (os : list lop) : level :=
  match os with [] => start | SetLevel l :: r => last_level l r | Log _ _ :: r => last_level start r end.
(** Severity: an error is more urgent than a warning, and so on *)
Definition at_least (current l : level) : Prop :=
  match current, l with
  | _, OFF => True
  | OFF, _ => False
  | _, ERR => True
  | ERR, _ => False
  | _, WARN => True
  | WARN, _ => False
  | _, INFO => True
  | INFO, DEBUG => False
  | DEBUG, DEBUG => True
  end.
Definition no_nul (t : list nat) : Prop := ~ In 0 t.

(** The handler installed last *)
Fixpoint installed (st : option handler) (os : list xop) : option handler :=
  match os with [] => st | Install h :: r => installed h r | Raise _ :: r => installed st r end.
(** The text of a message: "[time] [level] message", with " (file:line function)" behind a debug message; the time is at least eight
    digits of the clock, which shows milliseconds modulo 2^32. On platforms with their own log there is no "[time] [level] ". *)
Definition bracketed (t : list nat) : list nat := 91 :: t ++ [93; 32].
Definition origin (file : list nat) (line : Z) (func : list nat) (t : list nat) : Prop :=
  exists n, is_number n /\ decimal n = line /\ t = [32; 40] ++ file ++ 58 :: n ++ 32 :: func ++ [41].
Definition said (l : level) : string := match l with OFF => "OFF" | ERR => "ERR" | WARN => "WARN" | INFO => "INFO" | DEBUG => "DBG" end.
Definition characters (s : string) : list nat := map nat_of_ascii (list_ascii_of_string s).
Definition stamp (overload : bool) (ms : Z) (l : level) (t : list nat) : Prop :=
  if overload then t = []
  else exists ds, is_number ds /\ 8 <= List.length ds /\ decimal ds = (ms mod 2 ^ 32)%Z /\ t = bracketed ds ++ bracketed (characters (said l)).
Definition log_text (overload : bool) (ms : Z) (l : level) (file : list nat) (line : Z) (func msg text : list nat) : Prop :=
  exists st og, stamp overload ms l st /\ text = st ++ msg ++ og /\ match l with DEBUG => origin file line func og | _ => og = [] end.

