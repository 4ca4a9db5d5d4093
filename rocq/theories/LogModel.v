(** Model of logging (core/logging.cpp, core/logging.hpp), of the machine-wide exception handler (core/exception.cpp) and of
    Platform::printf (platform/platform.hpp). Texts are lists of characters without '\0'; what printf makes of a format and its
    arguments is given as a text. *)
From Coq Require Import List Arith ZArith Bool.
From Verif Require Import Base ReprModel.
Import ListNotations.
Open Scope nat_scope.

(** core/logging.hpp:11 *)
Inductive level := OFF | ERR | WARN | INFO | DEBUG.
Definition rank (l : level) : nat := match l with OFF => 0 | ERR => 1 | WARN => 2 | INFO => 3 | DEBUG => 4 end.
(** core/logging.cpp:10-19 *)
Definition level_name (l : level) : list nat :=
  match l with
  | OFF => [79; 70; 70] | ERR => [69; 82; 82] | WARN => [87; 65; 82; 78] | INFO => [73; 78; 70; 79] | DEBUG => [68; 66; 71]
  end.

(** snprintf(buffer + pos, n, text): writes at most n - 1 characters and a terminator, nothing when n is 0, and returns the length of
    the whole text. [n] is a size_t. Writing outside the buffer is undefined. *)
Definition snprintf (buf : list nat) (pos : nat) (n : Z) (text : list nat) : outcome (list nat * nat) :=
  if (n =? 0)%Z then Ok (buf, length text)
  else
    let w := firstn (Z.to_nat (Z.min (n - 1) (Z.of_nat (length text)))) text ++ [0] in
    if pos + length w <=? length buf then Ok (firstn pos buf ++ w ++ skipn (pos + length w) buf, length text) else UB.

(** The characters up to the terminator, as println shows them; without a terminator the print runs out of the buffer *)
Fixpoint cstring (buf : list nat) : outcome (list nat) :=
  match buf with [] => UB | c :: t => if c =? 0 then Ok [] else r <- cstring t ;; Ok (c :: r) end.

(** core/logging.cpp:32-36: at least eight digits of the clock modulo 2^32 *)
Definition time_text (ms : Z) : list nat := let d := show (ms mod 2 ^ 32) in repeat 48 (8 - length d) ++ d.
(** core/logging.cpp:43-45, the text "[time] [level] "; nothing with SPN_LOG_OVERLOAD ([overload]) *)
Definition header (overload : bool) (ms : Z) (l : level) : list nat :=
  if overload then [] else [91] ++ time_text ms ++ [93; 32; 91] ++ level_name l ++ [93; 32].
(** core/logging.cpp:53-54, the text " (file:line function)" *)
Definition trailer (file : list nat) (line : Z) (func : list nat) : list nat :=
  [32; 40] ++ file ++ [58] ++ show line ++ [32] ++ func ++ [41].
Definition size64 (x : Z) : Z := wrapW 64 x.

(** core/logging.cpp:38-65 with a buffer of [size] characters (SPINE_LOGGING_MAX_MSG_SIZE) whose contents are arbitrary at first. The
    result is the text shown. *)
Definition print (buf : list nat) (overload : bool) (ms : Z) (l : level) (file : list nat) (line : Z) (func msg : list nat) : outcome (list nat) :=
  let size := Z.of_nat (length buf) in
  '(buf, used) <- (if overload then Ok (buf, 0) else snprintf buf 0 size (header overload ms l)) ;;
  '(buf, n) <- snprintf buf used (size64 (size - Z.of_nat used)) msg ;;
  let used := used + n in
  '(buf, _) <- (match l with
                | DEBUG => snprintf buf used (size64 (size - Z.of_nat used)) (trailer file line func)
                | _ => Ok (buf, 0)
                end) ;;
  cstring buf.

(** platform/platform.hpp:76-85; the buffer has 256 characters *)
Definition hal_printf (buf : list nat) (msg : list nat) : outcome (list nat) :=
  '(buf, _) <- snprintf buf 0 (Z.of_nat (length buf)) msg ;; cstring buf.

(** ** Levels. core/logging.cpp:21-26: the level at start *)
Definition start_level (dbg : bool) : level := if dbg then DEBUG else INFO.
(** core/logging.cpp:75 *)
Definition is_loggable (current l : level) : bool := rank l <=? rank current.
(** A program that sets the level and logs messages (the macros of core/logging.hpp:27-35, 48, 64, 80; SPN_DBG of
    core/debugging.hpp:40, 48-50 is empty without DEBUG_SPINE). The result lists the messages handed to print. *)
Inductive lop := SetLevel (l : level) | Log (l : level) (msg : nat).
Fixpoint lrun (dbg : bool) (current : level) (os : list lop) : list (level * nat) :=
  match os with
  | [] => []
  | SetLevel l :: r => lrun dbg l r
  | Log l m :: r =>
      let shown := match l with DEBUG => dbg && is_loggable current DEBUG | _ => is_loggable current l end in
      if shown then (l, m) :: lrun dbg current r else lrun dbg current r
  end.
(** platform/implementations/zephyr.cpp:28-39: the levels set in the backend, in order (the case OFF has no break) *)
Definition zephyr_set_log_level (l : level) : list level :=
  match l with OFF => [OFF; ERR] | ERR => [ERR] | WARN => [WARN] | INFO => [INFO] | DEBUG => [DEBUG] end.

(** ** The exception handler. core/exception.cpp:12-16: the global pointer; handlers are numbers *)
Definition handler := nat.
(** What a program that installs handlers and throws exceptions sees: the handler given back, a handler called with an exception, the
    platform halted, a C++ exception thrown by a handler *)
Inductive xevent := GivenBack (h : option handler) | Handled (h : handler) (e : nat) | Halted | Escaped.
Inductive xop := Install (h : option handler) | Raise (e : nat).
(** core/exception.cpp:18-22 *)
Definition set_handler (st h : option handler) : option handler * option handler := (h, st).
(** core/exception.cpp:24, 26-34. [leaves h]: the handler [h] throws a C++ exception instead of returning. Handlers that install
    handlers or throw further exceptions of the library are in RaiseModel; the log messages are left out. *)
Definition throw_error (leaves : handler -> bool) (st : option handler) (e : nat) : list xevent :=
  match st with
  | Some h => Handled h e :: (if leaves h then [Escaped] else [Halted])
  | None => [Halted]
  end.
(** The mock's halt returns (mock.hpp:199) and a C++ exception is caught by the program *)
Fixpoint xrun (leaves : handler -> bool) (st : option handler) (os : list xop) : list xevent :=
  match os with
  | [] => []
  | Install h :: r => let (st', old) := set_handler st h in GivenBack old :: xrun leaves st' r
  | Raise e :: r => throw_error leaves st e ++ xrun leaves st r
  end.
