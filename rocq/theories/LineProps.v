(** Properties C06-C08: structure/linebuffer.{hpp,cpp}. *)
From Coq Require Import List Arith ZArith Bool Ascii String.
From Verif Require Import Base RingOps RingModel RingSpec LineModel LineSpec LineProofs.
Import ListNotations.
Open Scope list_scope.

Definition str (s : string) : list ascii := list_ascii_of_string s.
Definition LF : list ascii := ["010"%char].
Definition CRLF : list ascii := ["013"%char; "010"%char].

(** C06. The lines delivered, followed by the complete lines still buffered, are the lines of the accepted bytes; the
    unterminated remainder of the accepted bytes is the remainder of what is buffered. *)
Theorem C06_line_framing :
  forall (W : Z) (delims : list ascii) (dbg : bool) (cap m : nat) (ops : list lop) r0,
  1 <= cap -> cap <= m -> line_new dbg cap = Ok r0 ->
  exists xs r q, line_run W delims m r0 ops = Ok (xs, r) /\ List.length xs = List.length ops /\ holds r q /\
    fst (lines_of delims (accepted ops xs)) = delivered xs ++ fst (lines_of delims q) /\
    snd (lines_of delims (accepted ops xs)) = snd (lines_of delims q).
Proof. exact framing. Qed.
Print Assumptions C06_line_framing.

Definition demo_stream : list lop :=
  [LFeed (str "ab" ++ LF ++ str "c"); LRead; LRead; LFeed (str "d" ++ CRLF ++ str "xyz"); LRead; LRead; LFeed LF; LRead; LRead].

Example C06_case : exists r0 xs r, line_new true 6 = Ok r0 /\
  line_run 64 CRLF 6 r0 demo_stream = Ok (xs, r) /\
  delivered xs = [str "ab"; str "cd"; str ""; str "xy"] /\
  accepted demo_stream xs = str "ab" ++ LF ++ str "cd" ++ CRLF ++ str "xy" ++ LF /\ holds r [].
Proof. demo. Qed.

(** C07. Exact effect of reading a line without a caller-supplied length. *)
Theorem C07_get_next_line_exact :
  forall (W : Z) (delims : list ascii) (cap : nat) r q (out : list ascii) (max : nat),
  reachable W cap r -> holds r q -> max <= List.length out ->
  exists n out' r', get_next_line delims r out max None = Ok (n, out', r') /\
    match first_line delims q with
    | Some (line, rest) =>
        if List.length line + 1 <=? max
        then n = List.length line /\ out' = line ++ NUL :: skipn (List.length line + 1) out /\ holds r' rest
        else n = 0 /\ out' = out /\ r' = r
    | None => n = 0 /\ out' = out /\ r' = r
    end.
Proof. exact get_next_line_exact. Qed.
Print Assumptions C07_get_next_line_exact.

(** A buffer of 6 bytes whose line "cd" wraps around the end of the storage. *)
Definition wrapped_ops : list (rop ascii) := [OpPushN (str "vwxyz") false; OpPopN 5; OpPushN (str "cd" ++ LF ++ str "e") false].

Lemma wrapped_reachable : exists r, reachable 64 6 r /\ holds r (str "cd" ++ LF ++ str "e") /\
  exists r0 xs, ring_new true 6 NUL = Ok r0 /\ ring_run 64 r0 wrapped_ops = Ok (xs, r).
Proof.
  eexists. split; [split; [repeat constructor|]; exists true, NUL, wrapped_ops; demo|].
  demo.
Qed.

Example C07_case : exists r n out' r', reachable 64 6 r /\ holds r (str "cd" ++ LF ++ str "e") /\
  get_next_line LF r (str "........") 4 None = Ok (n, out', r') /\ n = 2 /\
  out' = str "cd" ++ NUL :: str "....." /\ holds r' (str "e").
Proof.
  eexists. do 3 eexists.
  split; [split; [repeat constructor|]; exists true, NUL, wrapped_ops; demo|].
  demo.
Qed.

(** C07. Whatever length the caller supplies, only the first [max] bytes of the caller's buffer can change. *)
Theorem C07_get_next_line_bounded :
  forall (W : Z) (delims : list ascii) (cap : nat) r q (out : list ascii) (max : nat) (d : option nat),
  reachable W cap r -> holds r q -> max <= List.length out ->
  exists n out' r' q', get_next_line delims r out max d = Ok (n, out', r') /\ holds r' q' /\
    List.length out' = List.length out /\ (n < max \/ n = 0) /\ forall j, max <= j -> nth_error out' j = nth_error out j.
Proof. exact get_next_line_any. Qed.
Print Assumptions C07_get_next_line_bounded.
Example C07_bounded_case : exists r n out' r', reachable 64 6 r /\ holds r (str "cd" ++ LF ++ str "e") /\
  get_next_line LF r (str "........") 3 (Some 7) = Ok (n, out', r') /\ n = 0 /\ out' = str "........".
Proof.
  eexists. do 3 eexists.
  split; [split; [repeat constructor|]; exists true, NUL, wrapped_ops; demo|].
  demo.
Qed.

(** C07. drop_next_line() removes exactly the line and its delimiter, and says whether there was one, like has_line(). *)
Theorem C07_drop_next_line_exact :
  forall (W : Z) (delims : list ascii) (cap : nat) r q,
  reachable W cap r -> holds r q ->
  exists b r', drop_next_line delims r None = Ok (b, r') /\ has_line delims r = Ok b /\
    match first_line delims q with
    | Some (_, rest) => b = true /\ holds r' rest
    | None => b = false /\ r' = r
    end.
Proof. exact drop_next_line_exact. Qed.
Print Assumptions C07_drop_next_line_exact.
Example C07_drop_case : exists r r', reachable 64 6 r /\ holds r (str "cd" ++ LF ++ str "e") /\
  drop_next_line LF r None = Ok (true, r') /\ has_line LF r = Ok true /\ holds r' (str "e") /\ drop_next_line LF r' None = Ok (false, r').
Proof.
  eexists. eexists.
  split; [split; [repeat constructor|]; exists true, NUL, wrapped_ops; demo|].
  demo.
Qed.

(** C08, the part that holds: the view is the next line exactly when the line does not run over the end of the storage;
    otherwise reading it leaves the storage. Missing: lines that wrap. *)
Theorem C08_view_partial :
  forall (W : Z) (delims : list ascii) (cap : nat) r q,
  reachable W cap r -> holds r q ->
  match first_line delims q with
  | None => get_next_line_view delims r None = Ok None
  | Some (line, rest) =>
      exists off, get_next_line_view delims r None = Ok (Some (off, List.length line)) /\
      view_read (buf r) off (List.length line) = (if off + List.length line <=? cap then Ok line else UB)
  end.
Proof. exact view_exact. Qed.
Print Assumptions C08_view_partial.

Example C08_case : exists r0 xs r off len, ring_new true 6 NUL = Ok r0 /\
  ring_run 64 r0 [OpPushN (str "xab" ++ LF) false; OpPop] = Ok (xs, r) /\
  get_next_line_view LF r None = Ok (Some (off, len)) /\ view_read (buf r) off len = Ok (str "ab").
Proof. demo. Qed.

(** C08 is false of the code: the buffer holds the line "cd", the view of it reaches outside the storage. *)
Theorem C08_view_refuted :
  exists r0 xs r off len, ring_new true 6 NUL = Ok r0 /\ ring_run 64 r0 wrapped_ops = Ok (xs, r) /\
    holds r (str "cd" ++ LF ++ str "e") /\ first_line LF (str "cd" ++ LF ++ str "e") = Some (str "cd", str "e") /\
    get_next_line_view LF r None = Ok (Some (off, len)) /\ view_read (buf r) off len = UB.
Proof. demo. Qed.
Print Assumptions C08_view_refuted.
