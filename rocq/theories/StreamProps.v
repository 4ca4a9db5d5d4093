(** Properties C09-C13 and C57: io/stream/. *)
From Coq Require Import List Arith ZArith Bool Ascii String.
From Verif Require Import Base RingOps RingModel RingSpec LineModel LineSpec LineProps StreamModel StreamSpec StreamProofs.
Import ListNotations.
Open Scope list_scope.
Notation length := List.length.

(** C09, one call: whatever the state of the input buffer, if the incoming bytes fit they are all appended in order. *)
Theorem C09_pull_appends_all :
  forall (W : Z) (delims : list ascii) (cap : nat) r q (S : Type) (st : stream_ops S) (s : S) (l : list ascii) (fuel : nat),
  reachable W cap r -> holds r q -> source st s l -> length l < fuel -> length q + length l <= cap ->
  exists r' s', pull_in_data W st delims fuel r s = Ok (length l, r', s') /\ holds r' (q ++ l) /\ source st s' [].
Proof. exact pull_fits. Qed.
Print Assumptions C09_pull_appends_all.

Example C09_case : exists r0 r1 r2 s2,
  ring_new true 8 NUL = Ok r0 /\ pull_in_data 64 list_stream CRLF 9 r0 (str "ab") = Ok (2, r1, []) /\
  pull_in_data 64 list_stream CRLF 9 r1 (CRLF ++ str "cd" ++ CRLF) = Ok (6, r2, s2) /\
  holds r2 (str "ab" ++ CRLF ++ str "cd" ++ CRLF) /\ s2 = [].
Proof. demo. Qed.

(** C09, any interleaving of arrivals, pulls and line reads: provided every line with its delimiter fits the input
    buffer, the lines read followed by the lines still buffered or waiting are the lines that arrived. *)
Theorem C09_no_line_lost :
  forall (W : Z) (delims : list ascii) (dbg : bool) (cap m : nat) (ops : list iop) r0,
  1 <= cap -> cap <= m -> ring_new dbg cap NUL = Ok r0 -> fits delims cap (arrivals ops) ->
  exists ls r q src, in_run W delims m r0 [] ops = Ok (ls, r, src) /\ holds r q /\
    fst (lines_of delims (arrivals ops)) = ls ++ fst (lines_of delims (q ++ src)) /\
    snd (lines_of delims (arrivals ops)) = snd (lines_of delims (q ++ src)).
Proof. exact in_history. Qed.
Print Assumptions C09_no_line_lost.

Definition demo_input : list iop :=
  [IArrive (str "ab" ++ LF ++ str "cde" ++ LF ++ str "f"); IPull; IPull; IRead; IPull; IArrive (LF ++ str "gh"); IRead; IPull; IRead].

Example C09_history_case : exists r0 r src q,
  ring_new true 5 NUL = Ok r0 /\ fits LF 5 (arrivals demo_input) /\
  in_run 64 LF 5 r0 [] demo_input = Ok ([str "ab"; str "cde"; str "f"], r, src) /\
  q = str "gh" /\ holds r q /\ src = [].
Proof.
  eexists; eexists; eexists; eexists. split; [vm_compute; reflexivity|]. split.
  { split; vm_compute; repeat constructor. }
  split; [vm_compute; reflexivity|]. split; [reflexivity|]. split; [|reflexivity]. hnf. demo.
Qed.

(** C10. Missing: states in which an earlier overflow is unresolved while the buffer already holds a line (refuted
    below). From every other state: [l1] is what was read, the buffer holds the newest bytes of everything that went in;
    bytes were overwritten only while none of them, nor any byte after them, was a delimiter; reading stops early only
    with a full buffer that holds a line. *)
Theorem C10_overflow_spares_lines_partial :
  forall (W : Z) (delims : list ascii) (cap : nat) r q (S : Type) (st : stream_ops S) (s : S) (l : list ascii) (fuel : nat),
  in_reachable W cap r -> holds r q -> source st s l -> length l < fuel ->
  existsb (Ascii.eqb NUL) delims = false ->
  (overrun_space r = 0%Z \/ has_line delims r = Ok false) ->
  exists l1 l2 r' s', l = l1 ++ l2 /\ pull_in_data W st delims fuel r s = Ok (length l1, r', s') /\
    holds r' (lastn cap (q ++ l1)) /\ source st s' l2 /\
    (cap < length (q ++ l1) -> no_delim delims (removelast (q ++ l1))) /\
    (l2 <> [] -> full r' = true /\ has_line delims r' = Ok true).
Proof. exact pull_overflow. Qed.
Print Assumptions C10_overflow_spares_lines_partial.

(** An oversized line is cut at its front, the bytes after it stay in the stream. *)
Example C10_case : exists r0 r1, ring_new true 4 NUL = Ok r0 /\
  overrun_space r0 = 0%Z /\
  pull_in_data 64 list_stream LF 20 r0 (str "abcdef" ++ LF ++ str "gh") = Ok (7, r1, str "gh") /\
  holds r1 (str "def" ++ LF).
Proof. demo. Qed.

(** The state in which C10 fails is reached by two plain calls: the second call overwrites a complete line. *)
Theorem C10_second_pull_refuted : exists r0 r1 r2 s2,
  ring_new true 4 NUL = Ok r0 /\
  pull_in_data 64 list_stream LF 20 r0 (str "abcdef" ++ LF ++ str "gh") = Ok (7, r1, str "gh") /\
  full r1 = true /\ has_line LF r1 = Ok true /\ holds r1 (str "def" ++ LF) /\
  pull_in_data 64 list_stream LF 20 r1 (str "gh") = Ok (2, r2, s2) /\
  holds r2 (str "f" ++ LF ++ str "gh").
Proof. demo. Qed.
Print Assumptions C10_second_pull_refuted.

(** C11, one call, for every stream whose write returns: [k] bytes were written in order; either nothing else left the
    buffer and the call ended because of lack of bytes or room, or the stream refused byte [k] although it reported
    room, and that byte is lost (see the refutation). *)
Theorem C11_push_out_exact :
  forall (W : Z) (cap : nat) r q (S : Type) (st : stream_ops S) (s : S) (fuel : nat),
  reachable W cap r -> holds r q -> (forall s c, exists b s', s_write st s c = Ok (b, s')) -> length q < fuel ->
  exists k r' s1 s', push_out_data st fuel r s = Ok (k, r', s') /\ k <= length q /\
    sent st s (firstn k q) s1 /\
    ((holds r' (skipn k q) /\ s' = s1 /\ (k = length q \/ s_room st s1 = 0)) \/
     (exists c, nth_error q k = Some c /\ 0 < s_room st s1 /\ s_write st s1 c = Ok (false, s') /\
                holds r' (skipn (k + 1) q))).
Proof. exact push_out_any_exact. Qed.
Print Assumptions C11_push_out_exact.

(** C11, any history of writes, pushes and device activity; missing: streams that refuse a write although they reported
    room. [a]: bytes accepted, [d]: bytes delivered. *)
Theorem C11_output_in_order_once_partial :
  forall (W : Z) (dbg : bool) (cap : nat) r0 (S : Type) (st : stream_ops S) (Inv : S -> Prop) (s : S) (ops : list (oop S)),
  1 <= cap -> ring_new dbg cap NUL = Ok r0 -> reliable st Inv -> Inv s ->
  (forall f s, In (ODevice f) ops -> Inv s -> Inv (f s)) ->
  exists a d r q s', out_run W st r0 s ops = Ok (a, d, r, s') /\ holds r q /\ a = d ++ q.
Proof. exact out_history. Qed.
Print Assumptions C11_output_in_order_once_partial.

(** A device with a transmit fifo of [n] free cells. *)
Definition fifo_stream (lossy : bool) : stream_ops nat := {|
  s_available := fun _ => 0; s_read := fun s => Ok (None, s); s_room := fun n => n;
  s_write := fun n _ => match n with 0 => Ok (false, 0) | S m => Ok (negb lossy, m) end |}.

Example C11_case : reliable (fifo_stream false) (fun _ => True) /\
  exists r0 r s q, ring_new true 4 NUL = Ok r0 /\
  out_run 64 (fifo_stream false) r0 1 [OWrite (str "abcde"); OPushOut; OWrite (str "xyz"); ODevice (fun n => n + 2); OPushOut]
    = Ok (str "abcdx", str "abc", r, s) /\ q = str "dx" /\ holds r q.
Proof. split; [intros [|n] c _ H; [inversion H|simpl; eauto]|demo]. Qed.

Theorem C11_refused_byte_lost_refuted : exists r0 r1 r2,
  ring_new true 4 NUL = Ok r0 /\ push_n 64 r0 (str "abc") false = Ok (3, r1) /\ holds r1 (str "abc") /\
  s_room (fifo_stream true) 3 = 3 /\
  push_out_data (fifo_stream true) 5 r1 3 = Ok (0, r2, 2) /\ holds r2 (str "bc").
Proof. demo. Qed.
Print Assumptions C11_refused_byte_lost_refuted.

(** A buffered stream reached by pulling [i] and writing [o]. *)
Definition bs (ci co : nat) (i o : list ascii) : outcome bstream :=
  a <- ring_new true ci NUL ;; '(_, a, _) <- pull_in_data 64 list_stream LF (length i + 1) a i ;;
  b <- ring_new true co NUL ;; '(_, b) <- push_n 64 b o false ;; Ok (mkBS a b LF).

(** C12. Missing: aborting with nothing queued while the output buffer is full (refuted below). *)
Theorem C12_abort_restores_output_partial :
  forall (W : Z) (dbg : bool) (cap_in cap_out : nat) b qi qo (ops : list txop) t b1 t1,
  bs_holds W cap_in cap_out b qi qo -> new_transaction dbg b = Ok (Some t) -> Forall writes_only ops ->
  tx_run dbg W b t ops = Ok (b1, t1) ->
  (length qo < length (tx_written cap_out qo ops) \/ length qo < cap_out) ->
  exists b2 t2, tx_abort dbg W b1 t1 = Ok (b2, t2) /\ holds (b_out b2) qo /\ t_final t2 = true.
Proof. exact tx_abort_exact. Qed.
Print Assumptions C12_abort_restores_output_partial.
Example C12_abort_case : exists b t b1 t1 b2 t2, bs 8 8 (str "cmd" ++ LF) (str "old") = Ok b /\ new_transaction true b = Ok (Some t) /\
  tx_run true 64 b t [TOut (str "rep")] = Ok (b1, t1) /\ holds (b_out b1) (str "oldrep") /\ tx_abort true 64 b1 t1 = Ok (b2, t2) /\ holds (b_out b2) (str "old").
Proof. demo. Qed.

Theorem C12_commit_keeps_output :
  forall (W : Z) (dbg : bool) (cap_in cap_out : nat) b qi qo (ops last : list txop) b',
  bs_holds W cap_in cap_out b qi qo -> Forall writes_only ops -> last = [] \/ last = [TCommit] ->
  tx_life dbg W b (ops ++ last) = Ok (Some b') -> holds (b_out b') (tx_written cap_out qo ops).
Proof. exact tx_keeps. Qed.
Print Assumptions C12_commit_keeps_output.

Example C12_case : exists b t b1 t1 b2 t2, bs 8 8 (str "cmd" ++ LF) (str "old") = Ok b /\
  new_transaction true b = Ok (Some t) /\
  tx_run true 64 b t [TOut (str "re"); TMove; TOutC "p"%char] = Ok (b1, t1) /\
  holds (b_out b1) (str "oldrep") /\ tx_abort true 64 b1 t1 = Ok (b2, t2) /\
  holds (b_out b2) (str "old") /\ holds (b_in b2) [].
Proof. demo. Qed.

Example C12_case_holds : exists b, bs 8 8 (str "cmd" ++ LF) (str "old") = Ok b /\
  bs_holds 64 8 8 b (str "cmd" ++ LF) (str "old").
Proof.
  eexists. split; [vm_compute; reflexivity|]. unfold bs_holds, reachable. split; [|split; [hnf; demo|split; [|hnf; demo]]];
    (split; [repeat constructor|]).
  - exists true, NUL, [OpPushN (str "cmd" ++ LF) false]. demo.
  - exists true, NUL, [OpPushN (str "old") false]. demo.
Qed.

Theorem C12_abort_empty_on_full_refuted : exists b t b1 t1, bs 8 3 (str "cmd" ++ LF) (str "old") = Ok b /\
  holds (b_out b) (str "old") /\ new_transaction true b = Ok (Some t) /\ tx_space_used t = 0 /\
  tx_abort true 64 b t = Ok (b1, t1) /\ holds (b_out b1) [].
Proof. demo. Qed.
Print Assumptions C12_abort_empty_on_full_refuted.

(** Bytes written past the transaction are dropped in place of the transaction's own. *)
Theorem C12_abort_foreign_bytes_refuted : exists b t b1 t1 r b2 t2, bs 8 8 (str "cmd" ++ LF) (str "") = Ok b /\
  new_transaction true b = Ok (Some t) /\ tx_run true 64 b t [TOut (str "re")] = Ok (b1, t1) /\
  push_n 64 (b_out b1) (str "log") false = Ok (3, r) /\
  tx_abort true 64 (mkBS (b_in b1) r LF) t1 = Ok (b2, t2) /\ holds (b_out b2) (str "rel").
Proof. demo. Qed.
Print Assumptions C12_abort_foreign_bytes_refuted.

(** C13. No line, no transaction. Otherwise any use of the one transaction, in any order, with any number of commits,
    aborts and moves, then its destruction: in release builds it never fails, and in every build, when it returns, the
    input has lost exactly the first line. *)
Theorem C13_one_line_consumed :
  forall (W : Z) (dbg : bool) (cap_in cap_out : nat) b qi qo (ops : list txop),
  bs_holds W cap_in cap_out b qi qo ->
  match first_line (b_delims b) qi with
  | None => new_transaction dbg b = Ok None
  | Some (_, rest) =>
      (exists b', tx_life false W b ops = Ok (Some b')) /\
      (forall x, tx_life dbg W b ops = Ok x -> exists b', x = Some b' /\ holds (b_in b') rest)
  end.
Proof. exact tx_consumes. Qed.
Print Assumptions C13_one_line_consumed.

Example C13_case : exists b b' , bs 12 8 (str "one" ++ LF ++ str "two" ++ LF) (str "") = Ok b /\
  tx_life false 64 b [TOut (str "ok"); TMove; TCommit; TAbort; TMove; TCommit] = Ok (Some b') /\
  holds (b_in b') (str "two" ++ LF).
Proof. demo. Qed.

(** C13, the line shown. Missing: lines that wrap around the end of the storage (C08), other users of the stream while
    the transaction is open (refuted below). *)
Theorem C13_shows_its_line_partial :
  forall (W : Z) (dbg : bool) (cap_in cap_out : nat) b qi qo (ops : list txop) line rest t b1 t1,
  bs_holds W cap_in cap_out b qi qo -> first_line (b_delims b) qi = Some (line, rest) ->
  new_transaction dbg b = Ok (Some t) -> Forall writes_only ops -> tx_run dbg W b t ops = Ok (b1, t1) ->
  exists off, t_line t = Some (off, length line) /\
    tx_incoming dbg b1 t1 = if off + length line <=? cap_in then Ok line else UB.
Proof. exact tx_shows. Qed.
Print Assumptions C13_shows_its_line_partial.

Example C13_shows_case : exists b t b1 t1, bs 12 8 (str "one" ++ LF ++ str "two" ++ LF) (str "") = Ok b /\
  new_transaction true b = Ok (Some t) /\ tx_run true 64 b t [TOut (str "ok"); TMove] = Ok (b1, t1) /\
  tx_incoming true b1 t1 = Ok (str "one").
Proof. demo. Qed.

(** Two transactions alive at once show the same line, and finalizing both consumes two lines. *)
Theorem C13_two_transactions_refuted : exists b t1 t2 b1 u1 b2 u2,
  bs 12 8 (str "one" ++ LF ++ str "two" ++ LF) (str "") = Ok b /\
  new_transaction true b = Ok (Some t1) /\ new_transaction true b = Ok (Some t2) /\
  tx_incoming true b t1 = Ok (str "one") /\ tx_incoming true b t2 = Ok (str "one") /\
  tx_commit true b t1 = Ok (b1, u1) /\ tx_commit true b1 t2 = Ok (b2, u2) /\ holds (b_in b2) [].
Proof. demo. Qed.
Print Assumptions C13_two_transactions_refuted.

(** Pulling in data while a transaction is open can change the line it shows. *)
Theorem C13_stale_view_refuted : exists b t r s b1 t1,
  bs 4 8 (str "abcdefg" ++ LF) (str "") = Ok b /\ new_transaction true b = Ok (Some t) /\
  tx_incoming true b t = Ok (str "efg") /\
  pull_in_data 64 list_stream LF 20 (b_in b) (str "hi") = Ok (2, r, s) /\
  tx_incoming true (mkBS r (b_out b) LF) t = Ok (str "hig") /\
  tx_commit true (mkBS r (b_out b) LF) t = Ok (b1, t1) /\ holds (b_in b1) (str "hi").
Proof. demo. Qed.
Print Assumptions C13_stale_view_refuted.

(** C57. MockStream as a loopback device for tests: injected bytes are the bytes read, written bytes the bytes
    extracted. *)
Theorem C57_mock_loopback :
  forall (W : Z) (cap_in cap_out : nat) s qi qo (bytes : list ascii),
  reachable W cap_in (m_in s) -> holds (m_in s) qi -> reachable W cap_out (m_out s) -> holds (m_out s) qo ->
  (exists s', mock_inject W s bytes = Ok s' /\ holds (m_in s') (qi ++ firstn (cap_in - length qi) bytes) /\ m_out s' = m_out s) /\
  source (mock_stream W) s qi /\
  (forall l s', sent (mock_stream W) s l s' -> holds (m_out s') (qo ++ l) /\ m_in s' = m_in s) /\
  (forall l, length qo + length l <= cap_out -> exists s', sent (mock_stream W) s l s') /\
  (exists s', mock_extract s = Ok (map Some qo, s') /\ holds (m_out s') [] /\ m_in s' = m_in s).
Proof. exact mock_loopback. Qed.
Print Assumptions C57_mock_loopback.

Example C57_case : exists s0 s1 r0 r1 s2 s3 s4, mock_new true 6 4 = Ok s0 /\ mock_inject 64 s0 (str "hey" ++ LF) = Ok s1 /\
  ring_new true 8 NUL = Ok r0 /\ pull_in_data 64 (mock_stream 64) LF 9 r0 s1 = Ok (4, r1, s2) /\ holds r1 (str "hey" ++ LF) /\
  push_out_data (mock_stream 64) 9 r1 s2 = Ok (4, s3, s4) /\
  (exists s5, mock_extract s4 = Ok (map Some (str "hey" ++ LF), s5)).
Proof. demo. Qed.
