(** C135: a client and a server over a serial line. *)
From Coq Require Import List Arith ZArith Bool Ascii String Lia.
From Verif Require Import Base RingOps RingModel LineModel LineSpec LineProps StreamModel StreamSpec ServeModel LinkModel LinkSpec LinkProofs.
Import ListNotations.
Open Scope list_scope.
Notation length := List.length.

(** Whenever client and server push, pull, send, serve and read, whenever their drivers have room and however long the bytes are under way:
    the answers the client has read are those to the first requests it has sent, in order and each once. *)
Theorem C135_answers : forall W dbg delims d answer most ma mb cia coa cib cob ops s0,
  existsb (Ascii.eqb d) delims = true -> cia <= ma -> cib <= mb -> 1 <= coa -> 1 <= cib -> most + 1 <= cob ->
  (forall l, proper delims cia (answer l) /\ length (answer l) <= most) ->
  link_new dbg delims cia coa cib cob = Ok s0 -> Forall (asks delims cib) ops ->
  exists sent read s pending, krun W d answer most ma mb s0 ops = Ok (sent, read, s) /\ map answer sent = read ++ pending.
Proof. intros W dbg delims d answer most ma mb cia coa cib cob. intros. eapply (link_answers W dbg delims d answer most ma mb cia coa cib cob); eassumption. Qed.
Print Assumptions C135_answers.

(** If everything goes on as often as there were requests, all of them are answered. *)
Theorem C135_all_answered : forall W dbg delims d answer most ma mb cia coa cib cob ops n s0,
  existsb (Ascii.eqb d) delims = true -> cia <= ma -> cib <= mb -> 1 <= coa -> 1 <= cib -> most + 1 <= cob ->
  (forall l, proper delims cia (answer l) /\ length (answer l) <= most) ->
  link_new dbg delims cia coa cib cob = Ok s0 -> Forall (asks delims cib) ops ->
  exists sent read s, krun W d answer most ma mb s0 ops = Ok (sent, read, s) /\
    (length sent <= n -> exists s', krun W d answer most ma mb s0 (ops ++ turns coa cob n) = Ok (sent, map answer sent, s')).
Proof. intros W dbg delims d answer most ma mb cia coa cib cob. intros. eapply (link_all W dbg delims d answer most ma mb cia coa cib cob); eassumption. Qed.
Print Assumptions C135_all_answered.

(** One request after the other: none is refused, and each is answered before the next. *)
Theorem C135_calls : forall W dbg delims d answer most ma mb cia coa cib cob ls s0,
  existsb (Ascii.eqb d) delims = true -> cia <= ma -> cib <= mb -> 1 <= coa -> 1 <= cib -> most + 1 <= cob ->
  (forall l, proper delims cia (answer l) /\ length (answer l) <= most) ->
  link_new dbg delims cia coa cib cob = Ok s0 -> Forall (proper delims cib) ls -> Forall (proper delims coa) ls ->
  exists s, krun W d answer most ma mb s0 (calls coa cob ls) = Ok (ls, map answer ls, s).
Proof. intros W dbg delims d answer most ma mb cia coa cib cob. intros. eapply (link_calls W dbg delims d answer most ma mb cia coa cib cob); eassumption. Qed.
Print Assumptions C135_calls.

(** Answers with the length of a line, in strokes *)
Definition strokes (l : list ascii) : list ascii := map (fun _ => "I"%char) (firstn 3 l).
Definition nl : ascii := ascii_of_nat 10.
Definition chat : list kop := [KSend (str "ab"); KSend (str "cde"); KRoomA 5; KPushA; KSend (str "f"); KToB (Some 4); KPullB; KServe; KRoomB 2; KPushB; KToA (Some 1); KPullA; KRead; KToA None; KPullA].
Example C135_case : exists s0 s s', existsb (Ascii.eqb nl) LF = true /\ (forall l, proper LF 4 (strokes l) /\ length (strokes l) <= 3) /\
  link_new true LF 4 8 5 6 = Ok s0 /\ Forall (asks LF 5) chat /\
  krun 64 nl strokes 3 4 5 s0 chat = Ok ([str "ab"; str "cde"; str "f"], [], s) /\
  krun 64 nl strokes 3 4 5 s0 (chat ++ turns 8 6 3) = Ok ([str "ab"; str "cde"; str "f"], [str "II"; str "III"; str "I"], s') /\
  exists s'', krun 64 nl strokes 3 4 5 s0 (calls 8 6 [str "abcd"; str "e"]) = Ok ([str "abcd"; str "e"], [str "III"; str "I"], s'').
Proof.
  do 3 eexists. split; [reflexivity|]. split.
  { intros l. unfold proper, strokes. rewrite map_length. pose proof (firstn_le_length 3 l). repeat split; try lia. unfold no_delim. apply Forall_forall. intros c Hc. apply in_map_iff in Hc as (? & <- & _). reflexivity. }
  split; [vm_compute; reflexivity|]. split; [repeat constructor|]. split; [vm_compute; reflexivity|]. split; [vm_compute; reflexivity|]. eexists. vm_compute. reflexivity.
Qed.
