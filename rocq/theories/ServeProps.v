(** C129: a server that answers lines. *)
From Coq Require Import List Arith ZArith Bool Ascii String.
From Verif Require Import Base RingOps RingModel RingSpec LineModel LineSpec LineProps StreamModel StreamSpec ServeModel ServeSpec ServeProofs.
Import ListNotations.
Open Scope list_scope.
Notation length := List.length.

(** Whatever arrives when, whenever the line has room and in whatever order the server pulls, serves and pushes: the bytes sent and
    still to be sent are the answers to the first lines that arrived, and the other lines are still buffered or waiting. *)
Theorem C129_answers : forall W dbg delims ci co m reply most ops b0, 1 <= ci <= m -> 1 <= co -> most <= co -> (forall l, length (reply l) <= most) ->
  bs_new dbg delims ci co = Ok b0 -> fits delims ci (received ops) ->
  exists ls b w q qo, vrun W (serve_copy W reply most m) b0 (mkWire [] 0 []) ops = Ok (ls, b, w) /\ holds (b_in b) q /\ holds (b_out b) qo /\
    w_tx w ++ qo = List.concat (map reply ls) /\ fst (lines_of delims (received ops)) = ls ++ fst (lines_of delims (q ++ w_rx w)) /\
    snd (lines_of delims (received ops)) = snd (lines_of delims (q ++ w_rx w)).
Proof. exact copy_server. Qed.
Print Assumptions C129_answers.

(** A server that goes on, with a line that goes on sending, has answered every line after as many rounds as there were lines. *)
Theorem C129_all_answered : forall W dbg delims ci co m reply most ops n b0, 1 <= ci <= m -> 1 <= co -> most <= co -> (forall l, length (reply l) <= most) ->
  bs_new dbg delims ci co = Ok b0 -> fits delims ci (received ops) -> length (fst (lines_of delims (received ops))) <= n ->
  exists b w, vrun W (serve_copy W reply most m) b0 (mkWire [] 0 []) (ops ++ rounds co n) = Ok (fst (lines_of delims (received ops)), b, w) /\
    w_tx w = List.concat (map reply (fst (lines_of delims (received ops)))).
Proof. exact copy_server_done. Qed.
Print Assumptions C129_all_answered.

(** Answers the first byte of each line *)
Definition echo (l : list ascii) : list ascii := firstn 1 l ++ LF.
Definition talk : list vop := [VArrive (str "abc" ++ LF ++ str "d"); VServe; VPull; VServe; VRoom 1; VPush; VArrive (LF ++ str "efg" ++ LF); VServe; VPull; VServe; VPush].
Example C129_case : exists b0 b w b' w', bs_new true LF 5 3 = Ok b0 /\ fits LF 5 (received talk) /\ (forall l, length (echo l) <= 2) /\
  vrun 64 (serve_copy 64 echo 2 5) b0 (mkWire [] 0 []) talk = Ok ([str "abc"; str "d"], b, w) /\ w_tx w = str "a" /\ w_rx w = LF /\
  vrun 64 (serve_copy 64 echo 2 5) b0 (mkWire [] 0 []) (talk ++ rounds 3 3) = Ok ([str "abc"; str "d"; str "efg"], b', w') /\
  w_tx w' = str "a" ++ LF ++ str "d" ++ LF ++ str "e" ++ LF.
Proof.
  do 5 eexists. split; [vm_compute; reflexivity|]. split; [split; vm_compute; repeat constructor|]. split; [intros [|c l]; cbn; repeat constructor|].
  split; [vm_compute; reflexivity|]. split; [reflexivity|]. split; [reflexivity|]. split; [vm_compute; reflexivity|]. reflexivity.
Qed.

(** With transactions, in both kinds of builds: the same, as long as no line served crosses the end of the input buffer, where the first
    byte of each is known from the bytes before it. Missing: lines that do, whose views reach outside of it (C129_transactions_refuted). *)
Theorem C129_transactions_partial : forall W dbg delims ci co reply most ops b0, 1 <= ci -> 1 <= co -> (forall l, length (reply l) <= most) ->
  bs_new dbg delims ci co = Ok b0 -> fits delims ci (received ops) ->
  (~ straight ci 0 (fst (lines_of delims (received ops))) /\ vrun W (serve_tx W dbg reply most) b0 (mkWire [] 0 []) ops = UB) \/
  exists ls b w q qo, straight ci 0 ls /\ vrun W (serve_tx W dbg reply most) b0 (mkWire [] 0 []) ops = Ok (ls, b, w) /\ holds (b_in b) q /\ holds (b_out b) qo /\
    w_tx w ++ qo = List.concat (map reply ls) /\ fst (lines_of delims (received ops)) = ls ++ fst (lines_of delims (q ++ w_rx w)) /\
    snd (lines_of delims (received ops)) = snd (lines_of delims (q ++ w_rx w)).
Proof. exact tx_server. Qed.
Print Assumptions C129_transactions_partial.
(** A server with transactions that goes on answers all lines, if none of them crosses the end of the input buffer, and only then. *)
Theorem C129_transactions_all_partial : forall W dbg delims ci co reply most ops n b0, 1 <= ci -> most < co -> (forall l, length (reply l) <= most) ->
  bs_new dbg delims ci co = Ok b0 -> fits delims ci (received ops) -> length (fst (lines_of delims (received ops))) <= n ->
  (straight ci 0 (fst (lines_of delims (received ops))) ->
   exists b w, vrun W (serve_tx W dbg reply most) b0 (mkWire [] 0 []) (ops ++ rounds co n) = Ok (fst (lines_of delims (received ops)), b, w) /\
     w_tx w = List.concat (map reply (fst (lines_of delims (received ops))))) /\
  (~ straight ci 0 (fst (lines_of delims (received ops))) -> vrun W (serve_tx W dbg reply most) b0 (mkWire [] 0 []) (ops ++ rounds co n) = UB).
Proof. exact tx_server_done. Qed.
Print Assumptions C129_transactions_all_partial.
Definition ask (s : string) : list vop := [VArrive (str s ++ LF); VPull; VServe; VRoom 8; VPush].
Example C129_transactions_case : exists b0 b w, bs_new true LF 8 4 = Ok b0 /\ fits LF 8 (received (ask "abc" ++ ask "def")) /\
  vrun 64 (serve_tx 64 true echo 2) b0 (mkWire [] 0 []) (ask "abc" ++ ask "def") = Ok ([str "abc"; str "def"], b, w) /\ w_tx w = str "a" ++ LF ++ str "d" ++ LF /\
  straight 8 0 [str "abc"; str "def"].
Proof. do 3 eexists. split; [vm_compute; reflexivity|]. split; [split; vm_compute; repeat constructor|]. split; [vm_compute; reflexivity|]. split; [reflexivity|]. vm_compute. repeat constructor. Qed.
(** Two requests one after the other: the view of the second one ends outside of the buffer, though each has only half its length. *)
Theorem C129_transactions_refuted : exists b0, bs_new true LF 8 4 = Ok b0 /\ fits LF 8 (received (ask "abcd" ++ ask "efgh")) /\
  vrun 64 (serve_tx 64 true echo 2) b0 (mkWire [] 0 []) (ask "abcd" ++ ask "efgh") = UB.
Proof. eexists. split; [vm_compute; reflexivity|]. split; [split; vm_compute; repeat constructor|]. vm_compute. reflexivity. Qed.
Print Assumptions C129_transactions_refuted.
