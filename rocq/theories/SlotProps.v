(** Property C111: io/stream/transaction.hpp, transactions kept in std::optional variables. *)
From Coq Require Import List Arith ZArith Bool Ascii String Lia.
From Verif Require Import Base RingOps RingModel RingSpec LineModel LineSpec LineProps StreamModel StreamSpec SlotModel SlotSpec SlotProofs.
Import ListNotations.
Open Scope list_scope.
Notation length := List.length.

(** C111 for every program over any number of variables: each transaction made is open, was overwritten while open, or has consumed one
    line. Full claim: none is overwritten while open, as an assignment ends what the variable held. *)
Theorem C111_account_partial :
  forall W dbg ci co b qi qo n ops m o w,
  bs_holds W ci co b qi qo -> xhist W dbg (xstart b n) ops m o w ->
  o + opens w <= m /\ holds (b_in (xb w)) (drop_lines (b_delims b) (m - o - opens w) qi).
Proof. exact account. Qed.
Print Assumptions C111_account_partial.
(** C111 for a loop that ends each transaction by itself: successive transactions in one variable show the successive lines. *)
Theorem C111_serve_partial :
  forall W dbg ci co b qi qo n i rounds rs w,
  bs_holds W ci co b qi qo -> i < n -> Forall (fun p => Forall queues (fst p) /\ ends i (snd p)) rounds ->
  length rounds <= length (fst (lines_of (b_delims b) qi)) ->
  xrun W dbg (xstart b n) (flat_map (fun p => pass i (fst p) ++ [snd p]) rounds) = Ok (rs, w) ->
  shown rs = firstn (length rounds) (fst (lines_of (b_delims b) qi)) /\ holds (b_in (xb w)) (drop_lines (b_delims b) (length rounds) qi).
Proof. exact serve_start. Qed.
Print Assumptions C111_serve_partial.

Definition filled (cap : nat) (l : list ascii) : outcome (ring ascii) :=
  r <- ring_new true cap NUL ;; '(_, r') <- ring_run 64 r (map (fun c => OpPush c true) l) ;; Ok r'.
Lemma filled_reachable cap l r : 1 <= cap -> filled cap l = Ok r -> reachable 64 cap r.
Proof.
  intros Hc H. unfold filled in H. apply StreamProofs.bind_ok in H as (r0 & E0 & H). apply StreamProofs.bind_ok in H as ([xs r1] & E1 & H).
  injection H as <-. split; [exact Hc|]. exists true, NUL. do 3 eexists. split; [exact E0|]. exact E1.
Qed.
Definition both (l o : list ascii) : outcome bstream := i <- filled 16 l ;; u <- filled 8 o ;; Ok (mkBS i u LF).
Lemma both_holds l o b : both l o = Ok b -> holds (b_in b) l -> holds (b_out b) o -> bs_holds 64 16 8 b l o.
Proof.
  intros H Hi Ho. unfold both in H. apply StreamProofs.bind_ok in H as (i & E1 & H). apply StreamProofs.bind_ok in H as (u & E2 & H).
  injection H as <-. split; [|split; [|split]]; auto; eapply filled_reachable; eauto; lia.
Qed.
Ltac held := split; [reflexivity|eexists; split; [vm_compute; reflexivity|reflexivity]].
Definition input : list ascii := str "one" ++ LF ++ str "two" ++ LF ++ str "rest".

Example C111_serve_case :
  exists b rs w, both input [] = Ok b /\ bs_holds 64 16 8 b input [] /\
    xrun 64 true (xstart b 2) (flat_map (fun p => pass 1 (fst p) ++ [snd p]) [([TOut (str "ok")], XUse 1 TAbort); ([], XReset 1)]) = Ok (rs, w) /\
    shown rs = [str "one"; str "two"] /\ holds (b_in (xb w)) (str "rest") /\ holds (b_out (xb w)) [].
Proof.
  do 3 eexists. split; [vm_compute; reflexivity|]. split; [apply both_holds; [reflexivity|held|held]|].
  split; [vm_compute; reflexivity|]. split; [reflexivity|]. split; held.
Qed.
Example C111_account_case :
  exists b w m o, both input [] = Ok b /\ bs_holds 64 16 8 b input [] /\
    xhist 64 true (xstart b 2) [XTake 0; XMove 1 0; XTake 0; XUse 1 TCommit] m o w /\ m = 2 /\ o = 0 /\ opens w = 1 /\
    holds (b_in (xb w)) (str "two" ++ LF ++ str "rest").
Proof.
  do 4 eexists. split; [vm_compute; reflexivity|]. split; [apply both_holds; [reflexivity|held|held]|].
  split; [do 4 (eapply xh_cons; [vm_compute; reflexivity|]); apply xh_nil|]. split; [reflexivity|]. split; [reflexivity|]. split; [reflexivity|]. held.
Qed.

(** False of the code: assigning over an open transaction does not end it. A loop that leaves the ending to the next assignment sees the
    first line again in every pass, and the input never shrinks. *)
Theorem C111_stuck :
  forall W dbg ci co b qi qo n i rounds line rest rs w,
  bs_holds W ci co b qi qo -> i < n -> first_line (b_delims b) qi = Some (line, rest) -> Forall (Forall queues) rounds ->
  xrun W dbg (xstart b n) (flat_map (pass i) rounds) = Ok (rs, w) ->
  shown rs = repeat line (length rounds) /\ holds (b_in (xb w)) qi.
Proof. exact stuck_start. Qed.
Print Assumptions C111_stuck.
Theorem C111_stuck_refuted :
  exists b rs w, both input [] = Ok b /\ bs_holds 64 16 8 b input [] /\
    xrun 64 true (xstart b 1) (flat_map (pass 0) [[TOutC "a"%char]; []; [TOut (str "b")]]) = Ok (rs, w) /\
    shown rs = [str "one"; str "one"; str "one"] /\ holds (b_in (xb w)) input /\
    exists m o, xhist 64 true (xstart b 1) (flat_map (pass 0) [[TOutC "a"%char]; []; [TOut (str "b")]]) m o w /\ m = 3 /\ o = 2.
Proof.
  do 3 eexists. split; [vm_compute; reflexivity|]. split; [apply both_holds; [reflexivity|held|held]|].
  split; [vm_compute; reflexivity|]. split; [reflexivity|]. split; [held|].
  do 2 eexists. split; [do 8 (eapply xh_cons; [vm_compute; reflexivity|]); apply xh_nil|]. split; reflexivity.
Qed.
(** Aborting the transaction that replaced an open one leaves what the open one had queued in the output. *)
Theorem C111_kept :
  forall W ci co b qi qo n i ws line rest rs w,
  bs_holds W ci co b qi qo -> i < n -> first_line (b_delims b) qi = Some (line, rest) -> Forall queues ws ->
  length (tx_written co qo ws) < co ->
  xrun W false (xstart b n) (pass i ws ++ [XTake i; XUse i TAbort]) = Ok (rs, w) ->
  holds (b_out (xb w)) (tx_written co qo ws) /\ holds (b_in (xb w)) rest.
Proof. exact kept_start. Qed.
Print Assumptions C111_kept.
Theorem C111_kept_refuted :
  exists b rs w, both input [] = Ok b /\ bs_holds 64 16 8 b input [] /\
    xrun 64 true (xstart b 1) (pass 0 [TOut (str "bad")] ++ [XTake 0; XUse 0 TAbort]) = Ok (rs, w) /\ holds (b_out (xb w)) (str "bad").
Proof.
  do 3 eexists. split; [vm_compute; reflexivity|]. split; [apply both_holds; [reflexivity|held|held]|].
  split; [vm_compute; reflexivity|]. held.
Qed.
