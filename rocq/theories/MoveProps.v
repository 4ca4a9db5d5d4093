(** Property C116: structure/result.hpp, moving and unwrapping Results. *)
From Coq Require Import List Arith Bool ZArith Lia.
From Verif Require Import Base ResultModel ResultSpec MoveModel MoveSpec MoveProofs.
Import ListNotations.

(** Throughout: any payload types, any state a payload is left in when moved from ([moved]), debug and release builds. *)

(** C116, the part that holds. A Result moved into another variable is there as it was; no third variable changes. The source keeps its
    state and a payload that was moved from. *)
Theorem C116_move_partial : forall den fb moved dbg t e i (w : list (result den t e i)) n r, nth_error w n = Some r ->
  exists w', mstep den fb moved dbg (MMove den n) w = Ok (Done den, w') /\ nth_error w' (length w) = Some r /\
    (exists s, nth_error w' n = Some s /\ s = moved_from den moved r /\ reports s = reports r) /\
    (forall j, j < length w -> j <> n -> nth_error w' j = nth_error w j) /\ length w' = S (length w).
Proof. exact @move_new. Qed.
Print Assumptions C116_move_partial.
Theorem C116_move_assign_partial : forall den fb moved dbg t e i (w : list (result den t e i)) m n q r,
  m <> n -> nth_error w m = Some q -> nth_error w n = Some r ->
  exists w', mstep den fb moved dbg (MMoveTo den m n) w = Ok (Done den, w') /\ nth_error w' m = Some r /\
    (exists s, nth_error w' n = Some s /\ s = moved_from den moved r /\ reports s = reports r) /\
    (forall j, j <> m -> j <> n -> nth_error w' j = nth_error w j) /\ length w' = length w.
Proof. exact @move_to. Qed.
Print Assumptions C116_move_assign_partial.
(** A program that only moves and reads never gives a resource a second owner, and loses it only by moving onto its owner. *)
Theorem C116_owners_partial : forall den fb moved dbg t e i owns, (forall c x, owns c (moved c x) = None) ->
  forall k os (w : list (result den t e i)) rs w', Forall (moves den) os -> mrun den fb moved dbg os w = Ok (rs, w') ->
  owners den owns k w' <= owners den owns k w /\ ((forall m n, ~ In (MMoveTo den m n) os) -> owners den owns k w' = owners den owns k w).
Proof. exact @move_run. Qed.
Print Assumptions C116_owners_partial.
(** Whatever a program does with its variables, each stays in one of the four states of C48. *)
Theorem C116_states : forall den fb moved dbg t e i os (w : list (result den t e i)) rs w',
  Forall (tame den) os -> Forall lawful w -> mrun den fb moved dbg os w = Ok (rs, w') -> Forall lawful w'.
Proof. exact @tame_run. Qed.
Print Assumptions C116_states.

(** Payloads that point to an object, or to none *)
Definition ptr : nat -> Type := fun _ => option nat.
Definition gone : forall c, ptr c -> ptr c := fun _ _ => None.
Definition points : forall c, ptr c -> option nat := fun _ x => x.
Definition nobool : forall c, option (bool -> ptr c) := fun _ => None.
Definition good (n : nat) : result ptr 0 1 2 := success ptr (Some n).
Example C116_case : exists rs w, mrun ptr nobool gone true [MMove ptr 0; MMoveTo ptr 1 2; MMove ptr 1; MRead ptr Value 3] [good 7; good 8] = Ok (rs, w) /\
  rs = [Done ptr; Done ptr; Done ptr; AnsT ptr (Some 7)] /\ w = [success ptr None; success ptr None; success ptr None; good 7] /\
  owners ptr points 7 w = 1 /\ owners ptr points 8 w = 0 /\ owners ptr points 8 [good 7; good 8] = 1 /\
  Forall (moves ptr) [MMove ptr 0; MMoveTo ptr 1 2; MMove ptr 1; MRead ptr (t := 0) (e := 1) (i := 2) Value 3] /\
  Forall (tame ptr) [MMove ptr 0; MMoveTo ptr 1 2; MMove ptr 1; MRead ptr (t := 0) (e := 1) (i := 2) Value 3] /\ Forall lawful [good 7; good 8].
Proof.
  do 2 eexists. split; [reflexivity|]. split; [reflexivity|]. split; [reflexivity|]. split; [reflexivity|]. split; [reflexivity|].
  split; [reflexivity|]. split; [repeat constructor; discriminate|]. split; repeat constructor.
Qed.
(** chain's function can change the intermediary value it is given; the variable keeps the change *)
Example C116_chain_case : exists rs w, mrun ptr nobool gone true [MChain ptr (t := 0) (e := 1) (i := 2) (fun x => (None, good (match x with Some n => n | None => 0 end))) 0] [intermediary ptr (t := 0) (e := 1) (i := 2) (Some 7)] = Ok (rs, w) /\
  w = [intermediary ptr None; good 7].
Proof. do 2 eexists. split; reflexivity. Qed.

(** False of the code: unwrap() does not hand the value over. It gives a copy, the Result keeps the value and unwrapping again, as often
    as one likes, gives it again. *)
Theorem C116_unwrap : forall den fb moved dbg t e i os (w : list (result den t e i)) rs w' n x,
  Forall (looks den) os -> mrun den fb moved dbg os w = Ok (rs, w') -> nth_error w n = Some (success den x) ->
  mstep den fb moved dbg (MUnwrap den Value n) w' = Ok (AnsT den x, w') /\ mstep den fb moved dbg (MRead den Value n) w' = Ok (AnsT den x, w').
Proof. exact @unwrap_again. Qed.
Print Assumptions C116_unwrap.
Theorem C116_unwrap_kept : forall den fb moved dbg t e i os (w : list (result den t e i)) rs w',
  Forall (looks den) os -> mrun den fb moved dbg os w = Ok (rs, w') -> w' = w.
Proof. exact @looks_same. Qed.
Print Assumptions C116_unwrap_kept.
Theorem C116_unwrap_refuted : exists rs w, mrun ptr nobool gone true [MUnwrap ptr Value 0; MUnwrap ptr Value 0] [good 7] = Ok (rs, w) /\
  rs = [AnsT ptr (Some 7); AnsT ptr (Some 7)] /\ owners ptr points 7 w = 1.
Proof. do 2 eexists. split; [reflexivity|]. split; reflexivity. Qed.
Print Assumptions C116_unwrap_refuted.
Example C116_unwrap_case : Forall (looks ptr) [MUnwrap ptr (t := 0) (e := 1) (i := 2) Value 0; MRead ptr Value 0] /\
  mrun ptr nobool gone false [MUnwrap ptr Value 0; MRead ptr Value 0] [good 7; failed ptr None] = Ok ([AnsT ptr (Some 7); AnsT ptr (Some 7)], [good 7; failed ptr None]).
Proof. split; [repeat constructor|reflexivity]. Qed.
(** A Result whose value was moved away still reports success, and value() gives what is left. *)
Theorem C116_source_refuted : exists rs w, mrun ptr nobool gone true [MMove ptr 0; MRead ptr Value 0] [good 7] = Ok (rs, w) /\
  option_map reports (nth_error w 0) = Some (true, false, false) /\ rs = [Done ptr; AnsT ptr None].
Proof. do 2 eexists. split; [reflexivity|]. split; reflexivity. Qed.
Print Assumptions C116_source_refuted.
