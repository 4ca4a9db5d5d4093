(** Model of Pipeline::to_string (eventsystem/pipeline.cpp:15-47). The clock is read for every event in both passes, so the times until
    the events are given for each pass. *)
From Coq Require Import List Arith ZArith Bool.
From Verif Require Import Base KTimeModel ReprModel.
Import ListNotations.
Open Scope nat_scope.

(** "Pipeline: [", ", " and "]" *)
Definition opening : list nat := [80; 105; 112; 101; 108; 105; 110; 101; 58; 32; 91].
Definition comma : list nat := [44; 32].
Definition closing : list nat := [93].
(** pipeline.cpp:16-33, the text put together in one pass; inside the loop [it != _pipe.end()] always holds *)
Definition pass (untils : list Z) : list nat := opening ++ flat_map (fun u => repr MS u ++ comma) untils ++ closing.
(** The capacity of an empty std::string after reserve(n), in libstdc++: 15 characters are held in place, and the first allocation is
    at least twice that *)
Definition reserved (n : nat) : nat := if n <=? 15 then 15 else if n <? 30 then 30 else n.
(** pipeline.cpp:35-46. The capacity does not change while the text fits it; when it does not, the first assertion has failed. *)
Definition to_string (dbg : bool) (first second : list Z) : outcome (list nat) :=
  let total := length (pass first) in
  let result := pass second in
  sassert dbg (length result <=? total) ;;;
  sassert dbg (reserved total =? total) ;;;
  Ok result.
