(** Property C134: the latch of controller/sr_latch.{hpp,cpp} and what it controls. *)
From Coq Require Import ZArith Lia Bool Reals Lra List.
From Verif Require Import Base LatchModel LatchSpec PlantSpec PlantProofs.
Import ListNotations.
Open Scope Z_scope.

(** A quantity that rises by at most [rise] per millisecond while the latch is off and does not rise while it is on, read at least
    every [gap] milliseconds, never gets higher than what it can gain in one gap above the high level, in one minimal off time
    and a gap above the low level, or where it started. Missing: uptimes over 2^24 milliseconds; a maximal on time, with which
    it is false (C134_forced_refuted). *)
Theorem C134_ceiling_partial :
  forall (F : Type) (val : F -> R) ltb (cfg : config F), sane F cfg -> max_on F cfg = 0 ->
  forall t0 gap rise rs, 0 <= t0 -> (0 <= rise)%R -> timely F t0 rs -> compares val ltb (high F cfg) (low F cfg) rs ->
  cooled val (fun h => response (readings F ltb cfg (latch_new F cfg t0) h)) rise gap rs ->
  forall t1 v1 rs', rs = (t1, v1) :: rs' -> forall t v, In (t, v) rs ->
  (val v <= Rmax (val v1) (Rmax (val (high F cfg) + rise * IZR gap) (val (low F cfg) + rise * IZR (min_off F cfg + gap))))%R.
Proof. intros. eapply (ceiling val ltb cfg); eassumption. Qed.
Print Assumptions C134_ceiling_partial.

(** The same downwards: what it can lose in one gap below the low level or in one minimal on time and a gap below the high one. *)
Theorem C134_floor_partial :
  forall (F : Type) (val : F -> R) ltb (cfg : config F), sane F cfg -> max_off F cfg = 0 -> (val (low F cfg) <= val (high F cfg))%R ->
  forall t0 gap fall rs, 0 <= t0 -> (0 <= fall)%R -> timely F t0 rs -> compares val ltb (high F cfg) (low F cfg) rs ->
  warmed val (fun h => response (readings F ltb cfg (latch_new F cfg t0) h)) fall gap rs ->
  forall t1 v1 rs', rs = (t1, v1) :: rs' -> forall t v, In (t, v) rs ->
  (Rmin (val v1) (Rmin (val (low F cfg) - fall * IZR gap) (val (high F cfg) - fall * IZR (min_on F cfg + gap))) <= val v)%R.
Proof. intros. eapply (floor val ltb cfg); eassumption. Qed.
Print Assumptions C134_floor_partial.

(** Rises and falls by 1 per 10 milliseconds; read every 40 *)
Definition cool : config Z := mkConfig Z 30 20 100 0 50 0.
Definition temps : list (Z * Z) := [(1000, 28); (1040, 32); (1080, 28); (1120, 24); (1160, 20); (1200, 16); (1240, 20); (1280, 24); (1320, 28); (1360, 32)].
Definition cool_out (h : list (Z * Z)) : bool := response (readings Z Z.ltb cool (latch_new Z cool 1000) h).
Example C134_case : sane Z cool /\ timely Z 1000 temps /\ compares IZR Z.ltb 30 20 temps /\
  cooled IZR cool_out (1 / 10) 40 temps /\ warmed IZR cool_out (1 / 10) 40 temps /\
  map (fun n => cool_out (firstn n temps)) [1; 2; 5; 6; 7; 9; 10]%nat = [false; true; true; false; false; false; true].
Proof.
  split; [unfold sane; cbn; lia|]. split; [unfold temps; repeat (constructor; [lia|]); constructor|]. split; [apply compares_Z|].
  split; [|split; [|vm_compute; reflexivity]]; [apply cooled_chain|apply warmed_chain]; cbn [temps chain fst snd app];
    repeat match goal with |- context [cool_out ?l] => let b := eval vm_compute in (cool_out l) in change (cool_out l) with b; cbv iota end;
    repeat split; try lia; cbn; lra.
Qed.

(** False with a maximal on time: the latch is forced off each time it has been on that long, however high the quantity is, and it
    rises again for the minimal off time, each time from higher. *)
Definition forced : config Z := mkConfig Z 30 20 0 100 50 0.
Definition climb : list (Z * Z) := [(1000, 31); (1110, 31); (1160, 81); (1270, 81); (1320, 131); (1430, 131); (1480, 181)].
Definition forced_out (h : list (Z * Z)) : bool := response (readings Z Z.ltb forced (latch_new Z forced 1000) h).
Theorem C134_forced_refuted : exists rise gap, sane Z forced /\ max_on Z forced <> 0 /\ timely Z 1000 climb /\
  compares IZR Z.ltb (high Z forced) (low Z forced) climb /\ (0 <= rise)%R /\ cooled IZR forced_out rise gap climb /\ In (1480, 181) climb /\
  ~ (IZR 181 <= Rmax (IZR 31) (Rmax (IZR (high Z forced) + rise * IZR gap) (IZR (low Z forced) + rise * IZR (min_off Z forced + gap))))%R.
Proof.
  exists 1%R, 110. split; [unfold sane; cbn; lia|]. split; [cbn; lia|]. split; [unfold climb; repeat (constructor; [lia|]); constructor|].
  split; [apply compares_Z|]. split; [lra|]. split.
  - apply cooled_chain. cbn [climb chain fst snd app].
    repeat match goal with |- context [forced_out ?l] => let b := eval vm_compute in (forced_out l) in change (forced_out l) with b; cbv iota end.
    repeat split; try lia; cbn; lra.
  - split; [cbn; tauto|]. cbn [high low min_off forced]. change (50 + 110) with 160. intros H.
    assert (Rmax 31 (Rmax (30 + 1 * 110) (20 + 1 * 160)) <= 180)%R as K by (repeat apply Rmax_lub; lra). lra.
Qed.
Print Assumptions C134_forced_refuted.
