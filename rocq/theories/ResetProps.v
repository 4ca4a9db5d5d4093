(** Property C105: resetting filters and stacks of filters, in single precision. *)
From Coq Require Import ZArith Bool List.
From Verif Require Import Base FloatModel FilterModel FilterSpec PidProofs TunerProofs FilterProofs ResetProofs.
Import ListNotations.
Open Scope Z_scope.

Definition same (l m : list float) : bool := (length l =? length m)%nat && forallb (fun p => f_eq (fst p) (snd p)) (combine l m).
Definition ints (l : list Z) : list float := map f_ofZ l.
Definition same_hist (g h : list fop) : bool := (length g =? length h)%nat &&
  forallb (fun p => match p with (Sample x, Sample y) | (Reset x, Reset y) => f_eq x y | _ => false end) (combine g h).

(** C105: value() after reset_to(v) is v, for each of the five filters in any state *)
Theorem C105_value : (forall f, settable (of_ewma f)) /\ (forall f, settable (of_bandpass f)) /\ (forall dbg f, settable (of_invert dbg f)) /\
  (forall f, settable (of_mapped f)) /\ (forall v, settable (passthrough v)).
Proof. exact five_settable. Qed.
Print Assumptions C105_value.
Example C105_value_case : exists p, run_filter (f_ofZ 25) (of_mapped (percentage (f_ofZ 0) (f_ofZ 100))) = Ok p /\
  f_eq (filter_value (snd p)) (f_ofZ 25) && f_eq (filter_value (filter_reset (f_ofZ 7) (snd p))) (f_ofZ 7) = true.
Proof. apply ok_test. vm_compute. reflexivity. Qed.
(** ... and for a stack that ends in one of them *)
Theorem C105_stack_value : forall v s f s', settable f -> stack_reset v (s ++ [Some f]) = Ok s' -> stack_current s' = Ok v.
Proof. exact stack_reset_value. Qed.
Print Assumptions C105_stack_value.
Example C105_stack_value_case : exists s', stack_reset (f_ofZ 7) ([Some (passthrough f_zero)] ++ [Some (of_ewma (ewma_new (f_ofZ 10)))]) = Ok s' /\
  match stack_current s' with Ok y => f_eq y (f_ofZ 7) | _ => false end = true.
Proof. apply ok_test. vm_compute. reflexivity. Qed.
(** An average forgets everything before the last reset, the value given too: its outputs are then those of a new filter *)
Theorem C105_average : forall k h f v xs, ew_k f = k -> exists pre, length pre = length h /\
  filter_hist (of_ewma f) (h ++ Reset v :: map Sample xs) = Ok (pre ++ Reset v :: map Sample (ewma_run xs (ewma_new k))).
Proof. exact ewma_hist_reset. Qed.
Print Assumptions C105_average.
Example C105_average_case : exists g, filter_hist (of_ewma (ewma_new (f_ofZ 10))) (map Sample (ints [10; 20]) ++ Reset (f_ofZ 7) :: map Sample (ints [100; 200])) = Ok g /\
  same_hist g (map Sample (ints [10; 15]) ++ Reset (f_ofZ 7) :: map Sample (ints [100; 150])) = true.
Proof. apply ok_test. vm_compute. reflexivity. Qed.
(** Invert, MappedRange and Passthrough: every output is that of the sample alone, whatever resets and samples came before *)
Theorem C105_no_effect : (forall dbg f h, filter_hist (of_invert dbg f) h = each (fun x => output (invert_value dbg x f)) h) /\
  (forall f h, filter_hist (of_mapped f) h = each (fun x => output (mapped_value x f)) h) /\ (forall v h, filter_hist (passthrough v) h = Ok h).
Proof. exact no_effect. Qed.
Print Assumptions C105_no_effect.
Example C105_no_effect_case : exists g, filter_hist (of_mapped (percentage (f_ofZ 0) (f_ofZ 20))) [Sample (f_ofZ 10); Reset (f_ofZ 3); Sample (f_ofZ 20)] = Ok g /\
  same_hist g [Sample (f_ofZ 50); Reset (f_ofZ 3); Sample (f_ofZ 100)] = true.
Proof. apply ok_test. vm_compute. reflexivity. Qed.
(** BandPass, nothing being the marker: right after a sample in band, a reset to v makes the filter as a new one reset to v, and
    both pass what is in the band that starts at v. Missing for C105: resets after rejected samples. *)
Theorem C105_band_partial : forall c h x v xs f0 f, bp_after h (bp_new c) = Ok f0 -> f_eq (bp_value f0) bp_default = false -> in_band c (bp_value f0) x = true ->
  bp_after (h ++ [Sample x]) (bp_new c) = Ok f -> Forall (fun x => f_eq x bp_default = false) (v :: xs) ->
  bp_run xs (bp_reset v f) = bp_run xs (bp_reset v (bp_new c)) /\ bp_run xs (bp_reset v f) = of_option (band (in_band c) (bc_limit c) (bc_throw c) v 0 xs).
Proof. exact bp_reset_fresh. Qed.
Print Assumptions C105_band_partial.
Example C105_band_case : let c := mkBC RELATIVE (f_ofZ 10) (f_ofZ 0) 2 true in
  exists f, bp_after (map Sample (ints [50; 55])) (bp_new c) = Ok f /\
  match bp_run (ints [205; 55; 212]) (bp_reset (f_ofZ 200) f) with Ok ys => same ys (ints [205; 205; 212]) | _ => false end = true.
Proof. apply ok_test. vm_compute. reflexivity. Qed.
(** The rejections in a row are not forgotten: with limit 1, one rejected sample before the reset makes the first one after it
    raise; without it the same sample is held back. *)
Theorem C105_band_refuted : exists c x y v z, bc_limit c = 1 /\ in_band c v z = false /\
  (exists f, bp_after [Sample x; Sample y] (bp_new c) = Ok f /\ match bp_run [z] (bp_reset v f) with Halt => true | _ => false end = true) /\
  (exists f, bp_after [Sample x] (bp_new c) = Ok f /\ match bp_run [z] (bp_reset v f) with Ok ys => same ys [v] | _ => false end = true).
Proof.
  exists (mkBC RELATIVE (f_ofZ 10) (f_ofZ 0) 1 true), (f_ofZ 0), (f_ofZ 100), (f_ofZ 200), (f_ofZ 300). split; [reflexivity|]. split; [vm_compute; reflexivity|].
  split; apply ok_test; vm_compute; reflexivity.
Qed.
(** A reset to the value that marks an empty filter empties it: the next sample is passed whatever it is *)
Theorem C105_marker_refuted : exists c v z, 1 < bc_limit c /\ in_band c v z = false /\ exists ys, bp_run [z] (bp_reset v (bp_new c)) = Ok ys /\ same ys [z] = true.
Proof.
  exists (mkBC RELATIVE (f_ofZ 10) (f_ofZ 0) 3 true), bp_default, (f_ofZ 1000000). split; [reflexivity|]. split; [vm_compute; reflexivity|]. apply ok_test. vm_compute. reflexivity.
Qed.
(** What holds after any history: the band starts at v with the rejections counted so far *)
Theorem C105_band_exact : forall c h v xs f, bp_after h (bp_new c) = Ok f -> Forall (fun x => f_eq x bp_default = false) (v :: xs) ->
  bp_run xs (bp_reset v f) = of_option (band (in_band c) (bc_limit c) (bc_throw c) v (bp_rejections f) xs).
Proof. exact bp_reset_thm. Qed.
Print Assumptions C105_band_exact.
Example C105_band_exact_case : let c := mkBC RELATIVE (f_ofZ 10) (f_ofZ 0) 2 true in
  exists f, bp_after (Sample (f_ofZ 50) :: Reset (f_ofZ 0) :: map Sample (ints [55])) (bp_new c) = Ok f /\ (bp_rejections f =? 1) &&
  match bp_run (ints [205; 300]) (bp_reset (f_ofZ 200) f) with Ok ys => same ys (ints [205; 205]) | _ => false end = true.
Proof. apply ok_test. vm_compute. reflexivity. Qed.
(** A stack: samples and resets give what the filters, in the order attached, give one after the other with the resets at the same places *)
Theorem C105_stack : forall dbg fs h zs, stack_hist dbg (build fs) h = Ok zs <-> hist_through fs h = Ok zs.
Proof. exact stack_hist_thm. Qed.
Print Assumptions C105_stack.
Example C105_stack_case : let fs := [of_mapped (percentage (f_ofZ 0) (f_ofZ 20)); of_ewma (ewma_new (f_ofZ 10))] in
  exists g, stack_hist true (build fs) [Sample (f_ofZ 10); Sample (f_ofZ 30); Reset (f_ofZ 3); Sample (f_ofZ 5)] = Ok g /\
  same_hist g [Sample (f_ofZ 50); Sample (f_ofZ 75); Reset (f_ofZ 3); Sample (f_ofZ 25)] = true.
Proof. apply ok_test. vm_compute. reflexivity. Qed.
(** A null pointer, which value(sample) skips in release, is followed by reset_to *)
Theorem C105_null_refuted : exists s x, (exists y s', stack_value false x s = Ok (y, s')) /\ stack_reset x s = UB.
Proof. exists [None], (f_ofZ 1). split; [exists (f_ofZ 1), [None]|]; reflexivity. Qed.
