(** Properties C43 to C47 and C69: filters, in single precision. *)
From Coq Require Import ZArith Lia Reals Lra Bool List.
From Flocq Require Import Core IEEE754.BinarySingleNaN.
From Verif Require Import Base FloatModel FloatFacts PidProofs TunerProofs FilterModel FilterSpec FilterProofs.
Import ListNotations.
Open Scope Z_scope.

Definition same (l m : list float) : bool := (length l =? length m)%nat && forallb (fun p => f_eq (fst p) (snd p)) (combine l m).
Definition ints (l : list Z) : list float := map f_ofZ l.

(** C43: for samples up to 2^126 in absolute value every output lies between two of the samples so far. Missing: larger samples,
    whose difference can overflow. *)
Theorem C43_between_partial : forall k xs, f_le (f_ofZ 2) k = true ->
  Forall (fun x => finite x = true /\ (Rabs (val x) <= bpow radix2 126)%R) xs ->
  forall i y, nth_error (ewma_run xs (ewma_new k)) i = Some y -> between (firstn (S i) xs) y.
Proof. exact ewma_thm. Qed.
Print Assumptions C43_between_partial.
Example C43_between_case : f_le (f_ofZ 2) (f_ofZ 3) = true /\ same (ewma_run (ints [10; 20; 30; 0]) (ewma_new (f_ofZ 2))) (ints [10; 15; 22; 11]) = false /\
  exists y, nth_error (ewma_run (ints [10; 20; 30; 2]) (ewma_new (f_ofZ 2))) 2 = Some y /\ f_lt (f_ofZ 22) y && f_lt y (f_ofZ 23) = true.
Proof. split; [vm_compute; reflexivity|]. split; [vm_compute; reflexivity|]. apply some_test. vm_compute. reflexivity. Qed.
Theorem C43_constant_partial : forall k c n, f_le (f_ofZ 2) k = true -> finite c = true /\ (Rabs (val c) <= bpow radix2 126)%R ->
  Forall (fun y => f_eq y c = true) (ewma_run (repeat c n) (ewma_new k)).
Proof. exact ewma_const_thm. Qed.
Print Assumptions C43_constant_partial.
Example C43_constant_case : same (ewma_run (repeat (f_lit 1 3) 4) (ewma_new (f_ofZ 2))) (repeat (f_lit 1 3) 4) = true.
Proof. vm_compute. reflexivity. Qed.
Example C43_case : f_le (f_ofZ 2) (f_ofZ 10) = true /\
  same (ewma_run (ints [10; 20; 30; 0]) (ewma_new (f_ofZ 10))) (ints [10; 15; 20; 15]) = true /\ length (ewma_run (ints [10; 20; 30; 0]) (ewma_new (f_ofZ 10))) = 4%nat.
Proof. repeat split; vm_compute; reflexivity. Qed.
(** The difference of two samples overflows *)
Theorem C43_overflow_refuted : exists k xs y, f_le (f_ofZ 2) k = true /\ Forall (fun x => finite x = true) xs /\
  nth_error (ewma_run xs (ewma_new k)) 1 = Some y /\ ~ between xs y.
Proof.
  set (xs := [f_ofZ (2 ^ 127); f_ofZ (- 2 ^ 127 - 2 ^ 126)]).
  destruct (some_test (nth_error (ewma_run xs (ewma_new (f_ofZ 10))) 1) (fun y => forallb (fun a => negb (f_le a y)) xs)) as (y & H1 & H2); [vm_compute; reflexivity|].
  exists (f_ofZ 10), xs, y. split; [vm_compute; reflexivity|]. split; [repeat constructor; vm_compute; reflexivity|]. split; [exact H1|].
  intros (a & b & Ha & _ & Hl & _). rewrite forallb_forall in H2. specialize (H2 a Ha). rewrite Hl in H2. discriminate.
Qed.
(** A frame of one sample: the output should be the sample itself *)
Theorem C43_one_refuted : exists a b y, finite a = true /\ finite b = true /\
  nth_error (ewma_run [a; b] (ewma_new (f_ofZ 1))) 1 = Some y /\ ~ between [a; b] y.
Proof.
  set (b := f_lit (-1) (2 ^ 30)). set (a := f_ofZ (-1)).
  destruct (some_test (nth_error (ewma_run [a; b] (ewma_new (f_ofZ 1))) 1) (fun y => forallb (fun c => negb (f_le y c)) [a; b])) as (y & H1 & H2); [vm_compute; reflexivity|].
  exists a, b, y. split; [vm_compute; reflexivity|]. split; [vm_compute; reflexivity|]. split; [exact H1|].
  intros (_ & c & _ & Hc & _ & Hl). rewrite forallb_forall in H2. specialize (H2 c Hc). rewrite Hl in H2. discriminate.
Qed.

(** C44 is false for the first sample of an absolute band: it becomes the output although it is outside *)
Theorem C44_first_sample_refuted : exists c x, 0 < bc_limit c /\ bc_throw c = true /\ (forall v, in_band c v x = false) /\
  exists ys, bp_run [x] (bp_new c) = Ok ys /\ same ys [x] = true.
Proof.
  exists (mkBC ABSOLUTE (f_ofZ 10) (f_ofZ 0) 3 true), (f_ofZ 100). split; [reflexivity|]. split; [reflexivity|]. split.
  - intros v. vm_compute. reflexivity.
  - apply ok_test. vm_compute. reflexivity.
Qed.
(** C44 is false after a forced acceptance: from then on every sample out of band is passed at once. Limit 1: 200 is the second
    rejected in a row, 400 is the first after an accepted one. *)
Theorem C44_after_limit_refuted : exists c xs, bc_limit c = 1 /\ in_band c (f_ofZ 200) (f_ofZ 400) = false /\ same xs (ints [0; 100; 200; 400]) = true /\
  exists ys, bp_run xs (bp_new c) = Ok ys /\ same ys (ints [0; 0; 200; 400]) = true.
Proof.
  exists (mkBC RELATIVE (f_ofZ 10) (f_ofZ 0) 1 false), (ints [0; 100; 200; 400]). split; [reflexivity|]. split; [vm_compute; reflexivity|]. split; [vm_compute; reflexivity|].
  apply ok_test. vm_compute. reflexivity.
Qed.
(** C44 is false after a sample that equals the value marking an empty filter *)
Theorem C44_marker_refuted : exists c x y, 1 < bc_limit c /\ in_band c x y = false /\ exists ys, bp_run [x; y] (bp_new c) = Ok ys /\ same ys [x; y] = true.
Proof.
  exists (mkBC RELATIVE (f_ofZ 10) (f_ofZ 0) 3 true), bp_default, (f_ofZ 1000000). split; [reflexivity|]. split; [vm_compute; reflexivity|]. apply ok_test. vm_compute. reflexivity.
Qed.
(** With the exception enabled, samples other than the marker: the first output is the first sample, every other output is that
    sample or one in band around the output before it. Missing for C44: the first sample. *)
Theorem C44_in_band_partial : forall c x xs y ys, Forall (fun x => f_eq x bp_default = false) (x :: xs) -> 0 < bc_limit c -> bc_throw c = true ->
  bp_run (x :: xs) (bp_new c) = Ok (y :: ys) ->
  y = x /\ forall i z, nth_error ys i = Some z ->
    z = x \/ exists j u, (j <= i)%nat /\ nth_error xs j = Some z /\ nth_error (x :: ys) j = Some u /\ in_band c u z = true.
Proof. exact bp_throw_thm. Qed.
Print Assumptions C44_in_band_partial.
Example C44_in_band_case : let c := mkBC RELATIVE (f_ofZ 10) (f_ofZ 0) 2 true in
  Forall (fun x => f_eq x bp_default = false) (ints [50; 55; 70; 71; 60]) /\
  exists ys, bp_run (ints [50; 55; 70; 71; 60]) (bp_new c) = Ok ys /\ same ys (ints [50; 55; 55; 55; 60]) = true.
Proof. split; [repeat constructor; vm_compute; reflexivity|]. apply ok_test; vm_compute; reflexivity. Qed.
(** The whole behaviour, with and without the exception *)
Theorem C44_behaviour : forall c x xs, Forall (fun x => f_eq x bp_default = false) (x :: xs) -> 0 < bc_limit c ->
  bp_run (x :: xs) (bp_new c) =
  of_option (match band (in_band c) (bc_limit c) (bc_throw c) x (if in_band c x x then 0 else 1) xs with Some ys => Some (x :: ys) | None => None end).
Proof. exact bp_thm. Qed.
Print Assumptions C44_behaviour.
Example C44_case : let c := mkBC RELATIVE (f_ofZ 10) (f_ofZ 0) 3 true in
  Forall (fun x => f_eq x bp_default = false) (ints [0; 5; 100; 12; -40]) /\
  (exists ys, bp_run (ints [0; 5; 100; 12; -40]) (bp_new c) = Ok ys /\ same ys (ints [0; 5; 5; 12; 12]) = true) /\
  bp_run (ints [0; 100; 100; 100; 100]) (bp_new c) = Halt.
Proof. split; [repeat constructor; vm_compute; reflexivity|]. split; [apply ok_test; vm_compute; reflexivity|vm_compute; reflexivity]. Qed.

Lemma bounded_int n : (Z.abs n <= 2 ^ 24)%Z -> bounded 125 (f_ofZ n).
Proof.
  intros H. destruct (ofZ_exact n H) as [E F]. split; [exact F|]. rewrite E, <- abs_IZR. apply Rle_trans with (IZR (2 ^ 24)); [apply IZR_le, H|]. change (IZR (2 ^ 24)) with (bpow radix2 24). apply bpow_le. lia.
Qed.
Definition demo_map : mapped := mkMap (f_ofZ 0) (f_ofZ 10) (f_ofZ (-50)) (f_ofZ 150) false f_zero.
Lemma demo_map_ok : mr_ok demo_map.
Proof.
  unfold mr_ok, demo_map. cbn [mr_ilo mr_ihi mr_olo mr_ohi].
  split; [now apply bounded_int|]. split; [now apply bounded_int|]. split; [now apply bounded_int|]. split; [now apply bounded_int|]. split; vm_compute; reflexivity.
Qed.
(** C45: larger samples give larger outputs, for limits up to 2^125 in absolute value *)
Theorem C45_monotone_partial : forall f s t, mr_ok f -> mr_throw f = false -> f_le s t = true ->
  exists y z f1 f2, mapped_value s f = Ok (y, f1) /\ mapped_value t f = Ok (z, f2) /\ f_le y z = true.
Proof. exact mapped_mono_thm. Qed.
Print Assumptions C45_monotone_partial.
Example C45_monotone_case : mr_ok demo_map /\ exists p q, mapped_value (f_ofZ 3) demo_map = Ok p /\ mapped_value (f_ofZ 7) demo_map = Ok q /\
  f_lt (fst p) (fst q) = true.
Proof.
  split; [exact demo_map_ok|]. edestruct (ok_test (mapped_value (f_ofZ 3) demo_map) (fun p => f_lt (fst p) (f_ofZ 20))) as (p & Hp & P); [vm_compute; reflexivity|].
  exists p. eexists. split; [exact Hp|]. split; [reflexivity|]. assert (E : mapped_value (f_ofZ 3) demo_map = Ok p) by exact Hp. injection E as <-. vm_compute. reflexivity.
Qed.
(** Where the outputs lie: the upper end is olo + (ohi - olo) in float arithmetic *)
Theorem C45_range_partial : forall f s, mr_ok f -> mr_throw f = false -> f_isnan s = false ->
  exists y f', mapped_value s f = Ok (y, f') /\ f_le (mr_olo f) y = true /\ f_le y (f_add (mr_olo f) (f_sub (mr_ohi f) (mr_olo f))) = true /\
    (f_le s (mr_ilo f) = true -> f_eq y (mr_olo f) = true) /\
    (f_le (mr_ihi f) s = true -> f_eq y (f_add (mr_olo f) (f_sub (mr_ohi f) (mr_olo f))) = true).
Proof. exact mapped_range_thm. Qed.
Print Assumptions C45_range_partial.
Example C45_range_case : f_isnan (f_ofZ 12) = false /\ (exists p, mapped_value (f_ofZ 12) demo_map = Ok p /\ f_eq (fst p) (f_ofZ 150) = true) /\
  exists p, mapped_value (f_ofZ (-3)) demo_map = Ok p /\ f_eq (fst p) (f_ofZ (-50)) = true.
Proof. split; [reflexivity|]. split; apply ok_test; vm_compute; reflexivity. Qed.
(** That is the output range when its width is a float. Missing for C45: other output ranges, limits above 2^125. *)
Theorem C45_inside_partial : forall f s, mr_ok f -> mr_throw f = false -> f_isnan s = false -> fmt (val (mr_ohi f) - val (mr_olo f)) ->
  exists y f', mapped_value s f = Ok (y, f') /\ f_le (mr_olo f) y = true /\ f_le y (mr_ohi f) = true /\
    (f_le s (mr_ilo f) = true -> f_eq y (mr_olo f) = true) /\ (f_le (mr_ihi f) s = true -> f_eq y (mr_ohi f) = true).
Proof. exact mapped_inside_thm. Qed.
Print Assumptions C45_inside_partial.
Example C45_inside_case : fmt (val (mr_ohi demo_map) - val (mr_olo demo_map)) /\ exists p, mapped_value (f_ofZ 5) demo_map = Ok p /\ f_eq (fst p) (f_ofZ 50) = true.
Proof.
  split; [|apply ok_test; vm_compute; reflexivity]. unfold demo_map. cbn [mr_olo mr_ohi].
  destruct (ofZ_exact 150) as [E1 _]; [now vm_compute|]. destruct (ofZ_exact (-50)) as [E2 _]; [now vm_compute|]. rewrite E1, E2, <- minus_IZR.
  destruct (ofZ_exact 200) as [E3 _]; [now vm_compute|]. replace (150 - -50) with 200 by lia. rewrite <- E3. apply val_fmt.
Qed.
Theorem C45_percentage : forall (g : float -> float -> mapped) (n : Z) il ih s,
  (g = percentage /\ n = 100 \/ g = permillage /\ n = 1000) -> bounded 125 il -> bounded 125 ih -> f_lt il ih = true -> f_isnan s = false ->
  exists y f', mapped_value s (g il ih) = Ok (y, f') /\ f_le (f_ofZ 0) y = true /\ f_le y (f_ofZ n) = true /\
    (f_le s il = true -> f_eq y (f_ofZ 0) = true) /\ (f_le ih s = true -> f_eq y (f_ofZ n) = true).
Proof. exact percentage_thm. Qed.
Print Assumptions C45_percentage.
Example C45_percentage_case : bounded 125 (f_ofZ 20) /\ (exists p, mapped_value (f_ofZ 25) (permillage (f_ofZ 20) (f_ofZ 40)) = Ok p /\ f_eq (fst p) (f_ofZ 250) = true).
Proof. split; [now apply bounded_int|]. apply ok_test; vm_compute; reflexivity. Qed.
Example C45_case : mr_ok (percentage (f_ofZ 20) (f_ofZ 40)) /\
  exists p, mapped_value (f_ofZ 25) (percentage (f_ofZ 20) (f_ofZ 40)) = Ok p /\ f_eq (fst p) (f_ofZ 25) = true.
Proof.
  split; [|apply ok_test; vm_compute; reflexivity]. unfold mr_ok. cbn [percentage mr_ilo mr_ihi mr_olo mr_ohi].
  split; [now apply bounded_int|]. split; [now apply bounded_int|]. split; [now apply bounded_int|]. split; [now apply bounded_int|]. split; vm_compute; reflexivity.
Qed.
(** The upper end lies above the output range *)
Theorem C45_above_refuted : exists f s, f_lt (mr_ilo f) (mr_ihi f) = true /\ f_lt (mr_olo f) (mr_ohi f) = true /\ f_eq s (mr_ihi f) = true /\
  exists p, mapped_value s f = Ok p /\ f_lt (mr_ohi f) (fst p) = true.
Proof.
  exists (mkMap (f_ofZ 0) (f_ofZ 1) (f_ofZ (-1)) (f_lit (-1) (2 ^ 30)) false f_zero), (f_ofZ 1).
  split; [vm_compute; reflexivity|]. split; [vm_compute; reflexivity|]. split; [vm_compute; reflexivity|]. apply ok_test. vm_compute. reflexivity.
Qed.
(** A wide input range gives no number *)
Theorem C45_wide_refuted : exists f s, f_lt (mr_ilo f) (mr_ihi f) = true /\ f_lt (mr_olo f) (mr_ohi f) = true /\ finite s = true /\
  exists p, mapped_value s f = Ok p /\ f_isnan (fst p) = true.
Proof.
  exists (mkMap (f_ofZ (- 2 ^ 127)) (f_ofZ (2 ^ 127)) (f_ofZ 0) (f_ofZ 1) false f_zero), (f_ofZ (2 ^ 127)).
  split; [vm_compute; reflexivity|]. split; [vm_compute; reflexivity|]. split; [vm_compute; reflexivity|]. apply ok_test. vm_compute. reflexivity.
Qed.

(** C46 is false: a small sample is lost *)
Theorem C46_twice_refuted : exists s, f_lt (f_ofZ 0) s = true /\ f_lt s (f_ofZ 1) = true /\
  exists p, invert_twice false (f_ofZ 0) (f_ofZ 1) s = Ok p /\ f_eq (snd p) (f_ofZ 0) = true.
Proof. exists (f_lit 1 10000000000). split; [vm_compute; reflexivity|]. split; [vm_compute; reflexivity|]. apply ok_test. vm_compute. reflexivity. Qed.
(** C46 is false: the output can leave the range; in a debug build the second inversion then halts *)
Theorem C46_outside_refuted : exists l u s, f_lt l u = true /\ f_eq s u = true /\
  (exists p, invert_value false s (mkInv l u f_zero) = Ok p /\ f_lt (fst p) l = true) /\ invert_twice true l u s = Halt.
Proof.
  exists (f_lit 1 (2 ^ 30)), (f_ofZ 1), (f_ofZ 1). split; [vm_compute; reflexivity|]. split; [vm_compute; reflexivity|]. split; [|vm_compute; reflexivity]. apply ok_test. vm_compute. reflexivity.
Qed.
(** On a grid of steps 2^e with limits up to 2^22 steps, both hold exactly *)
Theorem C46_grid_partial : forall dbg e l u s a b c, -149 <= e <= 100 -> steps e l a -> steps e u b -> steps e s c ->
  Z.abs a <= 2 ^ 22 -> Z.abs b <= 2 ^ 22 -> a <= c <= b ->
  exists r y, invert_twice dbg l u s = Ok (r, y) /\ f_le l r = true /\ f_le r u = true /\ f_eq y s = true.
Proof. exact invert_grid_thm. Qed.
Print Assumptions C46_grid_partial.
(** Inside the range when its width is a float. Missing for C46: other ranges and samples off a grid. *)
Theorem C46_inside_partial : forall dbg l u s v, bounded 125 l -> bounded 125 u -> fmt (val u - val l) -> f_le l s = true -> f_le s u = true ->
  exists r f, invert_value dbg s (mkInv l u v) = Ok (r, f) /\ f_le l r = true /\ f_le r u = true.
Proof. exact invert_inside_thm. Qed.
Print Assumptions C46_inside_partial.
Example C46_inside_case : exists p, invert_value true (f_ofZ 300) (mkInv (f_ofZ 10) (f_ofZ 1000) f_zero) = Ok p /\ f_eq (fst p) (f_ofZ 710) = true.
Proof. apply ok_test; vm_compute; reflexivity. Qed.
(** In [0, 1], the default, two inversions differ from the sample by at most 2^-24 *)
Theorem C46_error : forall dbg s, f_le (f_ofZ 0) s = true -> f_le s (f_ofZ 1) = true ->
  exists r y, invert_twice dbg (f_ofZ 0) (f_ofZ 1) s = Ok (r, y) /\ finite y = true /\ (Rabs (val y - val s) <= bpow radix2 (-24))%R.
Proof. exact invert_error_thm. Qed.
Print Assumptions C46_error.
Example C46_error_case : exists p, invert_twice true (f_ofZ 0) (f_ofZ 1) (f_lit 1 3) = Ok p /\ f_eq (snd p) (f_lit 1 3) = false /\
  f_lt (f_abs (f_sub (snd p) (f_lit 1 3))) (f_lit 1 (2 ^ 24)) = true.
Proof. 
  destruct (ok_test (invert_twice true (f_ofZ 0) (f_ofZ 1) (f_lit 1 3)) (fun p => negb (f_eq (snd p) (f_lit 1 3)) && f_lt (f_abs (f_sub (snd p) (f_lit 1 3))) (f_lit 1 (2 ^ 24)))) as (p & H & T); [vm_compute; reflexivity|].
  exists p. apply andb_true_iff in T as [T1 T2]. split; [exact H|]. split; [now apply negb_true_iff|exact T2].
Qed.
Example C46_case : (forall n, Z.abs n <= 2 ^ 24 -> steps 0 (f_ofZ n) n) /\
  exists p, invert_twice true (f_ofZ 10) (f_ofZ 1000) (f_ofZ 300) = Ok p /\ f_eq (fst p) (f_ofZ 710) && f_eq (snd p) (f_ofZ 300) = true.
Proof.
  split; [|apply ok_test; vm_compute; reflexivity]. intros n H. destruct (ofZ_exact n H) as [E F]. split; [exact F|]. rewrite E. change (bpow radix2 0) with 1%R. ring.
Qed.

(** C47: the outputs of a stack are those of its filters one after the other, in the order in which they were attached *)
Theorem C47_composition_partial : forall dbg fs xs zs, stack_run dbg (build fs) xs = Ok zs <-> through fs xs = Ok zs.
Proof. exact attached_thm. Qed.
Print Assumptions C47_composition_partial.
Example C47_composition_case : exists ys,
  through [of_mapped (percentage (f_ofZ 0) (f_ofZ 20)); of_ewma (ewma_new (f_ofZ 10))] (ints [10; 30; 0]) = Ok ys /\ same ys (ints [50; 75; 50]) = true.
Proof. apply ok_test. vm_compute. reflexivity. Qed.
Theorem C47_null_skipped : forall xs s zs, stack_run false s xs = Ok zs -> through (present s) xs = Ok zs.
Proof. exact stack_null_thm. Qed.
Print Assumptions C47_null_skipped.
Example C47_null_skipped_case : exists ys,
  stack_run false [None; Some (of_mapped (percentage (f_ofZ 0) (f_ofZ 20))); None] (ints [10; 30; 0]) = Ok ys /\ same ys (ints [50; 100; 0]) = true.
Proof. apply ok_test. vm_compute. reflexivity. Qed.
(** value() then gives the last output, for a stack that ends in one of the five filters (or any with this law) *)
Theorem C47_current_partial : forall dbg s f x y s', lawful f -> stack_value dbg x (s ++ [Some f]) = Ok (y, s') -> stack_current s' = Ok y.
Proof. exact stack_current_thm. Qed.
Print Assumptions C47_current_partial.
Example C47_current_case : exists p, stack_value true (f_ofZ 10) ([Some (passthrough f_zero)] ++ [Some (of_mapped (percentage (f_ofZ 0) (f_ofZ 20)))]) = Ok p /\
  match stack_current (snd p) with Ok y => f_eq y (fst p) && f_eq y (f_ofZ 50) | _ => false end = true.
Proof. apply ok_test. vm_compute. reflexivity. Qed.
Theorem C47_five_lawful : (forall f, lawful (of_ewma f)) /\ (forall f, lawful (of_bandpass f)) /\ (forall dbg f, lawful (of_invert dbg f)) /\
  (forall f, lawful (of_mapped f)) /\ (forall v, lawful (passthrough v)).
Proof. exact (conj lawful_ewma (conj lawful_bandpass (conj lawful_invert (conj lawful_mapped lawful_passthrough)))). Qed.
Print Assumptions C47_five_lawful.
Example C47_five_lawful_case : exists p, run_filter (f_ofZ 25) (of_mapped (percentage (f_ofZ 0) (f_ofZ 100))) = Ok p /\
  f_eq (fst p) (f_ofZ 25) && f_eq (filter_value (snd p)) (f_ofZ 25) = true.
Proof. apply ok_test. vm_compute. reflexivity. Qed.
(** Not for an empty stack: value() is 0. Missing for C47: this. *)
Theorem C47_empty_refuted : exists x y, (exists s', stack_value false x [] = Ok (x, s')) /\ stack_current [] = Ok y /\ y <> x.
Proof.
  exists (f_ofZ 7), (f_ofZ 0). split; [exists []; reflexivity|]. split; [reflexivity|]. apply neq_test. vm_compute. reflexivity.
Qed.
Example C47_case : exists ys,
  stack_run true [Some (of_mapped (percentage (f_ofZ 0) (f_ofZ 20))); Some (of_ewma (ewma_new (f_ofZ 10))); Some (passthrough f_zero)] (ints [10; 30; 0]) = Ok ys /\
  same ys (ints [50; 75; 50]) = true.
Proof. apply ok_test. vm_compute. reflexivity. Qed.

(** C69 is false: mantissa 2 and one decade give a band of about 400 on each side, not 200, with any pow that is right within a
    quarter there. A sample of 300 is passed. *)
Theorem C69_width_refuted : exists m d x, val d = 1%R /\ (val x > val m * (10 * 10))%R /\
  forall pow : float -> float -> float,
  (forall x y, f_eq x (f_ofZ 20) = true -> f_eq y (f_ofZ 2) = true -> finite (pow x y) = true /\ (300 <= val (pow x y) <= 500)%R) ->
  in_band (mkBC ABSOLUTE (bp_width pow m d) (f_ofZ 0) 10 true) (f_ofZ 0) x = true.
Proof.
  exists (f_ofZ 2), (f_ofZ 1), (f_ofZ 300). destruct (ofZ_exact 1) as [E1 _]; [now vm_compute|]. destruct (ofZ_exact 2) as [E2 _]; [now vm_compute|]. destruct (ofZ_exact 300) as [E3 _]; [now vm_compute|].
  split; [exact E1|]. split; [rewrite E2, E3; lra|].
  intros pow H. destruct (H (f_mul (f_ofZ 2) (f_ofZ 10)) (f_add (f_ofZ 1) (f_ofZ 1))) as [F V]; [vm_compute; reflexivity|vm_compute; reflexivity|].
  apply wide_band; [exact F| |reflexivity]. unfold bp_width. lra.
Qed.
Print Assumptions C69_width_refuted.
(** As documented for mantissa 1 *)
Theorem C69_mantissa_one_partial : forall (pow : float -> float -> float) decades, bp_width pow (f_ofZ 1) decades = pow (f_ofZ 10) (f_add decades (f_ofZ 1)).
Proof. intros pow d. unfold bp_width. f_equal. apply B2SF_inj. vm_compute. reflexivity. Qed.
Print Assumptions C69_mantissa_one_partial.
Example C69_case : exists pow : float -> float -> float, forall x y, f_eq x (f_ofZ 20) = true -> f_eq y (f_ofZ 2) = true -> finite (pow x y) = true /\ (300 <= val (pow x y) <= 500)%R.
Proof. exists (fun _ _ => f_ofZ 400). intros x y _ _. destruct (ofZ_exact 400) as [E F]; [now vm_compute|]. split; [exact F|]. rewrite E. lra. Qed.
