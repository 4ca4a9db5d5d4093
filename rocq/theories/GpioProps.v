(** Properties C55, C92 to C95. *)
From Coq Require Import ZArith Reals Lia Lra Bool List.
From Flocq Require Import Core IEEE754.BinarySingleNaN.
From Verif Require Import Base FloatModel FloatFacts UnitModel GpioModel GpioSpec GpioProofs.
Import ListNotations.
Open Scope R_scope.

(** The default increment, 0.1 *)
Definition tenth : float := f_lit 1 10.
(** [x] lies between lo / d and hi / d *)
Definition between (lo hi d : Z) (x : float) : bool := f_lt (f_lit lo d) x && f_lt x (f_lit hi d).
Lemma unit_check x : in_unit x = true -> unit_value x. Proof. apply in_unit_iff. Qed.

(** C55: a fade towards a setpoint in [0, 1] only drives values in [0, 1], from whatever value it starts, NaN and infinities included,
    with whatever increment, and however many rounds it has made. *)
Theorem C55_range : forall rounds v s inc, unit_value s -> Forall unit_value (fst (fade rounds v s inc)).
Proof. exact fade_unit. Qed.
Print Assumptions C55_range.
Example C55_range_case : unit_value (f_lit 97 100) /\ length (fst (fade 20 (f_lit 33 100) (f_lit 97 100) tenth)) = 7%nat.
Proof. split; [apply unit_check |]; vm_compute; reflexivity. Qed.

(** A fade ends when the increment is between 2^-20 and 1. Missing: other increments, see below. *)
Theorem C55_ends_partial : forall v s inc, unit_value v -> unit_value s -> finite inc = true -> bpow radix2 (-20) <= val inc <= 1 ->
  exists n, snd (fade n v s inc) = true.
Proof. exact fade_ends. Qed.
Print Assumptions C55_ends_partial.
Example C55_ends_case : unit_value (f_lit 1 3) /\ snd (fade 3 f_zero (f_lit 1 3) tenth) = false /\ snd (fade 4 f_zero (f_lit 1 3) tenth) = true.
Proof. split; [apply unit_check; vm_compute; reflexivity |]. vm_compute. auto. Qed.
(** For increments between 2^-10 and 1 the last value driven is within two increments of the setpoint. Missing: it need not be the
    setpoint, see below. *)
Theorem C55_last_partial : forall n v s inc vs, unit_value v -> unit_value s -> finite inc = true -> bpow radix2 (-10) <= val inc <= 1 ->
  fade n v s inc = (vs, true) -> vs <> [] /\ Rabs (val (last vs v) - val s) <= 2 * val inc.
Proof. exact fade_close. Qed.
Print Assumptions C55_last_partial.
Example C55_last_case : unit_value (f_lit 33 100) /\ unit_value (f_lit 7 100) /\ finite tenth = true /\ bpow radix2 (-10) <= val tenth <= 1 /\
  let (vs, fin) := fade 20 (f_lit 33 100) (f_lit 7 100) tenth in fin = true /\ f_eq (last vs f_one) f_zero = true.
Proof.
  split; [apply unit_check; vm_compute; reflexivity |]. split; [apply unit_check; vm_compute; reflexivity |]. split; [reflexivity |]. split; [| vm_compute; auto].
  assert (val tenth = IZR 13421773 * bpow radix2 (-27)) as ->.
  { transitivity (SF2R radix2 (B2SF tenth)); [symmetry; apply SF2R_B2SF |].
    assert (B2SF tenth = SpecFloat.S754_finite false 13421773 (-27)) as -> by (vm_compute; reflexivity). reflexivity. }
  change (bpow radix2 (-10)) with (/ IZR 1024). change (bpow radix2 (-27)) with (/ IZR 134217728). lra.
Qed.
(** With an increment of 2^-e, a start and a setpoint that are multiples of it, exactly the multiples on the way are driven, the setpoint last. *)
Theorem C55_exact_partial : forall e v s inc a b rounds, (0 <= e <= 20)%Z -> is_step e v a -> is_step e s b -> is_step e inc 1 ->
  (0 <= a <= 2 ^ e)%Z -> (0 <= b <= 2 ^ e)%Z -> (Z.to_nat (Z.abs (b - a)) <= rounds)%nat ->
  exists vs, fade rounds v s inc = (vs, true) /\ Forall2 (is_step e) vs (if (a =? b)%Z then [b] else path a b).
Proof. exact fade_steps. Qed.
Print Assumptions C55_exact_partial.
Example C55_exact_case : path 7 4 = [6; 5; 4]%Z /\ path 1 3 = [2; 3]%Z /\
  fade 3 (f_lit 7 8) (f_lit 4 8) (f_lit 1 8) = ([f_lit 6 8; f_lit 5 8; f_lit 4 8], true).
Proof.
  split; [reflexivity |]. split; [reflexivity |].
  assert (E : List.map B2SF (fst (fade 3 (f_lit 7 8) (f_lit 4 8) (f_lit 1 8))) = List.map B2SF [f_lit 6 8; f_lit 5 8; f_lit 4 8]) by (vm_compute; reflexivity).
  assert (F : snd (fade 3 (f_lit 7 8) (f_lit 4 8) (f_lit 1 8)) = true) by (vm_compute; reflexivity).
  destruct (fade 3 _ _ _) as [vs fin]. cbn [fst snd] in *. subst fin. f_equal. revert E. generalize [f_lit 6 8; f_lit 5 8; f_lit 4 8] as ws.
  induction vs as [| v vs IH]; intros [| w ws] E; try discriminate; [reflexivity |]. cbn [List.map] in E. injection E as E1 E2. f_equal; [now apply B2SF_inj | now apply IH].
Qed.
(** With the default increment a fade from 0 to 0.5 ends at 0.6, from 1 to 0.5 at 0.4 and from 0 to 0.25 at 0.4. *)
Theorem C55_setpoint_refuted : exists v1 s1 v2 s2 v3 s3, v1 = f_zero /\ s1 = f_lit 5 10 /\ v2 = f_one /\ s2 = f_lit 5 10 /\ v3 = f_zero /\ s3 = f_lit 25 100 /\
  (let (vs, fin) := fade 20 v1 s1 tenth in fin = true /\ between 59 61 100 (last vs v1) = true) /\
  (let (vs, fin) := fade 20 v2 s2 tenth in fin = true /\ between 39 41 100 (last vs v2) = true) /\
  (let (vs, fin) := fade 20 v3 s3 tenth in fin = true /\ between 39 41 100 (last vs v3) = true).
Proof. exists f_zero, (f_lit 5 10), f_one, (f_lit 5 10), f_zero, (f_lit 25 100). do 6 (split; [reflexivity |]). vm_compute. auto 10. Qed.
Print Assumptions C55_setpoint_refuted.
(** With an increment of a billionth a fade from 0 to 1 never ends: 1 less the increment is 1 again. *)
Theorem C55_tiny_refuted : exists inc, inc = f_lit 1 1000000000 /\ forall rounds, snd (fade rounds f_zero f_one inc) = false.
Proof.
  exists (f_lit 1 1000000000). split; [reflexivity |]. apply fade_stuck; [vm_compute; reflexivity | vm_compute; reflexivity |]. apply B2SF_inj. vm_compute. reflexivity.
Qed.
Print Assumptions C55_tiny_refuted.
(** Nor does it end with a negative increment. *)
Lemma c55_negative : exists inc, inc = f_lit (-1) 10 /\ forall rounds, snd (fade rounds f_zero f_one inc) = false.
Proof.
  exists (f_lit (-1) 10). split; [reflexivity |]. intros rounds. unfold fade. cbv zeta.
  replace (f_lt (fade_diff f_zero f_one (f_lit (-1) 10)) (f_lit (-1) 10)) with false by (vm_compute; reflexivity).
  replace (f_gt f_zero f_one) with false by (vm_compute; reflexivity). apply loop_negative; [reflexivity | | left; vm_compute; reflexivity | vm_compute; reflexivity].
  assert (L : f_lt (f_lit (-1) 10) f_zero = true) by (vm_compute; reflexivity). rewrite lt_val in L by reflexivity. apply Rlt_le. change 0 with (val f_zero). revert L. case Rlt_bool_spec; [auto | discriminate].
Qed.
Theorem C55_negative_refuted : exists inc, inc = f_lit (-1) 10 /\ forall rounds, snd (fade rounds f_zero f_one inc) = false.
Proof. exact c55_negative. Qed.
Print Assumptions C55_negative_refuted.
(** With an increment of zero nothing is driven, and value() tells the setpoint nevertheless. *)
Theorem C55_zero_refuted : exists a, fade_to false 9 new_aout f_one f_zero = Ok a /\ shown a = f_one /\ out a = [].
Proof.
  assert (E : fst (fade 9 f_zero f_one f_zero) = [] /\ snd (fade 9 f_zero f_one f_zero) = true) by (vm_compute; auto).
  exists (mkAout f_one []). split; [| auto]. apply (fade_to_ok false 9 new_aout f_one f_zero []); [apply unit_check; vm_compute; reflexivity |].
  change (shown new_aout) with f_zero. destruct (fade 9 f_zero f_one f_zero). cbn in E. destruct E as [-> ->]. reflexivity.
Qed.
Print Assumptions C55_zero_refuted.

(** C92: the values driven by one fade differ by at most the increment, up to rounding, unless the fade jumps to its setpoint at once,
    which it does over at most one and a half increments. Missing: a jump may exceed the increment, and so may the first step of a
    fade that follows another one, see below. *)
Theorem C92_smooth_partial : forall n v s inc vs, unit_value v -> unit_value s -> finite inc = true -> bpow radix2 (-20) <= val inc <= 1 ->
  fade n v s inc = (vs, true) ->
  smooth (val inc + bpow radix2 (-25)) (val v) vs \/ vs = [s] /\ Rabs (val s - val v) <= 3 / 2 * val inc + 4 * bpow radix2 (-24).
Proof. exact fade_smooth. Qed.
Print Assumptions C92_smooth_partial.
Example C92_smooth_case : unit_value (f_lit 33 100) /\ unit_value (f_lit 7 100) /\ snd (fade 20 (f_lit 33 100) (f_lit 7 100) tenth) = true /\
  length (fst (fade 20 (f_lit 33 100) (f_lit 7 100) tenth)) = 4%nat.
Proof. split; [apply unit_check; vm_compute; reflexivity |]. split; [apply unit_check; vm_compute; reflexivity |]. vm_compute. auto. Qed.
(** An increment of 0.03 jumps from 0 to 0.044 at once. *)
Theorem C92_jump_refuted : exists inc s, inc = f_lit 3 100 /\ s = f_lit 44 1000 /\ unit_value s /\ fade 9 f_zero s inc = ([s], true).
Proof.
  exists (f_lit 3 100), (f_lit 44 1000). split; [reflexivity |]. split; [reflexivity |]. split; [apply unit_check; vm_compute; reflexivity |].
  unfold fade. cbv zeta. replace (f_lt (fade_diff f_zero (f_lit 44 1000) (f_lit 3 100)) (f_lit 3 100)) with true by (vm_compute; reflexivity). reflexivity.
Qed.
Print Assumptions C92_jump_refuted.
(** After a fade from 0 to 0.5, which left the output at 0.6, a fade to 0.46 jumps there at once: by 0.14 with increments of 0.1. *)
Theorem C92_second_fade_refuted : exists s1 s2, s1 = f_lit 5 10 /\ s2 = f_lit 46 100 /\
  match arun true 20 new_aout [AFade s1 tenth; AFade s2 tenth] with
  | Ok (mkAout _ (w2 :: w1 :: _)) => between 45 47 100 w2 = true /\ between 59 61 100 w1 = true
  | _ => False
  end.
Proof. exists (f_lit 5 10), (f_lit 46 100). split; [reflexivity |]. split; [reflexivity |]. vm_compute. auto. Qed.
Print Assumptions C92_second_fade_refuted.

(** C93: after any calls through AnalogueOutput on the multiples of 2^-e, with fades by increments of 2^-e, value() is the value
    asked for last and the value driven last. Missing: other increments, and set_value called on the output itself, see below. *)
Lemma c93_grid : forall dbg e os ks rounds, (0 <= e <= 20)%Z -> (Z.to_nat (2 ^ e) <= rounds)%nat -> Forall2 (grid_op e) os ks -> os <> [] ->
  exists a w r, arun dbg rounds new_aout os = Ok a /\ out a = w :: r /\ is_step e (shown a) (last ks 0%Z) /\ is_step e w (last ks 0%Z).
Proof.
  intros dbg e os ks rounds E F G N. assert (0 < 2 ^ e)%Z by (apply Z.pow_pos_nonneg; lia).
  destruct (grid_run dbg rounds e os E F ks new_aout 0 G) as (a & A & S & T); [split; [reflexivity |]; change (val (shown new_aout)) with 0; ring | lia |].
  destruct (T N) as (w & r & O & W). exists a, w, r. auto.
Qed.
Theorem C93_value_partial : forall dbg e os ks rounds, (0 <= e <= 20)%Z -> (Z.to_nat (2 ^ e) <= rounds)%nat -> Forall2 (grid_op e) os ks -> os <> [] ->
  exists a w r, arun dbg rounds new_aout os = Ok a /\ out a = w :: r /\ is_step e (shown a) (last ks 0%Z) /\ is_step e w (last ks 0%Z).
Proof. exact c93_grid. Qed.
Print Assumptions C93_value_partial.
Lemma lit8 k : (0 <= k <= 8)%Z -> is_step 3 (f_lit k 8) k.
Proof.
  intros K. assert (k = 0 \/ k = 1 \/ k = 2 \/ k = 3 \/ k = 4 \/ k = 5 \/ k = 6 \/ k = 7 \/ k = 8)%Z as C by lia.
  destruct (ofZ_exact k) as [A F]; [lia |]. destruct (ofZ_exact 8) as [B G]; [vm_compute; discriminate |].
  assert (Q : fmt (IZR k / 8)) by (change (IZR k / 8) with (IZR k * bpow radix2 (-3)); apply FilterProofs.fmt_grid; lia).
  destruct (div_val _ _ F G) as [D E]; [rewrite B; lra | | rewrite A, B, rnd_id in D by exact Q; split; [exact E | exact D]].
  rewrite A, B, rnd_id by exact Q. destruct K as [K1 K2]. apply IZR_le in K1, K2. rewrite Rabs_pos_eq by lra.
  apply Rle_lt_trans with (bpow radix2 0); [cbn [bpow]; lra | apply bpow_lt; lia].
Qed.
Example C93_case : Forall2 (grid_op 3) [AFade (f_lit 5 8) (f_lit 1 8); ABase (f_lit 2 8); AFade (f_lit 7 8) (f_lit 1 8)] [5; 2; 7]%Z.
Proof.
  constructor; [apply grid_fade; try apply lit8; lia |]. constructor; [apply grid_set; try apply lit8; lia |].
  constructor; [apply grid_fade; try apply lit8; lia | constructor].
Qed.
(** set_value on the output itself leaves value() at 0: the fade to 0 that follows jumps from 1 to 0 at once. *)
Theorem C93_set_value_refuted : exists a a', imp_set true new_aout f_one = Ok a /\ shown a = f_zero /\ out a = [f_one] /\
  fade_to true 20 a f_zero tenth = Ok a' /\ out a' = [f_zero; f_one].
Proof.
  exists (mkAout f_zero [f_one]), (mkAout f_zero [f_zero; f_one]).
  assert (I : in_unit f_one = true) by (vm_compute; reflexivity). split; [unfold imp_set; rewrite I; reflexivity |]. split; [reflexivity |]. split; [reflexivity |]. split; [| reflexivity].
  apply (fade_to_ok true 20 (mkAout f_zero [f_one]) f_zero tenth [f_zero]); [apply unit_check; reflexivity |]. cbn [shown]. unfold fade. cbv zeta.
  replace (f_lt (fade_diff f_zero f_zero tenth) tenth) with true by (vm_compute; reflexivity). reflexivity.
Qed.
Print Assumptions C93_set_value_refuted.
(** A fade from 0 to 0.5 in steps of 0.1 leaves value() at 0.5 and the output at 0.6. *)
Theorem C93_fade_refuted : exists s, s = f_lit 5 10 /\
  match fade_to true 20 new_aout s tenth with
  | Ok (mkAout v (w :: _)) => f_eq v s = true /\ between 59 61 100 w = true
  | _ => False
  end.
Proof. exists (f_lit 5 10). split; [reflexivity |]. vm_compute. auto. Qed.
Print Assumptions C93_fade_refuted.

(** C94: an Arduino output writes the whole part of value times 2^resolution: a number from 0 to 2^resolution that grows with the value,
    or shrinks with it when the output is active on low. Missing: the largest number is beyond the resolution, see below. *)
Theorem C94_duty_partial : forall low res v, (0 <= res <= 100)%Z -> unit_value v -> exists d, duty low res v = Some d /\ (0 <= d <= 2 ^ res)%Z.
Proof. exact duty_range. Qed.
Print Assumptions C94_duty_partial.
Example C94_duty_case : unit_value (f_lit 1 3) /\ duty true 10 (f_lit 1 3) = Some 682%Z.
Proof. split; [apply unit_check; vm_compute; reflexivity |]. vm_compute. reflexivity. Qed.
Theorem C94_value : forall res v, (0 <= res <= 100)%Z -> unit_value v -> duty false res v = Some (Zfloor (val v * IZR (2 ^ res))).
Proof. exact duty_floor. Qed.
Print Assumptions C94_value.
Example C94_value_case : duty false 10 (f_lit 1 3) = Some 341%Z.
Proof. vm_compute. reflexivity. Qed.
Theorem C94_monotone : forall low res v w d e, (0 <= res <= 100)%Z -> unit_value v -> unit_value w -> val v <= val w ->
  duty low res v = Some d -> duty low res w = Some e -> if low then (e <= d)%Z else (d <= e)%Z.
Proof. exact duty_mono. Qed.
Print Assumptions C94_monotone.
Example C94_case : unit_value (f_lit 3 10) /\ duty false 8 (f_lit 3 10) = Some 76%Z /\ duty true 8 (f_lit 3 10) = Some 179%Z /\ duty true 12 (f_lit 9 10) = Some 409%Z.
Proof. split; [apply unit_check; vm_compute; reflexivity |]. vm_compute. auto. Qed.
(** At 8 bits full scale is written as 256, one more than 8 bits hold; an output that is active on low is switched off that way. *)
Theorem C94_full_scale_refuted : exists v w, v = f_one /\ w = f_zero /\ duty false 8 v = Some 256%Z /\ duty true 8 w = Some 256%Z.
Proof. exists f_one, f_zero. do 2 (split; [reflexivity |]). vm_compute. auto. Qed.
Print Assumptions C94_full_scale_refuted.

(** C95: a reading of an analogue input of 10 bits is exactly the raw number by 1024, so in [0, 1). *)
Lemma c95_read : forall raw, (0 <= raw < 1024)%Z -> finite (analogue_read raw) = true /\ val (analogue_read raw) = IZR raw / 1024 /\ 0 <= val (analogue_read raw) < 1.
Proof.
  intros raw R. destruct (read_value raw) as [F V]; [lia |]. split; [exact F |]. split; [exact V |]. rewrite V. destruct R as [R1 R2]. apply IZR_le in R1. apply IZR_lt in R2. lra.
Qed.
Theorem C95_read : forall raw, (0 <= raw < 1024)%Z -> finite (analogue_read raw) = true /\ val (analogue_read raw) = IZR raw / 1024 /\ 0 <= val (analogue_read raw) < 1.
Proof. exact c95_read. Qed.
Print Assumptions C95_read.
Example C95_case : f_eq (analogue_read 768) (f_lit 3 4) = true.
Proof. vm_compute. reflexivity. Qed.
