(** Properties C50, C73 to C78: units with real values, compound units and temperatures (structure/units). *)
From Coq Require Import ZArith Bool Reals Lra Lia List.
From Flocq Require Import Core IEEE754.BinarySingleNaN.
From Verif Require Import Base FloatModel FloatFacts KTimeModel UnitModel UnitSpec UnitProofs.
Import ListNotations.
Open Scope R_scope.

(** C50. Sums and differences in the same units: the quotients' sum and difference up to rounding. *)
Theorem C50_sum_partial : forall nt dt a b, sane a -> sane b ->
  Rabs (quotient (cadd nt dt nt dt a b) - (quotient a + quotient b)) <= 4 / IZR (2 ^ 24) * (Rabs (quotient a) + Rabs (quotient b)) /\
  Rabs (quotient (csub nt dt nt dt a b) - (quotient a - quotient b)) <= 4 / IZR (2 ^ 24) * (Rabs (quotient a) + Rabs (quotient b)).
Proof. exact (fun nt dt a b A B => conj (add_same nt dt a b A B) (sub_same nt dt a b A B)). Qed.
Print Assumptions C50_sum_partial.

(** In different units the right operand is converted first *)
Theorem C50_sum_units_partial : forall nt dt no do a b, sane a -> fits nt dt no do b -> sane (cconv nt dt no do b) ->
  let b' := quotient b * (factor no / factor nt / (factor do / factor dt)) in
  Rabs (quotient (cadd nt dt no do a b) - (quotient a + b')) <= 12 / IZR (2 ^ 24) * (Rabs (quotient a) + Rabs b') /\
  Rabs (quotient (csub nt dt no do a b) - (quotient a - b')) <= 12 / IZR (2 ^ 24) * (Rabs (quotient a) + Rabs b').
Proof. exact (fun nt dt no do a b A F B => conj (add_units nt dt no do a b A F B) (sub_units nt dt no do a b A F B)). Qed.
Print Assumptions C50_sum_units_partial.

(** Whole parts up to 2048: no error at all *)
Theorem C50_sum_whole : forall nt dt a b an ad bn bd, whole 11 (num a) an -> whole 11 (den a) ad -> whole 11 (num b) bn -> whole 11 (den b) bd ->
  ad <> 0%Z -> bd <> 0%Z ->
  quotient (cadd nt dt nt dt a b) = quotient a + quotient b /\ quotient (csub nt dt nt dt a b) = quotient a - quotient b.
Proof. exact whole_compound. Qed.
Print Assumptions C50_sum_whole.
Example C50_sum_whole_case : match craw (cadd Milli Unity Milli Unity (mkCu (f_ofZ 600) (f_ofZ 30)) (mkCu (f_ofZ 300) (f_ofZ 60))) with Ok r => f_eq r (f_ofZ 25) | _ => false end = true.
Proof. vm_compute. reflexivity. Qed.

(** Negation, scaling and raw() *)
Theorem C50_scale : forall c, sane c ->
  quotient (cneg c) = - quotient c /\ (forall s, part s -> within 2 (quotient (cscale c s)) (quotient c * val s)) /\
  (forall s, part s -> val s <> 0 -> exists c', cdiv_scalar c s = Ok c' /\ within 2 (quotient c') (quotient c / val s)) /\
  (exists r, craw c = Ok r /\ finite r = true /\ within 2 (val r) (quotient c)).
Proof.
  intros c S. split; [apply neg_quotient |]. split; [intros s; apply scale_quotient; exact S |]. split; [intros s; apply div_quotient; exact S |].
  destruct (raw_val c S) as (r & E & F & _ & W). exists r. auto.
Qed.
Print Assumptions C50_scale.
Example C50_scale_case : match craw (mkCu (f_ofZ 600) (f_ofZ 30)) with Ok r => f_eq r (f_ofZ 20) | _ => false end = true /\
  match cdiv_scalar (mkCu (f_ofZ 600) (f_ofZ 30)) (f_ofZ 4) with Ok c => match craw c with Ok r => f_eq r (f_ofZ 5) | _ => false end | _ => false end = true.
Proof. split; vm_compute; reflexivity. Qed.

(** Division by zero is reported: by raw() for the denominator, by / for the scalar *)
Theorem C50_zero : forall c, val (den c) = 0 -> finite (den c) = true -> craw c = Halt /\ cdiv_scalar c f_zero = Halt.
Proof. intros c Z F. unfold craw. rewrite eq_zero by exact F. rewrite Req_bool_true by exact Z. split; reflexivity. Qed.
Print Assumptions C50_zero.
Example C50_zero_case : craw (mkCu (f_ofZ 7) (f_ofZ 0)) = Halt /\ cdiv_scalar (mkCu (f_ofZ 7) (f_ofZ 2)) f_zero = Halt.
Proof. split; vm_compute; reflexivity. Qed.

(** simplify keeps the quotient (up to rounding) when it answers, and it answers for a numerator that is not negative and a
    denominator of at least one step *)
Theorem C50_simplify_partial : forall sf c, sane c ->
  (forall c', csimplify sf c = Ok c' -> within 3 (quotient c') (quotient c)) /\
  (finite sf = true -> 0 <= val (num c) * val sf <= bpow radix2 63 -> 1 <= val (den c) * val sf <= bpow radix2 63 ->
   exists c', csimplify sf c = Ok c').
Proof.
  intros sf c S. split; [intros c' H; exact (simplify_quotient sf c c' S H) |]. intros F H H'. destruct S as (N & D & _).
  apply simplify_answers; try assumption; [apply N | apply D].
Qed.
Print Assumptions C50_simplify_partial.
Example C50_simplify_case : match csimplify (f_ofZ 10) (mkCu (f_lit 15 10) (f_lit 5 10)) with Ok c => f_eq (num c) (f_lit 3 10) && f_eq (den c) (f_lit 1 10) | _ => false end = true.
Proof. vm_compute. reflexivity. Qed.

(** Whole parts and scaling factor 1: lowest terms, exactly *)
Theorem C50_simplify_whole : forall c n d, whole 24 (num c) n -> whole 24 (den c) d -> (0 <= n)%Z -> (0 < d)%Z ->
  exists c', csimplify (f_ofZ 1) c = Ok c' /\ val (num c') = IZR (n / Z.gcd n d) /\ val (den c') = IZR (d / Z.gcd n d).
Proof. exact simplify_whole. Qed.
Print Assumptions C50_simplify_whole.

(** Kernel-time parts: sum, negation and scaling are exact; the difference is when the right product is at most 2^24; simplify is, and
    gives lowest terms, when no part is negative *)
Theorem C50_kernel_partial : forall a b, kden a <> 0%Z -> kden b <> 0%Z ->
  (forall nt dt, kquot (kcadd nt dt nt dt a b) = kquot a + kquot b) /\
  (forall nt dt, (Z.abs (knum b * kden a) <= 2 ^ 24)%Z -> kquot (kcsub nt dt nt dt a b) = kquot a - kquot b) /\
  kquot (kcneg a) = - kquot a /\ (forall s, kquot (kcscale a s) = kquot a * IZR s) /\
  ((0 <= knum a < 2 ^ 63)%Z -> (0 < kden a < 2 ^ 63)%Z -> exists c', ksimplify a = Ok c' /\ kquot c' = kquot a /\ Z.gcd (knum c') (kden c') = 1%Z).
Proof.
  intros a b A B. split; [intros; apply kadd_quot; assumption |]. split; [intros; apply ksub_quot; assumption |].
  split; [apply kneg_quot |]. split; [apply kscale_quot | apply ksimplify_quot].
Qed.
Print Assumptions C50_kernel_partial.
Example C50_kernel_case : kcadd MS SEC MS SEC (mkKu 3 4) (mkKu 5 6) = mkKu 38 24 /\ ksimplify (mkKu 38 24) = Ok (mkKu 19 12).
Proof. split; vm_compute; reflexivity. Qed.

(** simplify on a negative flow: the conversion to unsigned long is undefined; on one smaller than the step: reported as a division by
    zero *)
Theorem C50_simplify_refuted : exists sf a b, sane a /\ sane b /\ csimplify sf a = UB /\ csimplify sf b = Halt.
Proof.
  exists (f_ofZ 1000000), (mkCu (f_ofZ (-600)) (f_ofZ 30)), (mkCu (f_lit 1 10000000) (f_lit 1 10000000)).
  assert (P : forall n, (1 <= Z.abs n <= 2 ^ 24)%Z -> part (f_ofZ n)).
  { intros n H. destruct (ofZ_exact n) as [V F]; [lia |]. split; [exact F |]. right. rewrite V, <- abs_IZR. split.
    - apply Rle_trans with 1; [rewrite <- Rinv_1; apply Rinv_le_contravar; [lra | apply IZR_le; now vm_compute] | apply IZR_le; lia].
    - apply IZR_le. apply Z.le_trans with (2 ^ 24)%Z; [lia | now vm_compute]. }
  assert (Q : part (f_lit 1 10000000) /\ val (f_lit 1 10000000) <> 0).
  { assert (E : f_lit 1 10000000 = f_mk 14073749 (-47)) by (apply B2SF_inj; vm_compute; reflexivity). rewrite E.
    destruct (mk_exact 14073749 (-47)) as [V F]; [now vm_compute | lia |]. unfold part. rewrite V. change (bpow radix2 (-47)) with (/ IZR (2 ^ 47)).
    assert (T : 0 < / IZR (2 ^ 47)) by (apply Rinv_0_lt_compat, IZR_lt; reflexivity).
    assert (T' : / IZR (2 ^ 60) <= / IZR (2 ^ 47)) by (apply Rinv_le_contravar; [apply IZR_lt; reflexivity | apply IZR_le; now vm_compute]).
    assert (T2 : / IZR (2 ^ 47) <= 1) by (rewrite <- Rinv_1; apply Rinv_le_contravar; [lra | apply IZR_le; now vm_compute]).
    assert (T3 : 14073749 <= IZR (2 ^ 60)) by (apply IZR_le; now vm_compute).
    split; [split; [exact F |] | nra]. right. rewrite Rabs_pos_eq by nra. split; nra. }
  split; [split; [apply P; lia |]; split; [apply P; lia |]; cbn [UnitModel.den]; rewrite (proj1 (ofZ_exact 30 ltac:(lia))); lra |].
  split; [split; [apply Q |]; split; apply Q |]. split; vm_compute; reflexivity.
Qed.
Print Assumptions C50_simplify_refuted.

(** Kernel times: -6/4 simplifies to a huge positive number, and (0/1) - (16777217/1) is -16777216 *)
Theorem C50_kernel_refuted : exists a b c, ksimplify a = Ok (mkKu 9223372036854775805 2) /\ a = mkKu (-6) 4 /\
  kden b = 1%Z /\ kden c = 1%Z /\ kcsub MS SEC MS SEC b c = mkKu (-16777216) 1 /\ kquot b - kquot c = -16777217.
Proof.
  exists (mkKu (-6) 4), (mkKu 0 1), (mkKu 16777217 1). repeat match goal with |- _ /\ _ => split end; try (vm_compute; reflexivity).
  unfold kquot; cbn [knum kden]. lra.
Qed.
Print Assumptions C50_kernel_refuted.

(** 600 ml in 30 s plus 0.3 l in a minute *)
Example C50_case : csimplify (f_ofZ 1) (mkCu (f_ofZ 600) (f_ofZ 30)) = Ok (mkCu (f_ofZ 20) (f_ofZ 1)) /\
  craw (cadd Milli Unity Milli Unity (mkCu (f_ofZ 600) (f_ofZ 30)) (mkCu (f_ofZ 400) (f_ofZ 20))) = Ok (f_ofZ 40) /\
  whole 11 (f_ofZ 600) 600 /\ whole 11 (f_ofZ 30) 30.
Proof.
  split; [| split; [| split]].
  - unfold csimplify. replace (scale_to_integer _ _) with (@Ok Z 600%Z) by (vm_compute; reflexivity). cbn [bind].
    replace (scale_to_integer _ _) with (@Ok Z 30%Z) by (vm_compute; reflexivity). cbn [bind].
    unfold udiv_scalar. replace (f_eq _ _) with false by (vm_compute; reflexivity). cbn [bind UnitModel.num UnitModel.den].
    f_equal. f_equal; apply B2SF_inj; vm_compute; reflexivity.
  - unfold craw. replace (f_eq _ _) with false by (vm_compute; reflexivity). f_equal. apply B2SF_inj; vm_compute; reflexivity.
  - destruct (ofZ_exact 600) as [V F]; [lia |]. split; [exact F | split; [exact V | now vm_compute]].
  - destruct (ofZ_exact 30) as [V F]; [lia |]. split; [exact F | split; [exact V | now vm_compute]].
Qed.

(** C73. Conversion of a real quantity to another unit is exact up to a relative error of 5 * 2^-24 *)
Theorem C73_conversion : forall other this x, converts other this x ->
  finite (uconv this other x) = true /\ within 5 (val (uconv this other x)) (val x * (factor other / factor this)).
Proof.
  intros o t x [F H]. destruct (conv_near o t x F H) as (q & Q & E & FC). split; [exact FC |]. unfold uconv. rewrite E.
  apply (near_within 4); [lia | exact Q].
Qed.
Print Assumptions C73_conversion.

(** Every magnitude is the float nearest to its factor, in the sense of the relative error *)
Theorem C73_magnitudes : forall m, finite (mag_val m) = true /\ within 1 (val (mag_val m)) (factor m).
Proof.
  intros m. split; [apply mag_ok |]. destruct (magnitude_error m) as (e & B & E). unfold within. rewrite E.
  replace (factor m * (1 + e) - factor m) with (e * factor m) by ring. rewrite Rabs_mult. apply Rmult_le_compat_r; [apply Rabs_pos |].
  rewrite u_val in B. unfold Rdiv. rewrite Rmult_1_l. exact B.
Qed.
Print Assumptions C73_magnitudes.
(** 1.2 litre in millilitre *)
Example C73_case : converts Unity Milli (f_lit 12 10) /\ uconv Milli Unity (f_lit 12 10) = f_ofZ 1200.
Proof.
  split; [| apply B2SF_inj; vm_compute; reflexivity].
  assert (E : f_lit 12 10 = f_mk 10066330 (-23)) by (apply B2SF_inj; vm_compute; reflexivity). rewrite E.
  destruct (mk_exact 10066330 (-23)) as [V F]; [now vm_compute | lia |]. split; [exact F |]. right. rewrite V. cbn [factor].
  change (bpow radix2 (-23)) with (/ 8388608). change (10 ^ 3)%Z with 1000%Z.
  assert (B : bpow radix2 (-125) <= 1) by (apply (bpow_le radix2 (-125) 0); lia).
  assert (B' : bpow radix2 11 <= bpow radix2 126) by (apply bpow_le; lia). change (bpow radix2 11) with 2048 in B'.
  rewrite Rabs_pos_eq by lra. lra.
Qed.

(** C74. With both operands in the same unit every operation is the one on the counts *)
Theorem C74_same_unit : forall m x y,
  uconv m m y = y /\ uadd m m x y = f_add x y /\ usub m m x y = f_sub x y /\ umul m m x y = f_mul x y /\
  udiv m m x y = (if f_eq y f_zero then Halt else Ok (f_div x y)) /\
  ult m m x y = f_lt x y /\ ugt m m x y = f_lt y x /\ ule m m x y = f_le x y /\ uge m m x y = f_le y x.
Proof. exact same_unit_ops. Qed.
Print Assumptions C74_same_unit.
Example C74_case : ult Milli Milli (f_lit 1 10) (f_lit 2 10) = true /\ uconv Deci Deci (f_lit 7 10) = f_lit 7 10.
Proof. split; [vm_compute; reflexivity | apply B2SF_inj; vm_compute; reflexivity]. Qed.

(** C75. Conversion keeps the order (any floats, infinities included), and a comparison between units is right whenever the two
    quantities differ by more than 5 * 2^-24 of the right one *)
Theorem C75_order : forall other this x y, f_le x y = true -> f_le (uconv this other x) (uconv this other y) = true.
Proof. exact conv_mono. Qed.
Print Assumptions C75_order.
Example C75_order_case : f_le (uconv Minute Unity (f_ofZ 59)) (uconv Minute Unity (f_ofZ 61)) = true /\ f_lt (uconv Minute Unity (f_ofZ 59)) (f_ofZ 1) = true.
Proof. vm_compute. auto. Qed.
Theorem C75_comparison_partial : forall this other x y, finite x = true -> converts other this y -> val y <> 0 ->
  let y' := val y * (factor other / factor this) in
  Rabs (val x - y') > 5 / IZR (2 ^ 24) * Rabs y' ->
  ult this other x y = Rlt_bool (val x) y' /\ ugt this other x y = Rlt_bool y' (val x) /\
  ule this other x y = Rle_bool (val x) y' /\ uge this other x y = Rle_bool y' (val x).
Proof. intros this other x y Fx [Fy [Z | H]] N; [contradiction |]. exact (compare_units this other x y Fx Fy H). Qed.
Print Assumptions C75_comparison_partial.
(** Closer than that it can be wrong: 61 s is less than 61 s converted to minutes *)
Theorem C75_comparison_refuted : exists x : float, ult Unity Minute x (uconv Minute Unity x) = true \/ ugt Unity Minute x (uconv Minute Unity x) = true.
Proof. exists (f_ofZ 61). vm_compute. auto. Qed.
Print Assumptions C75_comparison_refuted.
Example C75_case : ult Unity Minute (f_ofZ 59) (f_ofZ 1) = true /\ ult Minute Unity (f_ofZ 1) (f_ofZ 59) = false /\ uge Minute Unity (f_ofZ 1) (f_ofZ 60) = true.
Proof. vm_compute. auto. Qed.

(** C76. Compound units in the same units compare as their quotients, up to the rounding of the quotients. Missing: different units,
    where the raw values are compared as they are. *)
Theorem C76_order_partial : forall a b, sane a -> sane b ->
  (clt a b = Ok true -> quotient a < quotient b) /\ (quotient a <= quotient b -> cle a b = Ok true) /\
  (cgt a b = Ok true -> quotient b < quotient a) /\ (quotient b <= quotient a -> cge a b = Ok true).
Proof. exact compound_order. Qed.
Print Assumptions C76_order_partial.
(** 1200 ml in 60 s and 1.2 l in 1 min are the same flow, but compare as 20 and 1.2; 1 l in 1 s compares as less than 2 ml in 1 s *)
Theorem C76_units_refuted :
  (exists a b, val (num a) * factor Milli = 1200 / 1000 /\ val (den a) * factor Unity = 60 /\ Rabs (val (num b) * factor Unity - 12 / 10) <= / 10000000 /\
    val (den b) * factor Minute = 60 /\ ceq a b = Ok false /\ cgt a b = Ok true) /\
  (exists a b, quotient a * (factor Unity / factor Unity) > quotient b * (factor Milli / factor Unity) /\ clt a b = Ok true).
Proof.
  split.
  - exists (mkCu (f_ofZ 1200) (f_ofZ 60)), (mkCu (f_lit 12 10) (f_ofZ 1)). cbn [UnitModel.num UnitModel.den].
    rewrite (proj1 (ofZ_exact 1200 ltac:(lia))), (proj1 (ofZ_exact 60 ltac:(lia))), (proj1 (ofZ_exact 1 ltac:(lia))). cbn [factor]. change (10 ^ 3)%Z with 1000%Z.
    split; [lra |]. split; [lra |]. split.
    { assert (E : f_lit 12 10 = f_mk 10066330 (-23)) by (apply B2SF_inj; vm_compute; reflexivity). rewrite E.
      rewrite (proj1 (mk_exact 10066330 (-23) ltac:(now vm_compute) ltac:(lia))). change (bpow radix2 (-23)) with (/ 8388608). apply Rabs_le. lra. }
    split; [lra |]. split; vm_compute; reflexivity.
  - exists (mkCu (f_ofZ 1) (f_ofZ 1)), (mkCu (f_ofZ 2) (f_ofZ 1)). unfold quotient; cbn [UnitModel.num UnitModel.den].
    rewrite (proj1 (ofZ_exact 2 ltac:(lia))), (proj1 (ofZ_exact 1 ltac:(lia))). cbn [factor]. change (10 ^ 3)%Z with 1000%Z. split; [lra | vm_compute; reflexivity].
Qed.
Print Assumptions C76_units_refuted.
(** Kernel-time parts: the truncated quotients are compared *)
Theorem C76_kernel_refuted : exists a b, kccmp Z.eqb a b = Ok true /\ kquot a <> kquot b.
Proof. exists (mkKu 1 2), (mkKu 1 3). split; [reflexivity |]. unfold kquot; cbn [knum kden]. lra. Qed.
Print Assumptions C76_kernel_refuted.
Example C76_case : clt (mkCu (f_ofZ 300) (f_ofZ 30)) (mkCu (f_ofZ 600) (f_ofZ 30)) = Ok true.
Proof. vm_compute. reflexivity. Qed.

(** C77. A quantity equals its conversion: false by rounding. time_s(61) == time_m(time_s(61)) is false, and == is not symmetric. *)
Theorem C77_equality_refuted : exists x, ueq Unity Minute x (uconv Minute Unity x) = false.
Proof. exists (f_ofZ 61). vm_compute. reflexivity. Qed.
Print Assumptions C77_equality_refuted.
Theorem C77_symmetry_refuted : exists x y, ueq Milli Unity x y = false /\ ueq Unity Milli y x = true.
Proof. exists (f_ofZ 3), (f_mk 12884901 (-32)). vm_compute. auto. Qed.
Print Assumptions C77_symmetry_refuted.
(** What does hold, within one unit: == is exactly "differ by at most 2^-23 of the larger one" (hence reflexive and symmetric), and !=
    is its negation *)
Theorem C77_equality_partial : forall m x y, finite x = true -> finite y = true ->
  (val x = 0 /\ val y = 0 \/ bpow radix2 (-102) <= Rmax (Rabs (val x)) (Rabs (val y)) <= bpow radix2 126) ->
  ueq m m x y = Rle_bool (Rabs (val x - val y)) (/ IZR (2 ^ 23) * Rmax (Rabs (val x)) (Rabs (val y))) /\
  ueq m m y x = ueq m m x y /\ une m m x y = negb (ueq m m x y).
Proof.
  intros m x y Fx Fy H. unfold une, ueq. rewrite !conv_same. rewrite (approx_exact x y Fx Fy H). split; [reflexivity |]. split; [| reflexivity].
  rewrite approx_exact; try assumption; [| rewrite Rmax_comm; tauto]. rewrite Rmax_comm, Rabs_minus_sym. reflexivity.
Qed.
Print Assumptions C77_equality_partial.
(** Between units: quantities that compare equal agree within 8 * 2^-24 *)
Theorem C77_units_partial : forall this other x y, finite x = true -> converts other this y -> val y <> 0 ->
  bpow radix2 (-102) <= Rmax (Rabs (val x)) (Rabs (val (uconv this other y))) <= bpow radix2 126 ->
  ueq this other x y = true -> within 8 (val x) (val y * (factor other / factor this)).
Proof. exact equal_units. Qed.
Print Assumptions C77_units_partial.
Example C77_case : ueq Unity Minute (f_ofZ 120) (f_ofZ 2) = true /\ ueq Unity Unity (f_ofZ 16777215) (f_ofZ 16777214) = true /\ ueq Unity Unity (f_ofZ 16777215) (f_ofZ 16777212) = false.
Proof. vm_compute. auto. Qed.

(** C78. Up to 1000 degrees Celsius to Kelvin is right within 1/10000 degree and back within 1/4096; both conversions keep the order. *)
Theorem C78_kelvin : forall c, finite c = true -> Rabs (val c) <= IZR 1000 ->
  Rabs (val (to_kelvin c) - (val c + 273.15)) <= / 10000 /\ Rabs (val (to_celsius (to_kelvin c)) - val c) <= / 4096.
Proof. exact kelvin_there_and_back. Qed.
Print Assumptions C78_kelvin.
Theorem C78_order : forall a b, finite a = true -> finite b = true -> Rabs (val a) <= bpow radix2 100 -> Rabs (val b) <= bpow radix2 100 ->
  f_le a b = true -> f_le (to_kelvin a) (to_kelvin b) = true /\ f_le (to_celsius a) (to_celsius b) = true.
Proof. exact kelvin_mono. Qed.
Print Assumptions C78_order.
(** 21.5 degrees are 294.65 K, and back *)
Example C78_case : to_kelvin (f_lit 215 10) = f_lit 29465 100 /\ to_celsius (to_kelvin (f_lit 215 10)) = f_lit 215 10.
Proof. split; apply B2SF_inj; vm_compute; reflexivity. Qed.
