(** Property theorems on conversions between real and kernel times (C97). *)
From Coq Require Import ZArith Reals Lia Lra Bool.
From Flocq Require Import Core IEEE754.BinarySingleNaN.
From Verif Require Import Base FloatModel FloatFacts UnitModel UnitProofs ConvModel ConvProofs.
Open Scope R_scope.

(** C97: with the default rounding the kernel time is the least count that is not shorter than the real time *)
Theorem C97_never_shorter : forall x, finite x = true -> - IZR (2 ^ 63) <= val x <= IZR (2 ^ 62) ->
  exists n, to_kernel_time (f_ceil x) = Ok n /\ IZR n - 1 < val x <= IZR n.
Proof. exact (fun x F R => ceil_spec x (conj F R)). Qed.
Print Assumptions C97_never_shorter.
Example C97_never_shorter_case : to_kernel_time (f_ceil (f_lit 15 10)) = Ok 2%Z /\ to_kernel_time (f_ceil (f_lit (-15) 10)) = Ok (-1)%Z /\
  to_kernel_time (f_ceil (f_lit 1 1000)) = Ok 1%Z.
Proof. split; [| split]; vm_compute; reflexivity. Qed.
Theorem C97_floor : forall x, finite x = true -> - IZR (2 ^ 63) <= val x <= IZR (2 ^ 62) ->
  exists n, to_kernel_time (f_floor x) = Ok n /\ IZR n <= val x < IZR n + 1.
Proof. exact (fun x F R => floor_spec x (conj F R)). Qed.
Print Assumptions C97_floor.
Example C97_floor_case : to_kernel_time (f_floor (f_lit 15 10)) = Ok 1%Z /\ to_kernel_time (f_floor (f_lit (-15) 10)) = Ok (-2)%Z.
Proof. split; vm_compute; reflexivity. Qed.
Theorem C97_round : forall x, finite x = true -> - IZR (2 ^ 63) <= val x <= IZR (2 ^ 62) ->
  exists n, to_kernel_time (f_round x) = Ok n /\ Rabs (IZR n - val x) <= / 2.
Proof. exact (fun x F R => round_spec x (conj F R)). Qed.
Print Assumptions C97_round.
Example C97_case : to_kernel_time (f_ceil (f_lit 15 10)) = Ok 2%Z /\ to_kernel_time (f_floor (f_lit (-15) 10)) = Ok (-2)%Z.
Proof. split; vm_compute; reflexivity. Qed.

(** C97: there and back is exact up to 2^24 counts, for each rounding *)
Theorem C97_round_trip_partial : forall n, (Z.abs n <= 2 ^ 24)%Z ->
  to_kernel_time (f_ceil (to_real_time n)) = Ok n /\ to_kernel_time (f_floor (to_real_time n)) = Ok n /\ to_kernel_time (f_round (to_real_time n)) = Ok n.
Proof. exact round_trip. Qed.
Print Assumptions C97_round_trip_partial.
Example C97_round_trip_case : to_kernel_time (f_ceil (to_real_time 86399)) = Ok 86399%Z.
Proof. vm_compute. reflexivity. Qed.
(** C97: the real time differs from the count by at most one part in 2^24 *)
Theorem C97_real_error : forall n, (Z.abs n <= 2 ^ 63)%Z ->
  finite (to_real_time n) = true /\ Rabs (val (to_real_time n) - IZR n) <= bpow radix2 (-24) * Rabs (IZR n).
Proof. exact real_error. Qed.
Print Assumptions C97_real_error.
Example C97_real_error_case : (Z.abs (2 ^ 24 + 1) <= 2 ^ 63)%Z /\ to_real_time (2 ^ 24 + 1) = to_real_time (2 ^ 24).
Proof. split; [lia |]. apply B2SF_inj; vm_compute; reflexivity. Qed.
(** C97: beyond that a count comes back changed, and the default rounding gives a shorter time than the one that went in *)
Theorem C97_round_trip_refuted : exists n m, (0 < n < 2 ^ 25)%Z /\ to_kernel_time (f_ceil (to_real_time n)) = Ok m /\ (m < n)%Z.
Proof. exists (2 ^ 24 + 1)%Z, (2 ^ 24)%Z. split; [lia |]. split; [vm_compute; reflexivity | lia]. Qed.
Print Assumptions C97_round_trip_refuted.
(** C97: the longest kernel time becomes a real time that has no kernel time *)
Theorem C97_longest_refuted : exists n, (0 <= n < 2 ^ 63)%Z /\ to_kernel_time (f_ceil (to_real_time n)) = UB.
Proof. exists (2 ^ 63 - 1)%Z. split; [lia | vm_compute; reflexivity]. Qed.
Print Assumptions C97_longest_refuted.
