(** Property C130: how often a latch switches. *)
From Coq Require Import ZArith List Bool Lia.
From Verif Require Import Base LatchModel LatchSpec LatchProofs WearSpec WearProofs.
Import ListNotations.
Open Scope Z_scope.

(** C130. Between the start number i and the start number j of the load lie j - i times the minimal on and off times, whatever is read.
    Missing: longer uptimes, see C130_starts_refuted. *)
Theorem C130_starts_partial : forall F ltb cfg, sane F cfg -> forall t0 rs, 0 <= t0 -> timely F t0 rs ->
  let out h := response (readings F ltb cfg (latch_new F cfg t0) h) in
  forall i j ti tj, nth_error (starts out rs) i = Some ti -> nth_error (starts out rs) j = Some tj -> (i <= j)%nat ->
  ti <= tj /\ Z.of_nat (j - i) * (min_on F cfg + min_off F cfg) <= tj - ti.
Proof. exact (fun F ltb cfg S t0 rs T0 H => wear_exact F ltb cfg t0 rs S T0 H). Qed.
Print Assumptions C130_starts_partial.
(** At any uptime what is missing is at most the 2^24th part of the times and, for each switching, of the clock. *)
Theorem C130_starts_later_partial : forall F ltb cfg, nonneg F cfg -> forall t0 rs, 0 <= t0 -> rising F t0 rs ->
  let out h := response (readings F ltb cfg (latch_new F cfg t0) h) in
  forall i j ti tj, nth_error (starts out rs) i = Some ti -> nth_error (starts out rs) j = Some tj -> (i <= j)%nat ->
  ti <= tj /\ 2 ^ 24 * (Z.of_nat (j - i) * (min_on F cfg + min_off F cfg) - (tj - ti)) <= Z.of_nat (j - i) * (min_on F cfg + min_off F cfg + 2 * tj).
Proof. exact (fun F ltb cfg S t0 rs T0 H => wear_any F ltb cfg t0 rs S T0 H). Qed.
Print Assumptions C130_starts_later_partial.

(** Readings that swing every 10 ms: a pump with minimal times of 100 and 50 ms *)
Definition pump : config Z := mkConfig Z 30 20 100 0 50 0.
Definition swing : list (Z * Z) := map (fun i => (1000 + 10 * Z.of_nat i, if (i mod 3 =? 0)%nat then 35 else 10)) (seq 0 40).
Example C130_case : sane Z pump /\ timely Z 1000 swing /\
  let out h := response (readings Z Z.ltb pump (latch_new Z pump 1000) h) in starts out swing = [1000; 1150; 1300] /\ changes out [] swing <> [].
Proof.
  split; [unfold sane; cbn; lia|]. split; [unfold swing; cbn [seq map]; repeat (constructor; [cbn; lia|]); constructor|]. vm_compute. split; [reflexivity|discriminate].
Qed.
(** A year after the start, two starts are 4.1 seconds apart instead of 6.1. *)
Definition slow : config Z := mkConfig Z 30 20 3071 0 3071 0.
Theorem C130_starts_refuted : exists rs, sane Z slow /\ rising Z 0 rs /\
  let out h := response (readings Z Z.ltb slow (latch_new Z slow 0) h) in
  exists t1 t2, starts out rs = [t1; t2] /\ t2 - t1 = 4096 /\ 4096 < min_on Z slow + min_off Z slow.
Proof.
  exists [(31536002047, 35); (31536004095, 10); (31536006143, 35)]. split; [unfold sane; cbn; lia|]. split; [repeat (constructor; [lia|]); constructor|].
  exists 31536002047, 31536006143. split; [vm_compute; reflexivity|]. split; [reflexivity|cbn; lia].
Qed.
Print Assumptions C130_starts_refuted.
