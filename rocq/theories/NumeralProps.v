(** Property C127: to_float reads every number. *)
From Coq Require Import List Arith ZArith Bool Reals Lia Lra.
From Flocq Require Import Core IEEE754.BinarySingleNaN.
From Verif Require Import Base FloatModel FloatFacts PidProofs StrModel StrSpec NumeralModel NumeralSpec NumeralProofs.
Import ListNotations.
Open Scope nat_scope.

Local Ltac digits := repeat (apply Forall2_cons; [unfold digit10; lia|]); apply Forall2_nil.

(** A number before a terminator: the nearest float *)
Theorem C127_number_partial : forall v r s x, skipn (off v + Z.to_nat (len v)) (mem v) = nul :: r -> denotes (text v) s x ->
  exists y, NumeralModel.to_float v = Ok y /\ reads_as s x y.
Proof. exact number_right. Qed.
Print Assumptions C127_number_partial.
(** " -12.5E-1" *)
Definition demo : list nat := [32; 45; 49; 50; 46; 53; 69; 45; 49].
Example C127_number_case : denotes demo true (Finite (5 / 4)) /\ skipn 9 (demo ++ [0; 55]) = nul :: [55] /\ text (mkView (demo ++ [0; 55]) 0 9) = demo /\
  exists y, NumeralModel.to_float (mkView (demo ++ [0; 55]) 0 9) = Ok y /\ f_eq y (f_lit (-5) 4) = true.
Proof.
  split; [|split; [reflexivity|split; [reflexivity|apply ok_test; vm_compute; reflexivity]]].
  exists [32], [45], [49; 50; 46; 53; 69; 45; 49]. split; [reflexivity|]. split; [constructor; [left; reflexivity|constructor]|]. split; [constructor|].
  change [49; 50; 46; 53; 69; 45; 49] with ([49; 50; 46; 53] ++ [69; 45; 49]).
  replace (5 / 4)%R with (IZR (positional 10 ([1; 2] ++ [5])%Z) * powerRZ 10 (-1 - Z.of_nat (length [5%Z])))%R.
  2: { change (positional 10 ([1; 2] ++ [5])%Z) with 125%Z. change (-1 - Z.of_nat (length [5%Z]))%Z with (-2)%Z. change (powerRZ 10 (-2)) with (/ (10 ^ 2))%R. replace (10 ^ 2)%R with 100%R by (simpl; lra). lra. }
  apply M_dec.
  - exists [49; 50], [53]. split; [digits|]. split; [digits|]. split; [discriminate|]. left. reflexivity.
  - right. exists 69, [45], true, [49], [1%Z]. split; [reflexivity|]. split; [cbn; auto|]. split; [constructor|]. split; [digits|]. split; [discriminate|reflexivity].
Qed.
(** Infinity, a hexadecimal number, and one beyond all floats *)
Example C127_number_case2 : exists y z w, NumeralModel.to_float (mkView [45; 73; 110; 70; 0] 0 4) = Ok y /\ NumeralModel.to_float (mkView [48; 120; 49; 46; 56; 112; 51; 0] 0 7) = Ok z /\
  NumeralModel.to_float (mkView [49; 101; 51; 57; 0] 0 4) = Ok w /\ f_eq y (f_inf true) = true /\ f_eq z (f_ofZ 12) = true /\ f_eq w (f_inf false) = true.
Proof.
  destruct (ok_test (NumeralModel.to_float (mkView [45; 73; 110; 70; 0] 0 4)) (fun y => f_eq y (f_inf true))) as (y & Y1 & Y2); [vm_compute; reflexivity|].
  destruct (ok_test (NumeralModel.to_float (mkView [48; 120; 49; 46; 56; 112; 51; 0] 0 7)) (fun y => f_eq y (f_ofZ 12))) as (z & Z1 & Z2); [vm_compute; reflexivity|].
  destruct (ok_test (NumeralModel.to_float (mkView [49; 101; 51; 57; 0] 0 4)) (fun y => f_eq y (f_inf false))) as (w & W1 & W2); [vm_compute; reflexivity|].
  exists y, z, w. auto 7.
Qed.

(** Any other text before a terminator: 0 *)
Theorem C127_other_partial : forall v r, skipn (off v + Z.to_nat (len v)) (mem v) = nul :: r -> ~ In nul (text v) -> (forall s x, ~ denotes (text v) s x) ->
  NumeralModel.to_float v = Ok f_zero.
Proof. exact other_zero. Qed.
Print Assumptions C127_other_partial.
(** "1 " is no number: what is in front of the blank would have to end in it *)
Lemma blank_end m x : magnitude m x -> forall m', m <> m' ++ [32].
Proof.
  intros H m' ->. assert (forall P, Forall P (m' ++ [32]) -> P 32) as L by (intros P F; apply Forall_app in F; destruct F as [_ F]; inversion F; assumption).
  assert (Forall (fun c => c <> 32) (m' ++ [32])) as F; [|exact (L _ F eq_refl)].
  assert (forall w t, letters w -> spells w t -> Forall (fun c => c <> 32) t) as Sp. { intros w t Lw F. revert Lw. induction F as [|a c w t C F IH]; intros Lw; inversion Lw; subst; constructor; [lia|auto]. }
  destruct letters_inf as (L1 & L2 & L3).
  assert (forall a b e z, a <> 32 -> b <> 32 -> power [a; b] e z -> Forall (fun c => c <> 32) e) as Pw.
  { intros a b e z Ha Hb [[-> _]|(c & sg & s & d & ds & -> & I & Sg & Fd & _)]; [constructor|]. constructor; [cbn in I; lia|]. apply Forall_app. split.
    - apply signed_chars in Sg. revert Sg. apply Forall_impl. lia.
    - apply digits_chars in Fd. revert Fd. apply Forall_impl. lia. }
  destruct H as [t e ip fp z F P|y t e ip fp z Y F P|t [H|H]|t H|t u H U].
  - apply Forall_app. split; [apply fraction_chars in F; revert F; apply Forall_impl; unfold dchar; lia|exact (Pw 101 69 e z ltac:(lia) ltac:(lia) P)].
  - constructor; [lia|]. constructor; [lia|]. change ([] ++ t ++ e) with (t ++ e). apply Forall_app. split; [|exact (Pw 112 80 e z ltac:(lia) ltac:(lia) P)].
    destruct F as (a & b & Fa & Fb & _ & H). apply digits16_chars in Fa, Fb. destruct H as [->|[-> _]].
    + apply Forall_app. split; [revert Fa; apply Forall_impl; lia|]. constructor; [lia|]. revert Fb. apply Forall_impl. lia.
    + revert Fa. apply Forall_impl. lia.
  - exact (Sp _ _ L1 H).
  - exact (Sp _ _ letters_infinity H).
  - exact (Sp _ _ L3 H).
  - apply Forall_app. split; [exact (Sp _ _ L3 H)|]. constructor; [lia|]. apply Forall_app. split; [revert U; apply Forall_impl; lia|]. constructor; [lia|constructor].
Qed.
Example C127_other_case : (forall s x, ~ denotes [49; 32] s x) /\ NumeralModel.to_float (mkView [49; 32; 0] 0 2) = Ok f_zero.
Proof.
  split; [|vm_compute; reflexivity]. intros s x (bl & sg & m & E & Fb & Sg & M). destruct bl as [|b bl].
  - destruct sg as [|c sg].
    + cbn [app] in E. subst m. exact (blank_end _ _ M [49] eq_refl).
    + inversion Sg; subst; discriminate E.
  - injection E as <- E. inversion Fb as [|? ? B _]; subst. unfold blank in B. lia.
Qed.

(** A text denotes one float *)
Theorem C127_once : forall t s x s' x' y, denotes t s x -> denotes t s' x' -> reads_as s x y -> reads_as s' x' y.
Proof. exact denotes_once. Qed.
Print Assumptions C127_once.
Example C127_once_case : exists y, denotes demo true (Finite (5 / 4)) /\ reads_as true (Finite (5 / 4)) y /\ f_eq y (f_lit (-5) 4) = true.
Proof.
  destruct C127_number_case as (D & B & E & y & Y & T). exists y. split; [exact D|]. split; [|exact T].
  destruct (C127_number_partial (mkView (demo ++ [0; 55]) 0 9) [55] true (Finite (5 / 4)) B) as (z & Z1 & Z2); [rewrite E; exact D|]. rewrite Y in Z1. apply ok_inj in Z1. subst z. exact Z2.
Qed.

(** Texts of larger numbers never give smaller floats *)
Theorem C127_order_partial : forall v w r r' s x s' x', skipn (off v + Z.to_nat (len v)) (mem v) = nul :: r -> skipn (off w + Z.to_nat (len w)) (mem w) = nul :: r' ->
  denotes (text v) s (Finite x) -> denotes (text w) s' (Finite x') -> ((if s then - x else x) <= (if s' then - x' else x'))%R ->
  exists y z, NumeralModel.to_float v = Ok y /\ NumeralModel.to_float w = Ok z /\ f_le y z = true.
Proof. exact order_right. Qed.
Print Assumptions C127_order_partial.
Example C127_order_case : exists y z, NumeralModel.to_float (mkView (demo ++ [0]) 0 9) = Ok y /\ NumeralModel.to_float (mkView [48; 120; 49; 46; 56; 112; 51; 0] 0 7) = Ok z /\ f_le y z = true /\ f_le z y = false.
Proof.
  destruct (ok_test (NumeralModel.to_float (mkView (demo ++ [0]) 0 9)) (fun y => f_le y (f_ofZ 12) && negb (f_le (f_ofZ 12) y))) as (y & Y1 & Y2); [vm_compute; reflexivity|].
  destruct (ok_test (NumeralModel.to_float (mkView [48; 120; 49; 46; 56; 112; 51; 0] 0 7)) (fun z => match B2SF z with SpecFloat.S754_finite false 12582912 (-20) => true | _ => false end)) as (z & Z1 & Z2); [vm_compute; reflexivity|].
  exists y, z. split; [exact Y1|]. split; [exact Z1|].
  assert (z = f_ofZ 12) as ->. { apply B2SF_inj. destruct (B2SF z) as [| | |[|] m e]; try discriminate Z2. assert (m = 12582912%positive /\ e = (-20)%Z) as [-> ->]; [|vm_compute; reflexivity].
    destruct (Pos.eq_dec m 12582912) as [->|N]; [destruct (Z.eq_dec e (-20)) as [->|N]; [auto|]|]; exfalso.
    - revert Z2. clear - N. destruct e as [|p|p]; try discriminate. do 5 (destruct p as [p|p|]; try discriminate). congruence.
    - revert Z2. clear - N. do 24 (destruct m as [m|m|]; try discriminate). congruence. }
  apply andb_true_iff in Y2. destruct Y2 as [A B]. split; [exact A|]. apply negb_true_iff. exact B.
Qed.

(** Without a terminator the characters behind the view are read: "12" in "12e3" is 12000. Missing for C127: such views. *)
Theorem C127_behind_refuted : exists v y, inside v /\ text v = [49; 50] /\ denotes [49; 50] false (Finite 12) /\ NumeralModel.to_float v = Ok y /\ f_eq y (f_ofZ 12000) = true.
Proof.
  destruct (ok_test (NumeralModel.to_float (mkView [49; 50; 101; 51; 0] 0 2)) (fun y => f_eq y (f_ofZ 12000))) as (y & H & T); [vm_compute; reflexivity|].
  exists (mkView [49; 50; 101; 51; 0] 0 2), y. split; [split; cbn; lia|]. split; [reflexivity|]. split; [|exact (conj H T)].
  exists [], [], [49; 50]. split; [reflexivity|]. split; [constructor|]. split; [constructor|]. change [49; 50] with ([49; 50] ++ []).
  replace 12%R with (IZR (positional 10 ([1; 2] ++ [])%Z) * powerRZ 10 (0 - Z.of_nat (@length Z [])))%R by (change (positional 10 ([1; 2] ++ [])%Z) with 12%Z; change (powerRZ 10 (0 - Z.of_nat (@length Z []))) with 1%R; lra). apply M_dec; [|left; auto].
  exists [49; 50], []. split; [digits|]. split; [constructor|]. split; [discriminate|]. right. auto.
Qed.
Print Assumptions C127_behind_refuted.
(** A text with a zero in it is read up to there: "7\0x" is 7 *)
Theorem C127_zero_refuted : exists v r y, inside v /\ skipn (off v + Z.to_nat (len v)) (mem v) = nul :: r /\ (forall s x, ~ denotes (text v) s x) /\ NumeralModel.to_float v = Ok y /\ f_eq y (f_ofZ 7) = true.
Proof.
  destruct (ok_test (NumeralModel.to_float (mkView [55; 0; 120; 0] 0 3)) (fun y => f_eq y (f_ofZ 7))) as (y & H & T); [vm_compute; reflexivity|].
  exists (mkView [55; 0; 120; 0] 0 3), [], y. split; [split; cbn; lia|]. split; [reflexivity|]. split; [|exact (conj H T)]. intros s x D. apply (denotes_nonzero _ _ _ D). right. left. reflexivity.
Qed.
Print Assumptions C127_zero_refuted.
