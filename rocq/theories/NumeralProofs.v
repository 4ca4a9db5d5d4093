(** Lemmas about the reading of numbers. *)
From Coq Require Import List Arith ZArith Bool Reals Lia Lra.
From Flocq Require Import Core IEEE754.BinarySingleNaN.
From Verif Require Import Base FloatModel FloatFacts StreamProofs StrModel StrSpec NumeralModel NumeralSpec.
Import ListNotations.
Open Scope nat_scope.

(** ** Values *)
Lemma fexp_same : SpecFloat.fexp 24 128 = FLT_exp (-149) 24. Proof. reflexivity. Qed.
Lemma round_opp_rnd x : (round radix2 (SpecFloat.fexp 24 128) (round_mode mode_NE) x = rnd x)%R.
Proof. reflexivity. Qed.
Lemma quotient_ok s n d : (0 <= n)%Z -> reads_as s (Finite (IZR n / IZR (Zpos d))) (quotient s n d).
Proof.
  intros Hn. destruct n as [|p|p]; [| |lia].
  - unfold reads_as. replace (0 / IZR (Z.pos d))%R with 0%R by (unfold Rdiv; ring). rewrite rnd_0. rewrite Rlt_bool_true by apply bpow_gt_0. unfold quotient. cbn. split; [reflexivity|]. split; [destruct s; ring|reflexivity].
  - unfold reads_as, quotient. pose proof (Bdiv_correct_aux 24 128 prec24 emax128 mode_NE s p 0 false d 0) as H. generalize (proj1 (Bdiv_correct_aux 24 128 prec24 emax128 mode_NE s p 0 false d 0)). cbv zeta. cbv zeta in H. intros V. destruct H as [_ H].
    set (z := let '(mz, ez, lz) := SpecFloat.SFdiv_core_binary 24 128 (Z.pos p) 0 (Z.pos d) 0 in binary_round_aux 24 128 mode_NE (xorb s false) mz ez lz) in *.
    assert ((@F2R radix2 {| Fnum := SpecFloat.cond_Zopp s (Z.pos p); Fexp := 0 |} / @F2R radix2 {| Fnum := SpecFloat.cond_Zopp false (Z.pos d); Fexp := 0 |})%R = (if s then - (IZR (Z.pos p) / IZR (Z.pos d)) else IZR (Z.pos p) / IZR (Z.pos d))%R) as E.
    { unfold F2R. cbn [Fnum Fexp]. change (bpow radix2 0) with 1%R. rewrite !Rmult_1_r. destruct s; cbn [SpecFloat.cond_Zopp]; [|reflexivity]. rewrite opp_IZR. unfold Rdiv. ring. }
    rewrite round_opp_rnd in H. rewrite E in H. clearbody z.
    set (q := (IZR (Z.pos p) / IZR (Z.pos d))%R) in *. assert (0 <= q)%R as Q by (unfold q; apply Rmult_le_pos; [apply IZR_le; lia|left; apply Rinv_0_lt_compat, IZR_lt; lia]).
    assert (0 <= rnd q)%R as RQ by (rewrite <- rnd_0; apply rnd_le; exact Q).
    assert (rnd (if s then - q else q) = (if s then - rnd q else rnd q))%R as O by (destruct s; [apply rnd_opp|reflexivity]). rewrite O in H.
    assert (Rabs (if s then - rnd q else rnd q) = rnd q)%R as A by (destruct s; rewrite ?Rabs_Ropp; apply Rabs_pos_eq; exact RQ). rewrite A in H. fold big in H.
    rewrite xorb_false_r in H. destruct (Rlt_bool (rnd q) big).
    + destruct H as (H1 & H2 & H3). split; [|split].
      * rewrite <- H2. clear. destruct z; reflexivity.
      * rewrite <- H1. clear. destruct z; reflexivity.
      * rewrite <- H3. clear - H2. destruct z; try reflexivity; discriminate.
    + revert V. rewrite H. intros V. reflexivity.
Qed.
Lemma powerRZ_pos_Z b e : (0 < b)%Z -> (0 <= e)%Z -> powerRZ (IZR b) e = IZR (b ^ e).
Proof.
  intros Hb He. destruct e as [|p|p]; [reflexivity| |lia]. cbn [powerRZ]. rewrite pow_IZR. f_equal. f_equal. apply positive_nat_Z.
Qed.
Lemma scaled_ok s n b e : (0 <= n)%Z -> (0 < b)%Z -> reads_as s (Finite (IZR n * powerRZ (IZR b) e)) (scaled s n b e).
Proof.
  intros Hn Hb. unfold scaled. destruct (Z.leb_spec 0 e) as [H|H].
  - replace (IZR n * powerRZ (IZR b) e)%R with (IZR (n * b ^ e) / IZR 1)%R; [apply quotient_ok; apply Z.mul_nonneg_nonneg; [exact Hn|apply Z.pow_nonneg; lia]|].
    rewrite powerRZ_pos_Z by assumption. rewrite mult_IZR. field.
  - assert (0 < b ^ (- e))%Z as P by (apply Z.pow_pos_nonneg; lia).
    replace (IZR n * powerRZ (IZR b) e)%R with (IZR n / IZR (Z.pos (Z.to_pos (b ^ - e))))%R; [apply quotient_ok; exact Hn|].
    rewrite Z2Pos.id by exact P. rewrite <- powerRZ_pos_Z by lia. unfold Rdiv. f_equal. destruct e as [|p|p]; [lia|lia|]. reflexivity.
Qed.

(** ** Characters *)
Ltac bools := repeat match goal with
  | H : andb _ _ = true |- _ => apply andb_true_iff in H; destruct H
  | H : andb _ _ = false |- _ => apply andb_false_iff in H; destruct H
  | H : orb _ _ = true |- _ => apply orb_true_iff in H; destruct H
  | H : Nat.leb _ _ = true |- _ => apply Nat.leb_le in H
  | H : Nat.leb _ _ = false |- _ => apply Nat.leb_gt in H
  | H : Nat.eqb _ _ = true |- _ => apply Nat.eqb_eq in H
  | H : Nat.eqb _ _ = false |- _ => apply Nat.eqb_neq in H end.
Lemma space_iff c : isspace c = true <-> blank c.
Proof.
  unfold isspace, blank. rewrite existsb_exists. split.
  - intros (x & I & E). bools. subst. simpl in I. lia.
  - intros H. exists c. split; [simpl; lia|apply Nat.eqb_refl].
Qed.
Lemma dec_iff c d : dec c = Some d <-> digit10 c d.
Proof.
  unfold dec, digit10. destruct ((48 <=? c) && (c <=? 57)) eqn:E; bools; (split; [intros HH; try discriminate; assert (d = (Z.of_nat c - 48)%Z) by (injection HH as HH; lia); lia|intros [HH HK]; try lia; f_equal; lia]).
Qed.
Lemma lower_cases c : lower c = c /\ ~ 65 <= c <= 90 \/ lower c = c + 32 /\ 65 <= c <= 90.
Proof. unfold lower. destruct ((65 <=? c) && (c <=? 90)) eqn:E; bools; lia. Qed.
Lemma hex_iff c d : hex c = Some d <-> digit16 c d.
Proof.
  unfold hex, digit16. destruct (dec c) as [x|] eqn:D.
  - pose proof (proj1 (dec_iff c x) D) as D1. split.
    + intros H. left. assert (x = d) by congruence. subst. exact D1.
    + intros [H|H]; [apply dec_iff in H; congruence|]. destruct D1. lia.
  - assert (~ 48 <= c <= 57) as N. { intros N. assert (dec c = Some (Z.of_nat c - 48)%Z) by (apply dec_iff; split; [exact N|reflexivity]). congruence. }
    destruct (lower_cases c) as [[L1 L2]|[L1 L2]]; rewrite L1; match goal with |- context [if ?b then _ else _] => destruct b eqn:E end; bools; (split;
      [intros HH; try discriminate; right; injection HH as HH; lia|intros [[HH _]|HH]; try lia; f_equal; lia]).
Qed.
Lemma lower_is c a : 97 <= a <= 122 -> (lower c =? a) = true <-> c = a \/ c + 32 = a.
Proof. intros H. rewrite Nat.eqb_eq. destruct (lower_cases c) as [[L1 L2]|[L1 L2]]; rewrite L1; lia. Qed.

Lemma f2_length {A B : Type} {P : A -> B -> Prop} {a b} : Forall2 P a b -> length a = length b.
Proof. induction 1; [reflexivity|]. cbn [length]. congruence. Qed.
(** ** Runs of digits *)
Section Run.
Variables (f : nat -> option Z) (digit : nat -> Z -> Prop) (b : Z).
Hypothesis Hf : forall c d, f c = Some d <-> digit c d.
Notation value ds acc := (fold_left (fun a d => (a * b + d)%Z) ds acc).
Lemma run_ok a ds : Forall2 digit a ds -> forall acc c r, f c = None -> run f b acc (a ++ c :: r) = Ok (value ds acc, length a, c :: r).
Proof.
  induction 1 as [|x d a ds H F IH]; intros acc c r N; cbn [app run].
  - rewrite N. reflexivity.
  - rewrite (proj2 (Hf x d) H). rewrite IH by exact N. reflexivity.
Qed.
Lemma run_inv l : forall acc v n r, run f b acc l = Ok (v, n, r) -> exists a ds, l = a ++ r /\ Forall2 digit a ds /\ v = value ds acc /\ n = length a.
Proof.
  induction l as [|c t IH]; intros acc v n r H; [discriminate|]. cbn [run] in H. destruct (f c) as [d|] eqn:E.
  - apply bind_ok in H. destruct H as ([[v' n'] r'] & H1 & H2). destruct (IH _ _ _ _ H1) as (a & ds & A1 & A2 & A3 & A4).
    exists (c :: a), (d :: ds). assert (v' = v /\ S n' = n /\ r' = r) as (-> & <- & ->) by (repeat split; congruence). subst. repeat split. constructor; [apply Hf; exact E|exact A2].
  - exists [], []. assert (v = acc /\ n = 0 /\ r = c :: t) as (-> & -> & ->) by (repeat split; congruence). repeat split. constructor.
Qed.
Lemma run_total l : f 0 = None -> In 0 l -> forall acc, exists v n r, run f b acc l = Ok (v, n, r) /\ In 0 r.
Proof.
  intros N. induction l as [|c t IH]; intros I acc; [destruct I|]. cbn [run]. destruct (f c) as [d|] eqn:E.
  - destruct I as [->|I]; [congruence|]. destruct (IH I (acc * b + d)%Z) as (v & n & r & H & I'). rewrite H. cbn [bind]. eauto.
  - eauto.
Qed.
Lemma value_pos ds : forall acc, (0 <= b)%Z -> (0 <= acc)%Z -> Forall (fun d => 0 <= d)%Z ds -> (0 <= value ds acc)%Z.
Proof. induction ds as [|d ds IH]; intros acc Hb Ha F; [exact Ha|]. inversion F; subst. cbn [fold_left]. apply IH; auto. apply Z.add_nonneg_nonneg; [apply Z.mul_nonneg_nonneg; assumption|assumption]. Qed.
Lemma mantissa_ok t ip fp c r : f 46 = None -> fraction digit t ip fp -> f c = None -> c <> 46 -> mantissa f b (t ++ c :: r) = Ok (Some (positional b (ip ++ fp), length fp, c :: r)).
Proof.
  intros N46 (a & e & Fa & Fe & Ne & Ht) N Nc. unfold mantissa, positional. rewrite fold_left_app.
  destruct Ht as [->|[-> ->]].
  - rewrite <- app_assoc. cbn [app]. rewrite (run_ok a ip Fa 0%Z 46 (e ++ c :: r) N46). cbn [bind Nat.eqb]. rewrite (run_ok e fp Fe _ c r N). cbn [bind].
    rewrite (f2_length Fe). replace (length a + length fp =? 0) with false; [reflexivity|]. symmetry. apply Nat.eqb_neq. intros Z. apply Ne. rewrite (f2_length Fa) in Z. destruct ip, fp; (reflexivity || (cbn in Z; lia)).
  - inversion Fe; subst. rewrite (run_ok a ip Fa 0%Z c r N). cbn [bind]. replace (c =? 46) with false by (symmetry; apply Nat.eqb_neq; exact Nc). cbn [fold_left length].
    replace (length a =? 0) with false; [reflexivity|]. symmetry. apply Nat.eqb_neq. intros Z. apply Ne. rewrite (f2_length Fa) in Z. rewrite app_nil_r. destruct ip; (reflexivity || (cbn in Z; lia)).
Qed.
Lemma mantissa_inv l n k r : mantissa f b l = Ok (Some (n, k, r)) -> exists t ip fp, l = t ++ r /\ fraction digit t ip fp /\ n = positional b (ip ++ fp) /\ k = length fp.
Proof.
  unfold mantissa. intros H. apply bind_ok in H. destruct H as ([[v i] r1] & H1 & H2). destruct (run_inv _ _ _ _ _ H1) as (a & ip & -> & Fa & -> & ->).
  destruct r1 as [|c t]; [discriminate|]. destruct (c =? 46) eqn:E.
  - bools. subst c. apply bind_ok in H2. destruct H2 as ([[m k'] r2] & H2 & H3). destruct (run_inv _ _ _ _ _ H2) as (e & fp & -> & Fe & -> & ->).
    destruct (length a + length e =? 0) eqn:Z; [discriminate|]. bools. injection H3 as <- <- <-. exists (a ++ [46] ++ e), ip, fp. split; [rewrite <- !app_assoc; reflexivity|]. split; [|split; [unfold positional; rewrite fold_left_app; reflexivity|apply (f2_length Fe)]].
    exists a, e. repeat split; auto. intros N. apply app_eq_nil in N. destruct N as [-> ->]. apply f2_length in Fa, Fe. cbn in *. lia.
  - destruct (length a =? 0) eqn:Z; [discriminate|]. bools. injection H2 as <- <- <-. exists a, ip, []. split; [reflexivity|]. split; [|split; [unfold positional; rewrite app_nil_r; reflexivity|reflexivity]].
    exists a, []. repeat split; auto. rewrite app_nil_r. intros ->. apply f2_length in Fa. cbn in *. lia.
Qed.
Lemma mantissa_total l : f 0 = None -> In 0 l -> exists m, mantissa f b l = Ok m /\ forall n k r, m = Some (n, k, r) -> In 0 r.
Proof.
  intros N I. unfold mantissa. destruct (run_total l N I 0%Z) as (v & i & r & -> & Ir). cbn [bind]. destruct r as [|c t]; [destruct Ir|]. destruct (c =? 46) eqn:E.
  - bools. subst c. destruct Ir as [Ir|Ir]; [discriminate|]. destruct (run_total t N Ir v) as (m & k & r' & -> & I'). cbn [bind]. eexists. split; [reflexivity|]. intros n0 k0 r0 H. destruct (_ =? 0); [discriminate|]. injection H as <- <- <-. exact I'.
  - eexists. split; [reflexivity|]. intros n0 k0 r0 H. destruct (i =? 0); [discriminate|]. injection H as <- <- <-. exact Ir.
Qed.
End Run.
Lemma dec_digit0 : dec 0 = None /\ hex 0 = None /\ dec 46 = None /\ hex 46 = None. Proof. repeat split. Qed.

(** ** Signs and exponents *)
Lemma sign_ok sg s c r : signed sg s -> c <> 43 -> c <> 45 -> sign (sg ++ c :: r) = Ok (s, c :: r).
Proof. intros H H1 H2. inversion H; subst; cbn [app sign]; try reflexivity. replace (c =? 45) with false by (symmetry; now apply Nat.eqb_neq). replace (c =? 43) with false by (symmetry; now apply Nat.eqb_neq). reflexivity. Qed.
Lemma sign_inv l s r : sign l = Ok (s, r) -> exists sg, l = sg ++ r /\ signed sg s.
Proof.
  destruct l as [|c t]; [discriminate|]. cbn [sign]. intros H. destruct (c =? 45) eqn:E1; bools; [subst; injection H as <- <-; exists [45]; split; [reflexivity|constructor]|].
  destruct (c =? 43) eqn:E2; bools; injection H as <- <-; [subst; exists [43]|exists []]; split; try reflexivity; constructor.
Qed.
Lemma sign_total l : In 0 l -> exists s r, sign l = Ok (s, r) /\ In 0 r.
Proof.
  destruct l as [|c t]; [intros []|]. intros I. cbn [sign]. destruct (c =? 45) eqn:E1; [|destruct (c =? 43) eqn:E2]; bools; do 2 eexists; (split; [reflexivity|]); auto; destruct I; [subst; lia|assumption|subst; lia|assumption].
Qed.
Lemma exponent_ok e t z r : 97 <= e <= 122 -> power [e; e - 32] t z -> exponent e (t ++ 0 :: r) = Ok (z, 0 :: r).
Proof.
  intros He [[-> ->]|(c & sg & s & a & ds & -> & I & Sg & Fa & Na & ->)].
  - cbn [app exponent]. replace (lower 0 =? e) with false; [reflexivity|]. symmetry. apply Nat.eqb_neq. cbn. lia.
  - cbn [app exponent]. rewrite (proj2 (lower_is c e He)) by (cbn in I; lia).
    destruct a as [|x a]; [contradiction|]. inversion Fa as [|? d ? ds' X1 X2]; subst. rewrite <- app_assoc. cbn [app].
    rewrite (sign_ok sg s x (a ++ 0 :: r) Sg) by (destruct X1; lia). cbn [bind].
    change (x :: a ++ 0 :: r) with ((x :: a) ++ 0 :: r). rewrite (run_ok dec digit10 10 dec_iff (x :: a) (d :: ds') Fa 0%Z 0 r eq_refl). cbn [bind length Nat.eqb]. unfold positional. destruct s; reflexivity.
Qed.
Lemma exponent_inv e l z r : 97 <= e <= 122 -> exponent e l = Ok (z, r) -> exists t, l = t ++ r /\ power [e; e - 32] t z.
Proof.
  intros He. destruct l as [|c t]; [discriminate|]. cbn [exponent]. destruct (lower c =? e) eqn:E.
  - intros H. apply bind_ok in H. destruct H as ([s t'] & H1 & H2). apply bind_ok in H2. destruct H2 as ([[x n] r'] & H2 & H3). destruct (n =? 0) eqn:Z; injection H3 as <- <-.
    + exists []. split; [reflexivity|]. left. auto.
    + apply lower_is in E; [|exact He]. bools. destruct (sign_inv _ _ _ H1) as (sg & -> & Sg). destruct (run_inv dec digit10 10 dec_iff _ _ _ _ _ H2) as (a & ds & -> & Fa & -> & ->).
      exists (c :: sg ++ a). split; [cbn [app]; rewrite <- app_assoc; reflexivity|]. right. exists c, sg, s, a, ds. repeat split; auto; [cbn; lia|intros ->; cbn in Z; lia].
  - intros H. injection H as <- <-. exists []. split; [reflexivity|]. left. auto.
Qed.
Lemma exponent_total e l : 97 <= e <= 122 -> In 0 l -> exists z r, exponent e l = Ok (z, r) /\ In 0 r.
Proof.
  intros He. destruct l as [|c t]; [intros []|]. intros I. cbn [exponent]. destruct (lower c =? e) eqn:E; [|do 2 eexists; split; [reflexivity|exact I]].
  apply lower_is in E; [|exact He]. destruct I as [I|I]; [lia|]. destruct (sign_total t I) as (s & r & -> & Ir). cbn [bind]. destruct (run_total dec 10 r eq_refl Ir 0%Z) as (v & n & r' & -> & Ir'). cbn [bind].
  destruct (n =? 0); do 2 eexists; (split; [reflexivity|]); [right; exact I|exact Ir'].
Qed.

(** ** Words *)
Definition letters (w : list nat) : Prop := Forall (fun a => 97 <= a <= 122) w.
Lemma word_ok w t : letters w -> spells w t -> forall l, word w (t ++ l) = Ok (Some l).
Proof. intros L F. revert L. induction F as [|a c w t H F IH]; intros L l; [reflexivity|]. inversion L; subst. cbn [word app]. rewrite (proj2 (lower_is c a ltac:(assumption)) H). apply IH. assumption. Qed.
Lemma word_inv w l r : letters w -> word w l = Ok (Some r) -> exists t, l = t ++ r /\ spells w t.
Proof.
  intros L. revert l. induction L as [|a w H L IH]; intros l E; cbn [word] in E.
  - injection E as <-. exists []. split; [reflexivity|constructor].
  - destruct l as [|c t]; [discriminate|]. destruct (lower c =? a) eqn:C; [|discriminate]. destruct (IH t E) as (u & -> & F). exists (c :: u). split; [reflexivity|]. constructor; [apply lower_is; assumption|exact F].
Qed.
Lemma word_total w l : letters w -> In 0 l -> exists m, word w l = Ok m /\ forall r, m = Some r -> In 0 r.
Proof.
  intros L. revert l. induction L as [|a w H L IH]; intros l I; cbn [word].
  - eexists. split; [reflexivity|]. intros r E. injection E as <-. exact I.
  - destruct l as [|c t]; [destruct I|]. destruct (lower c =? a) eqn:C; [|eexists; split; [reflexivity|discriminate]]. apply lower_is in C; [|exact H]. destruct I as [I|I]; [lia|]. apply IH. exact I.
Qed.
Lemma alnum_iff c : alnum c = true <-> 48 <= c <= 57 \/ 65 <= c <= 90 \/ 97 <= c <= 122 \/ c = 95.
Proof.
  unfold alnum. destruct (dec c) as [d|] eqn:D.
  - apply dec_iff in D. destruct D. split; [lia|reflexivity].
  - assert (~ 48 <= c <= 57) as N. { intros N. assert (dec c = Some (Z.of_nat c - 48)%Z) by (apply dec_iff; split; [exact N|reflexivity]). congruence. }
    rewrite orb_true_iff, andb_true_iff, Nat.eqb_eq, !Nat.leb_le. destruct (lower_cases c) as [[L1 L2]|[L1 L2]]; rewrite L1; lia.
Qed.
Lemma nan_ok u : Forall (fun c => 48 <= c <= 57 \/ 65 <= c <= 90 \/ 97 <= c <= 122 \/ c = 95) u -> forall l, nan_chars (u ++ 41 :: l) = Ok (Some l).
Proof. induction 1 as [|c u H F IH]; intros l; [reflexivity|]. cbn [nan_chars app]. replace (c =? 41) with false by (symmetry; apply Nat.eqb_neq; lia). rewrite (proj2 (alnum_iff c) H). apply IH. Qed.
Lemma nan_inv l r : nan_chars l = Ok (Some r) -> exists u, l = u ++ 41 :: r /\ Forall (fun c => 48 <= c <= 57 \/ 65 <= c <= 90 \/ 97 <= c <= 122 \/ c = 95) u.
Proof.
  induction l as [|c t IH]; [discriminate|]. cbn [nan_chars]. destruct (c =? 41) eqn:E.
  - bools. intros H. injection H as <-. exists []. subst. split; [reflexivity|constructor].
  - destruct (alnum c) eqn:A; [|discriminate]. intros H. destruct (IH H) as (u & -> & F). exists (c :: u). split; [reflexivity|]. constructor; [apply alnum_iff; exact A|exact F].
Qed.
Lemma nan_total l : In 0 l -> exists m, nan_chars l = Ok m /\ forall r, m = Some r -> In 0 r.
Proof.
  induction l as [|c t IH]; intros I; [destruct I|]. cbn [nan_chars]. destruct (c =? 41) eqn:E.
  - bools. subst c. destruct I as [I|I]; [discriminate|]. eexists. split; [reflexivity|]. intros r H. injection H as <-. exact I.
  - destruct (alnum c) eqn:A; [|eexists; split; [reflexivity|discriminate]]. apply alnum_iff in A. destruct I as [I|I]; [lia|]. apply IH. exact I.
Qed.
Lemma skip_ok bl c r : Forall blank bl -> ~ blank c -> skip_space (bl ++ c :: r) = Ok (c :: r).
Proof.
  intros F N. induction F as [|x bl H F IH]; cbn [app skip_space].
  - destruct (isspace c) eqn:E; [apply space_iff in E; contradiction|reflexivity].
  - rewrite (proj2 (space_iff x) H). exact IH.
Qed.
Lemma skip_inv l r : skip_space l = Ok r -> exists bl, l = bl ++ r /\ Forall blank bl.
Proof.
  induction l as [|c t IH]; [discriminate|]. cbn [skip_space]. destruct (isspace c) eqn:E; intros H.
  - destruct (IH H) as (bl & -> & F). exists (c :: bl). split; [reflexivity|]. constructor; [apply space_iff; exact E|exact F].
  - injection H as <-. exists []. split; [reflexivity|constructor].
Qed.
Lemma skip_total l : In 0 l -> exists r, skip_space l = Ok r /\ In 0 r.
Proof.
  induction l as [|c t IH]; intros I; [destruct I|]. cbn [skip_space]. destruct (isspace c) eqn:E; [|eexists; split; [reflexivity|exact I]]. apply space_iff in E. destruct I as [I|I]; [unfold blank in E; lia|]. apply IH. exact I.
Qed.

(** ** Whole numbers *)
Lemma digits_pos (digit : nat -> Z -> Prop) a ds : (forall c d, digit c d -> (0 <= d)%Z) -> Forall2 digit a ds -> Forall (fun d => 0 <= d)%Z ds.
Proof. intros H. induction 1; constructor; eauto. Qed.
Lemma fraction_pos (digit : nat -> Z -> Prop) b t ip fp : (0 <= b)%Z -> (forall c d, digit c d -> (0 <= d)%Z) -> fraction digit t ip fp -> (0 <= positional b (ip ++ fp))%Z.
Proof. intros Hb H (a & e & Fa & Fe & _). apply value_pos; [exact Hb|lia|]. apply Forall_app. split; [exact (digits_pos _ _ _ H Fa)|exact (digits_pos _ _ _ H Fe)]. Qed.
Lemma digit10_pos c d : digit10 c d -> (0 <= d)%Z. Proof. intros [H ->]. lia. Qed.
Lemma digit16_pos c d : digit16 c d -> (0 <= d)%Z. Proof. unfold digit16, digit10. lia. Qed.
Lemma power_head e t z r : 97 <= e <= 122 -> power [e; e - 32] t z -> exists c u, t ++ 0 :: r = c :: u /\ (c = 0 \/ c = e \/ c = e - 32).
Proof. intros He [[-> ->]|(c & sg & s & a & ds & -> & I & _)]; cbn [app]; eexists; eexists; (split; [reflexivity|]); auto. cbn in I. lia. Qed.
Lemma decimal_ok s t e ip fp z r : fraction digit10 t ip fp -> power [101; 69] e z ->
  decimal_number s (t ++ e ++ 0 :: r) = Ok (Some (scaled s (positional 10 (ip ++ fp)) 10 (z - 1 * Z.of_nat (length fp)), 0 :: r)).
Proof.
  intros F P. destruct (power_head 101 e z r ltac:(lia) P) as (c & u & E & C). unfold decimal_number, numeric. rewrite E.
  rewrite (mantissa_ok dec digit10 10 dec_iff t ip fp c u eq_refl F) by (destruct C as [->|[->| ->]]; (reflexivity || lia)). cbn [bind]. rewrite <- E. rewrite (exponent_ok 101 e z r ltac:(lia) P). reflexivity.
Qed.
Lemma hexadecimal_ok s t e ip fp z r : fraction digit16 t ip fp -> power [112; 80] e z ->
  hex_number s (t ++ e ++ 0 :: r) = Ok (Some (scaled s (positional 16 (ip ++ fp)) 2 (z - 4 * Z.of_nat (length fp)), 0 :: r)).
Proof.
  intros F P. destruct (power_head 112 e z r ltac:(lia) P) as (c & u & E & C). unfold hex_number, numeric. rewrite E.
  rewrite (mantissa_ok hex digit16 16 hex_iff t ip fp c u eq_refl F) by (destruct C as [->|[->| ->]]; (reflexivity || lia)). cbn [bind]. rewrite <- E. rewrite (exponent_ok 112 e z r ltac:(lia) P). reflexivity.
Qed.
Lemma numeric_inv b f e base per s l y r : (numeric b f e base per s l = Ok (Some (y, r))) ->
  exists n k r1 x, mantissa f b l = Ok (Some (n, k, r1)) /\ exponent e r1 = Ok (x, r) /\ y = scaled s n base (x - per * Z.of_nat k).
Proof.
  unfold numeric. intros H. apply bind_ok in H. destruct H as (m & H1 & H2). destruct m as [[[n k] r1]|]; [|discriminate]. apply bind_ok in H2. destruct H2 as ([x r'] & H2 & H3).
  assert (r' = r /\ scaled s n base (x - per * Z.of_nat k) = y) as [-> <-] by (split; congruence). exists n, k, r1, x. auto.
Qed.
Lemma numeric_total b f e base per s l : f 0 = None -> 97 <= e <= 122 -> In 0 l -> exists m, numeric b f e base per s l = Ok m /\ forall y r, m = Some (y, r) -> In 0 r.
Proof.
  intros N He I. unfold numeric. destruct (mantissa_total f b l N I) as (m & -> & M). cbn [bind]. destruct m as [[[n k] r]|]; [|eexists; split; [reflexivity|discriminate]].
  destruct (exponent_total e r He (M _ _ _ eq_refl)) as (z & r' & -> & I'). cbn [bind]. eexists. split; [reflexivity|]. intros y r0 H. assert (r' = r0) as <- by congruence. exact I'.
Qed.
Lemma letters_inf : letters [105; 110; 102] /\ letters [105; 110; 105; 116; 121] /\ letters [110; 97; 110].
Proof. unfold letters. repeat split; repeat constructor; lia. Qed.
Lemma special_inv s l y r : special s l = Ok (Some (y, r)) -> exists t x, l = t ++ r /\ magnitude t x /\ reads_as s x y.
Proof.
  destruct letters_inf as (L1 & L2 & L3). unfold special. intros H. apply bind_ok in H. destruct H as (i & H1 & H2). destruct i as [r1|].
  - apply bind_ok in H2. destruct H2 as (j & H2 & H3). destruct (word_inv _ _ _ L1 H1) as (t & -> & F). injection H3 as <- H3. destruct j as [r2|].
    + subst r2. destruct (word_inv _ _ _ L2 H2) as (t2 & -> & F2). exists (t ++ t2), Infinite. split; [rewrite <- app_assoc; reflexivity|]. split; [|reflexivity]. constructor. right. change [105; 110; 102; 105; 110; 105; 116; 121] with ([105; 110; 102] ++ [105; 110; 105; 116; 121]). apply Forall2_app; assumption.
    + subst r1. exists t, Infinite. split; [reflexivity|]. split; [|reflexivity]. constructor. left. exact F.
  - apply bind_ok in H2. destruct H2 as (n & H2 & H3). destruct n as [r1|]; [|discriminate]. destruct (word_inv _ _ _ L3 H2) as (t & -> & F). destruct r1 as [|c u]; [discriminate|]. destruct (c =? 40) eqn:C.
    + bools. subst c. apply bind_ok in H3. destruct H3 as (q & H3 & H4). injection H4 as <- H4. destruct q as [r2|].
      * subst r2. destruct (nan_inv _ _ H3) as (w & -> & Fw). exists (t ++ [40] ++ w ++ [41]), NotANumber. split; [rewrite <- !app_assoc; reflexivity|]. split; [|reflexivity]. constructor; assumption.
      * subst r. exists t, NotANumber. split; [reflexivity|]. split; [|reflexivity]. constructor. exact F.
    + injection H3 as <- <-. exists t, NotANumber. split; [reflexivity|]. split; [|reflexivity]. constructor. exact F.
Qed.
Lemma special_total s l : In 0 l -> exists m, special s l = Ok m /\ forall y r, m = Some (y, r) -> In 0 r.
Proof.
  destruct letters_inf as (L1 & L2 & L3). intros I. unfold special. destruct (word_total _ l L1 I) as (m & -> & M). cbn [bind]. destruct m as [r1|].
  - destruct (word_total _ r1 L2 (M _ eq_refl)) as (j & -> & J). cbn [bind]. eexists. split; [reflexivity|]. intros y r H. destruct j as [r2|]; injection H as _ <-; [apply (J _ eq_refl)|apply (M _ eq_refl)].
  - destruct (word_total _ l L3 I) as (n & -> & Nn). cbn [bind]. destruct n as [r1|]; [|eexists; split; [reflexivity|discriminate]]. specialize (Nn _ eq_refl). destruct r1 as [|c u]; [destruct Nn|]. destruct (c =? 40) eqn:C.
    + bools. subst c. destruct Nn as [Nn|Nn]; [discriminate|]. destruct (nan_total u Nn) as (q & -> & Q). cbn [bind]. eexists. split; [reflexivity|]. intros y r H. destruct q as [r2|]; injection H as _ <-; [apply (Q _ eq_refl)|right; exact Nn].
    + eexists. split; [reflexivity|]. intros y r H. injection H as _ <-. exact Nn.
Qed.
(** What is read is a number, and is it *)
Lemma strtof_sound l y r : strtof l = Ok (Some (y, r)) -> exists t s x, l = t ++ r /\ denotes t s x /\ reads_as s x y.
Proof.
  unfold strtof. intros H. apply bind_ok in H. destruct H as (l0 & H1 & H2). apply bind_ok in H2. destruct H2 as ([s l1] & H2 & H3).
  destruct (skip_inv _ _ H1) as (bl & -> & Fb). destruct (sign_inv _ _ _ H2) as (sg & -> & Sg).
  assert (exists m x, l1 = m ++ r /\ magnitude m x /\ reads_as s x y) as (m & x & -> & M & R).
  2:{ exists (bl ++ sg ++ m), s, x. split; [rewrite <- !app_assoc; reflexivity|]. split; [|exact R]. exists bl, sg, m. auto. }
  destruct l1 as [|c t]; [discriminate|]. apply bind_ok in H3. destruct H3 as (h & H3 & H4).
  assert (decimal_number s (c :: t) = Ok (Some (y, r)) -> exists m x, c :: t = m ++ r /\ magnitude m x /\ reads_as s x y) as DEC.
  { intros D. apply numeric_inv in D. destruct D as (n & k & r1 & x & D1 & D2 & ->). destruct (mantissa_inv dec digit10 10 dec_iff _ _ _ _ D1) as (t1 & ip & fp & E & F & -> & ->). destruct (exponent_inv 101 _ _ _ ltac:(lia) D2) as (e & -> & P).
    exists (t1 ++ e). eexists. split; [rewrite E, <- app_assoc; reflexivity|]. split; [apply (M_dec t1 e ip fp x F P)|]. replace (x - 1 * Z.of_nat (length fp))%Z with (x - Z.of_nat (length fp))%Z by ring. apply scaled_ok; [exact (fraction_pos digit10 10 _ _ _ ltac:(lia) digit10_pos F)|lia]. }
  destruct h as [[y' r']|].
  - assert (y' = y /\ r' = r) as [-> ->] by (split; congruence). destruct (c =? 48) eqn:C; [|discriminate]. bools. subst c. destruct t as [|x t']; [discriminate|]. destruct (lower x =? 120) eqn:X; [|discriminate]. apply lower_is in X; [|lia].
    apply numeric_inv in H3. destruct H3 as (n & k & r1 & z & D1 & D2 & ->). destruct (mantissa_inv hex digit16 16 hex_iff _ _ _ _ D1) as (t1 & ip & fp & -> & F & -> & ->). destruct (exponent_inv 112 _ _ _ ltac:(lia) D2) as (e & -> & P).
    exists ([48; x] ++ t1 ++ e). eexists. split; [cbn [app]; rewrite <- app_assoc; reflexivity|]. split; [apply (M_hex x t1 e ip fp z ltac:(lia) F P)|]. apply scaled_ok; [exact (fraction_pos digit16 16 _ _ _ ltac:(lia) digit16_pos F)|lia].
  - apply bind_ok in H4. destruct H4 as (d & H4 & H5). destruct d as [[y' r']|].
    + assert (y' = y /\ r' = r) as [-> ->] by (split; congruence). exact (DEC H4).
    + exact (special_inv _ _ _ _ H5).
Qed.
Lemma strtof_total l : In 0 l -> exists m, strtof l = Ok m /\ forall y r, m = Some (y, r) -> In 0 r.
Proof.
  intros I. unfold strtof. destruct (skip_total l I) as (l0 & -> & I0). cbn [bind]. destruct (sign_total l0 I0) as (s & l1 & -> & I1). cbn [bind]. destruct l1 as [|c t]; [destruct I1|].
  assert (exists h, (if c =? 48 then match t with [] => UB | x :: t' => if lower x =? 120 then hex_number s t' else Ok None end else Ok None) = Ok h /\ forall y r, h = Some (y, r) -> In 0 r) as (h & -> & Hh).
  { destruct (c =? 48) eqn:C; [|eexists; split; [reflexivity|discriminate]]. bools. subst c. destruct I1 as [I1|I1]; [discriminate|]. destruct t as [|x t']; [destruct I1|]. destruct (lower x =? 120) eqn:X; [|eexists; split; [reflexivity|discriminate]].
    apply lower_is in X; [|lia]. destruct I1 as [I1|I1]; [lia|]. apply (numeric_total 16 hex 112 2 4 s t' eq_refl ltac:(lia) I1). }
  cbn [bind]. destruct h as [[y0 r0]|]; [eexists; split; [reflexivity|]; intros y r H; injection H as <- <-; exact (Hh _ _ eq_refl)|].
  destruct (numeric_total 10 dec 101 10 1 s (c :: t) eq_refl ltac:(lia) I1) as (d & D & Hd). unfold decimal_number. rewrite D. cbn [bind]. destruct d as [[y0 r0]|]; [eexists; split; [reflexivity|]; intros y r H; injection H as <- <-; exact (Hd _ _ eq_refl)|].
  exact (special_total s _ I1).
Qed.
Lemma digits_chars a ds : Forall2 digit10 a ds -> Forall (fun c => 48 <= c <= 57) a.
Proof. induction 1 as [|c d a ds [H _] F IH]; constructor; assumption. Qed.
Lemma digits16_chars a ds : Forall2 digit16 a ds -> Forall (fun c => 48 <= c) a.
Proof. induction 1 as [|c d a ds H F IH]; constructor; [unfold digit16, digit10 in H; lia|assumption]. Qed.
Definition dchar (c : nat) : Prop := 48 <= c <= 57 \/ c = 46 \/ c = 101 \/ c = 69 \/ c = 43 \/ c = 45.
Lemma signed_chars sg s : signed sg s -> Forall (fun c => c = 43 \/ c = 45) sg.
Proof. intros H. inversion H; repeat constructor; lia. Qed.
Lemma fraction_chars t ip fp : fraction digit10 t ip fp -> Forall dchar t.
Proof.
  intros (a & b & Fa & Fb & _ & H). apply digits_chars in Fa, Fb. assert (forall l, Forall (fun c => 48 <= c <= 57) l -> Forall dchar l) as W by (intros l; apply Forall_impl; unfold dchar; lia).
  destruct H as [->|[-> _]]; auto. apply Forall_app. split; [auto|]. constructor; [unfold dchar; lia|auto].
Qed.
Lemma power_chars e z : power [101; 69] e z -> Forall dchar e.
Proof.
  intros [[-> _]|(c & sg & s & a & ds & -> & I & Sg & Fa & _)]; [constructor|]. constructor; [cbn in I; unfold dchar; lia|]. apply Forall_app. split.
  - apply signed_chars in Sg. revert Sg. apply Forall_impl. unfold dchar. lia.
  - apply digits_chars in Fa. revert Fa. apply Forall_impl. unfold dchar. lia.
Qed.
Lemma power_nonzero a b e z : a <> 0 -> b <> 0 -> power [a; b] e z -> Forall (fun c => c <> 0) e.
Proof.
  intros Ha Hb [[-> _]|(c & sg & s & d & ds & -> & I & Sg & Fd & _)]; [constructor|]. constructor; [cbn in I; lia|]. apply Forall_app. split.
  - apply signed_chars in Sg. revert Sg. apply Forall_impl. lia.
  - apply digits_chars in Fd. revert Fd. apply Forall_impl. lia.
Qed.
Lemma spells_nonzero w t : letters w -> spells w t -> Forall (fun c => c <> 0) t.
Proof. intros L F. revert L. induction F as [|a c w t H F IH]; intros L; inversion L; subst; constructor; [lia|auto]. Qed.
Lemma letters_infinity : letters [105; 110; 102; 105; 110; 105; 116; 121].
Proof. unfold letters. repeat constructor; lia. Qed.
Lemma magnitude_nonzero m x : magnitude m x -> Forall (fun c => c <> 0) m.
Proof.
  destruct letters_inf as (L1 & L2 & L3). intros H. destruct H as [t e ip fp z F P|y t e ip fp z Y F P|t [H|H]|t H|t u H U].
  - apply Forall_app. split; [apply fraction_chars in F; revert F; apply Forall_impl; unfold dchar; lia|apply power_chars in P; revert P; apply Forall_impl; unfold dchar; lia].
  - constructor; [lia|]. constructor; [lia|]. change ([] ++ t ++ e) with (t ++ e). apply Forall_app. split; [|apply (power_nonzero 112 80 e z); (lia || exact P)]. destruct F as (a & b & Fa & Fb & _ & H). apply digits16_chars in Fa, Fb. destruct H as [->|[-> _]].
    + apply Forall_app. split; [revert Fa; apply Forall_impl; lia|]. constructor; [lia|]. revert Fb. apply Forall_impl. lia.
    + revert Fa. apply Forall_impl. lia.
  - exact (spells_nonzero _ _ L1 H).
  - exact (spells_nonzero _ _ letters_infinity H).
  - exact (spells_nonzero _ _ L3 H).
  - apply Forall_app. split; [exact (spells_nonzero _ _ L3 H)|]. constructor; [lia|]. apply Forall_app. split; [revert U; apply Forall_impl; lia|]. constructor; [lia|constructor].
Qed.
Lemma denotes_nonzero t s x : denotes t s x -> ~ In 0 t.
Proof.
  intros (bl & sg & m & -> & Fb & Sg & M) I. apply in_app_or in I. destruct I as [I|I]; [rewrite Forall_forall in Fb; specialize (Fb 0 I); unfold blank in Fb; lia|].
  apply in_app_or in I. destruct I as [I|I]; [apply signed_chars in Sg; rewrite Forall_forall in Sg; specialize (Sg 0 I); lia|]. apply magnitude_nonzero in M. rewrite Forall_forall in M. specialize (M 0 I). lia.
Qed.
Lemma not_decimal s c t : c <> 46 -> dec c = None -> decimal_number s (c :: t) = Ok None.
Proof. intros H1 H2. unfold decimal_number, numeric, mantissa. cbn [run]. rewrite H2. cbn [bind]. replace (c =? 46) with false by (symmetry; now apply Nat.eqb_neq). reflexivity. Qed.
Lemma no_inf t r : spells [110; 97; 110] t -> word [105; 110; 102] (t ++ r) = Ok None.
Proof. intros H. inversion H as [|? c ? ? C]; subst. cbn [app word]. destruct (lower c =? 105) eqn:E; [apply lower_is in E; lia|reflexivity]. Qed.
Lemma read_tail s m x r : magnitude m x -> exists c u, m ++ 0 :: r = c :: u /\ c <> 43 /\ c <> 45 /\ ~ blank c /\
  exists y, reads_as s x y /\
  (h <- (if c =? 48 then match u with [] => UB | x :: t' => if lower x =? 120 then hex_number s t' else Ok None end else Ok None) ;;
   match h with Some q => Ok (Some q) | None => d <- decimal_number s (c :: u) ;; match d with Some q => Ok (Some q) | None => special s (c :: u) end end) = Ok (Some (y, 0 :: r)).
Proof.
  destruct letters_inf as (L1 & L2 & L3). intros H. destruct H as [t e ip fp z F P|y t e ip fp z Y F P|t H|t H|t w H U].
  - assert (Forall dchar (t ++ e)) as D by (apply Forall_app; split; [exact (fraction_chars _ _ _ F)|exact (power_chars _ _ P)]).
    assert (exists c u', t ++ e = c :: u' /\ (48 <= c <= 57 \/ c = 46)) as (c & u' & E & Hc).
    { destruct F as (a & b & Fa & Fb & Ne & [->|[-> ->]]).
      - inversion Fa as [|c ? ? ? [C _]]; subst; cbn [app]; eexists; eexists; (split; [reflexivity|]); lia.
      - inversion Fa as [|c ? ? ? [C _]]; subst; [inversion Fb; subst; contradiction|]. cbn [app]. eexists. eexists. split; [reflexivity|]. lia. }
    exists c, (u' ++ 0 :: r). split; [rewrite E; reflexivity|]. split; [lia|]. split; [lia|]. split; [unfold blank; lia|].
    eexists. split; [apply (scaled_ok s (positional 10 (ip ++ fp)) 10 (z - Z.of_nat (length fp))); [exact (fraction_pos digit10 10 _ _ _ ltac:(lia) digit10_pos F)|lia]|].
    assert ((if c =? 48 then match u' ++ 0 :: r with [] => UB | x :: t' => if lower x =? 120 then hex_number s t' else Ok None end else Ok None) = Ok None) as ->.
    { destruct (c =? 48); [|reflexivity]. rewrite E in D. inversion D as [|? ? _ D']; subst. destruct u' as [|x u'].
      - cbn [app]. reflexivity.
      - cbn [app]. inversion D' as [|? ? X _]; subst. destruct (lower x =? 120) eqn:L; [|reflexivity]. apply lower_is in L; [|lia]. unfold dchar in X. lia. }
    cbn [bind]. change (c :: u' ++ 0 :: r) with ((c :: u') ++ 0 :: r). rewrite <- E, <- app_assoc. rewrite (decimal_ok s t e ip fp z r F P). cbn [bind].
    replace (z - 1 * Z.of_nat (length fp))%Z with (z - Z.of_nat (length fp))%Z by ring. reflexivity.
  - exists 48, (y :: t ++ e ++ 0 :: r). split; [cbn [app]; rewrite <- app_assoc; reflexivity|]. split; [lia|]. split; [lia|]. split; [unfold blank; lia|].
    eexists. split; [apply (scaled_ok s (positional 16 (ip ++ fp)) 2 (z - 4 * Z.of_nat (length fp))); [exact (fraction_pos digit16 16 _ _ _ ltac:(lia) digit16_pos F)|lia]|].
    cbn [Nat.eqb]. rewrite (proj2 (lower_is y 120 ltac:(lia))) by lia. rewrite (hexadecimal_ok s t e ip fp z r F P). reflexivity.
  - assert (exists c u', t = c :: u' /\ (c = 105 \/ c = 73)) as (c & u' & -> & Hc). { destruct H as [H|H]; inversion H as [|? c ? u' C]; subst; exists c, u'; (split; [reflexivity|]); lia. }
    exists c, (u' ++ 0 :: r). split; [reflexivity|]. split; [lia|]. split; [lia|]. split; [unfold blank; lia|]. exists (B754_infinity s). split; [reflexivity|].
    replace (c =? 48) with false by (symmetry; apply Nat.eqb_neq; lia). cbn [bind]. rewrite not_decimal by (destruct Hc; subst c; (lia || reflexivity)). cbn [bind]. unfold special. change (c :: u' ++ 0 :: r) with ((c :: u') ++ 0 :: r).
    destruct H as [H|H].
    + rewrite (word_ok _ _ L1 H). cbn [bind word]. reflexivity.
    + change [105; 110; 102; 105; 110; 105; 116; 121] with ([105; 110; 102] ++ [105; 110; 105; 116; 121]) in H. apply Forall2_app_inv_l in H. destruct H as (t1 & t2 & H1 & H2 & ->). rewrite <- app_assoc. rewrite (word_ok _ _ L1 H1). cbn [bind]. rewrite (word_ok _ _ L2 H2). reflexivity.
  - assert (exists c u', t = c :: u' /\ (c = 110 \/ c = 78)) as (c & u' & -> & Hc). { inversion H as [|? c ? u' C]; subst; exists c, u'; (split; [reflexivity|]); lia. }
    exists c, (u' ++ 0 :: r). split; [reflexivity|]. split; [lia|]. split; [lia|]. split; [unfold blank; lia|]. exists B754_nan. split; [reflexivity|].
    replace (c =? 48) with false by (symmetry; apply Nat.eqb_neq; lia). cbn [bind]. rewrite not_decimal by (destruct Hc; subst c; (lia || reflexivity)). cbn [bind]. unfold special. change (c :: u' ++ 0 :: r) with ((c :: u') ++ 0 :: r).
    rewrite (no_inf _ _ H). cbn [bind]. rewrite (word_ok _ _ L3 H). reflexivity.
  - assert (exists c u', t = c :: u' /\ (c = 110 \/ c = 78)) as (c & u' & -> & Hc). { inversion H as [|? c ? u' C]; subst; exists c, u'; (split; [reflexivity|]); lia. }
    exists c, (u' ++ [40] ++ w ++ 41 :: 0 :: r). split; [cbn [app]; rewrite <- !app_assoc; cbn [app]; rewrite <- app_assoc; reflexivity|]. split; [lia|]. split; [lia|]. split; [unfold blank; lia|]. exists B754_nan. split; [reflexivity|].
    replace (c =? 48) with false by (symmetry; apply Nat.eqb_neq; lia). cbn [bind]. rewrite not_decimal by (destruct Hc; subst c; (lia || reflexivity)). cbn [bind]. unfold special. change (c :: u' ++ [40] ++ w ++ 41 :: 0 :: r) with ((c :: u') ++ [40] ++ w ++ 41 :: 0 :: r).
    rewrite (no_inf _ _ H). cbn [bind]. rewrite (word_ok _ _ L3 H). cbn [bind app]. cbn [Nat.eqb]. rewrite (nan_ok w U). reflexivity.
Qed.
Lemma strtof_complete t s x r : denotes t s x -> exists y, strtof (t ++ 0 :: r) = Ok (Some (y, 0 :: r)) /\ reads_as s x y.
Proof.
  intros (bl & sg & m & -> & Fb & Sg & M). destruct (read_tail s m x r M) as (c & u & E & C1 & C2 & C3 & y & R & T). exists y. split; [|exact R].
  unfold strtof. rewrite <- !app_assoc. rewrite E.
  assert (exists d v, sg ++ c :: u = d :: v /\ ~ blank d) as (d & v & E2 & D). { inversion Sg; subst; cbn [app]; eexists; eexists; (split; [reflexivity|]); (exact C3 || (unfold blank; lia)). }
  rewrite E2, (skip_ok bl d v Fb D). cbn [bind]. rewrite <- E2. rewrite (sign_ok sg s c u Sg C1 C2). cbn [bind]. exact T.
Qed.
Lemma skip_both (A : Type) (l : list A) a : forall b, skipn b (skipn a l) = skipn (a + b) l.
Proof. revert l. induction a as [|a IH]; intros l b; [reflexivity|]. destruct l as [|x l]; [cbn; apply skipn_nil|]. cbn [skipn Nat.add]. apply IH. Qed.
Lemma view_block v r : skipn (off v + Z.to_nat (len v)) (mem v) = nul :: r -> skipn (off v) (mem v) = text v ++ 0 :: r.
Proof.
  intros E. unfold text. rewrite <- (firstn_skipn (Z.to_nat (len v)) (skipn (off v) (mem v))) at 1. f_equal. rewrite skip_both. exact E.
Qed.
Lemma number_right v r s x : skipn (off v + Z.to_nat (len v)) (mem v) = nul :: r -> denotes (text v) s x -> exists y, to_float v = Ok y /\ reads_as s x y.
Proof.
  intros E D. unfold to_float. rewrite (view_block v r E). destruct (strtof_complete _ _ _ r D) as (y & H & R). rewrite H. cbn [bind]. exists y. split; [reflexivity|exact R].
Qed.
Lemma cut_unique (a b c d : list nat) : ~ In 0 a -> ~ In 0 b -> a ++ 0 :: c = b ++ 0 :: d -> a = b.
Proof.
  revert b. induction a as [|x a IH]; intros b Ha Hb E; destruct b as [|y b]; cbn [app] in E; injection E; intros.
  - reflexivity.
  - subst. exfalso. apply Hb. left. reflexivity.
  - subst. exfalso. apply Ha. left. reflexivity.
  - subst. f_equal. apply IH; auto; intros I; [apply Ha|apply Hb]; right; exact I.
Qed.
Lemma other_zero v r : skipn (off v + Z.to_nat (len v)) (mem v) = nul :: r -> ~ In nul (text v) -> (forall s x, ~ denotes (text v) s x) -> to_float v = Ok f_zero.
Proof.
  intros E N D. unfold to_float. rewrite (view_block v r E). destruct (strtof_total (text v ++ 0 :: r)) as (m & H & M); [apply in_or_app; right; left; reflexivity|]. rewrite H. cbn [bind]. destruct m as [[y e]|]; [|reflexivity].
  specialize (M _ _ eq_refl). destruct e as [|c e]; [destruct M|]. destruct (c =? nul) eqn:C; [|reflexivity]. exfalso. apply Nat.eqb_eq in C. unfold nul in C. subst c.
  destruct (strtof_sound _ _ _ H) as (t & s & x & E2 & Dt & _). assert (text v = t) as Et by (apply (cut_unique _ _ _ _ N (denotes_nonzero _ _ _ Dt) E2)). rewrite Et in D. exact (D _ _ Dt).
Qed.
(** What is read never depends on what follows the terminator, and a text denotes one number only *)
Lemma denotes_once t s x s' x' y : denotes t s x -> denotes t s' x' -> reads_as s x y -> reads_as s' x' y.
Proof.
  intros H H' R. destruct (strtof_complete t s x [] H) as (y1 & E1 & R1). destruct (strtof_complete t s' x' [] H') as (y2 & E2 & R2). assert (y1 = y2) as <- by congruence.
  assert (y = y1) as ->; [|exact R2].
  destruct x as [q| |]; cbn [reads_as] in R, R1; [|congruence|congruence]. destruct (Rlt_bool (rnd q) big); [|congruence]. destruct R as (F & V & B), R1 as (F1 & V1 & B1). apply (B2R_Bsign_inj 24 128 y y1 F F1); [exact (eq_trans V (eq_sym V1))|exact (eq_trans B (eq_sym B1))].
Qed.

(** Larger numbers never read as smaller floats *)
Definition real_of (s : bool) (r : R) : R := if s then (- r)%R else r.
Lemma reads_order s r y s' r' y' : (0 <= r)%R -> (0 <= r')%R -> reads_as s (Finite r) y -> reads_as s' (Finite r') y' -> (real_of s r <= real_of s' r')%R -> f_le y y' = true.
Proof.
  intros P P' R R' L. cbn [reads_as] in R, R'. assert (0 <= rnd r)%R as Q by (rewrite <- rnd_0; apply rnd_le; exact P). assert (0 <= rnd r')%R as Q' by (rewrite <- rnd_0; apply rnd_le; exact P').
  assert ((if s then - rnd r else rnd r) <= (if s' then - rnd r' else rnd r'))%R as K.
  { unfold real_of in L. destruct s, s'; rewrite <- ?rnd_opp; apply rnd_le; exact L. }
  destruct (Rlt_bool_spec (rnd r) big) as [B|B], (Rlt_bool_spec (rnd r') big) as [B'|B'].
  - destruct R as (F & V & _), R' as (F' & V' & _). rewrite le_val by assumption. rewrite V, V'. apply Rle_bool_true. exact K.
  - destruct R as (F & V & _). subst y'. destruct s'.
    + exfalso. destruct s; [|unfold big in *; pose proof (bpow_gt_0 radix2 128); lra]. lra.
    + destruct y as [[|]|[|]| |[|]]; try discriminate F; reflexivity.
  - destruct R' as (F' & V' & _). subst y. destruct s.
    + destruct y' as [[|]|[|]| |[|]]; try discriminate F'; reflexivity.
    + exfalso. destruct s'; [unfold big in *; pose proof (bpow_gt_0 radix2 128); lra|]. lra.
  - subst. destruct s, s'; try reflexivity. exfalso. unfold big in *. pose proof (bpow_gt_0 radix2 128). lra.
Qed.
Lemma positional_nonneg b ds : (0 <= b)%Z -> Forall (fun d => 0 <= d)%Z ds -> (0 <= positional b ds)%Z.
Proof. intros Hb F. apply value_pos; [exact Hb|lia|exact F]. Qed.
Lemma magnitude_pos m r : magnitude m (Finite r) -> (0 <= r)%R.
Proof.
  intros H. inversion H as [t e ip fp z F P E1 E2|x t e ip fp z X F P E1 E2| | | ]; subst.
  - apply Rmult_le_pos; [apply IZR_le; exact (fraction_pos digit10 10 _ _ _ ltac:(lia) digit10_pos F)|apply powerRZ_le; lra].
  - apply Rmult_le_pos; [apply IZR_le; exact (fraction_pos digit16 16 _ _ _ ltac:(lia) digit16_pos F)|apply powerRZ_le; lra].
Qed.
Lemma order_right v w r r' s x s' x' : skipn (off v + Z.to_nat (len v)) (mem v) = nul :: r -> skipn (off w + Z.to_nat (len w)) (mem w) = nul :: r' ->
  denotes (text v) s (Finite x) -> denotes (text w) s' (Finite x') -> ((if s then - x else x) <= (if s' then - x' else x'))%R ->
  exists y z, to_float v = Ok y /\ to_float w = Ok z /\ f_le y z = true.
Proof.
  intros E E' D D' L. destruct (number_right v r s _ E D) as (y & H & R). destruct (number_right w r' s' _ E' D') as (z & H' & R'). exists y, z. split; [exact H|]. split; [exact H'|].
  destruct D as (? & ? & ? & _ & _ & _ & M), D' as (? & ? & ? & _ & _ & _ & M'). apply (reads_order s x y s' x' z); auto; eapply magnitude_pos; eassumption.
Qed.
