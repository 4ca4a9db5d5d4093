(** Lemmas on time representations. *)
From Coq Require Import List Arith ZArith Bool Lia.
From Verif Require Import Base KTimeModel KTimeSpec KTimeProofs KTimeConv ReprModel ReprSpec.
Import ListNotations.
Open Scope Z_scope.

Lemma same_text_eq a b : same_text a b = true <-> a = b.
Proof.
  revert b; induction a as [| x a IH]; intros [| y b]; simpl; try (split; [discriminate | easy]); [easy |].
  rewrite andb_true_iff, Nat.eqb_eq, IH. split; [intros [-> ->]; reflexivity | injection 1; auto].
Qed.
Lemma is_digit_range c : is_digit c = true <-> (48 <= c <= 57)%nat.
Proof. unfold is_digit. rewrite andb_true_iff, !Nat.leb_le. reflexivity. Qed.

Lemma span_spec l : let '(a, b) := span_digits l in l = a ++ b /\ Forall (fun c => (48 <= c <= 57)%nat) a /\
  match b with [] => True | c :: _ => is_digit c = false end.
Proof.
  induction l as [| c t IH]; simpl; [auto |]. destruct (is_digit c) eqn:D; [| auto].
  destruct (span_digits t) as [a b]. destruct IH as (-> & F & H). split; [reflexivity |]. split; [| exact H]. constructor; [now apply is_digit_range | exact F].
Qed.
Lemma span_app ds c r : Forall (fun c => (48 <= c <= 57)%nat) ds -> is_digit c = false -> span_digits (ds ++ c :: r) = (ds, c :: r).
Proof.
  induction 1 as [| x ds X F IH]; intros C; simpl; [now rewrite C |]. apply is_digit_range in X. now rewrite X, IH.
Qed.
Lemma value_decimal l : value_of 0 l = decimal l.
Proof. unfold decimal. generalize 0. induction l as [| c t IH]; intros a; simpl; [reflexivity | apply IH]. Qed.
Lemma name_suffix u : name u = suffix_of u. Proof. destruct u; reflexivity. Qed.
Lemma name_nondigit u : exists c r, suffix_of u = c :: r /\ is_digit c = false.
Proof. destruct u; repeat eexists. Qed.

Lemma parse_denotes input u v : denotes input u v -> parse_time input = Ok (Some (u, v)).
Proof.
  intros (ds & (N & F) & -> & -> & B). destruct (name_nondigit u) as (c & r & E & C). unfold parse_time.
  destruct (ds ++ suffix_of u) as [| x t] eqn:A; [destruct ds; [now elim N | discriminate] |]. rewrite <- A, E, span_app by assumption. rewrite <- E.
  assert (ST : stoi ds = Ok (decimal ds)).
  { unfold stoi. destruct ds; [now elim N |]. rewrite value_decimal. destruct (Z.leb_spec (2 ^ 31) (decimal (n :: ds))); [lia | reflexivity]. }
  rewrite ST. destruct u; reflexivity.
Qed.
Lemma parse_some input u v : parse_time input = Ok (Some (u, v)) -> denotes input u v.
Proof.
  unfold parse_time. destruct input as [| x t]; [discriminate |]. pose proof (span_spec (x :: t)) as H. destruct (span_digits (x :: t)) as [ds un].
  destruct H as (E & F & C). rewrite E. destruct un as [| c r] eqn:U; [discriminate |]. rewrite <- U in *. clear U.
  destruct (stoi ds) as [w | | | |] eqn:S; cbn [bind]; try discriminate.
  assert (W : ds <> [] /\ w = decimal ds /\ w < 2 ^ 31).
  { unfold stoi in S. destruct ds; [discriminate |]. rewrite value_decimal in S. destruct (Z.leb_spec (2 ^ 31) (decimal (n :: ds))); [discriminate |].
    injection S as <-. split; [discriminate | auto]. }
  destruct W as (N & W & B). intros H.
  assert (K : same_text un (name u) = true /\ v = w).
  { repeat match type of H with Ok (if ?b then _ else _) = _ => destruct b eqn:?; [injection H as <- <-; auto |] end. discriminate. }
  destruct K as [K ->]. apply same_text_eq in K. rewrite name_suffix in K. exists ds. subst un. unfold is_number. auto.
Qed.
(** The remaining outcomes *)
Lemma parse_throws input : parse_time input = Throw <->
  (exists c r, input = c :: r /\ is_digit c = false) \/
  (exists ds c r, input = ds ++ c :: r /\ is_number ds /\ is_digit c = false /\ 2 ^ 31 <= decimal ds).
Proof.
  split.
  - unfold parse_time. destruct input as [| x t]; [discriminate |]. pose proof (span_spec (x :: t)) as H. destruct (span_digits (x :: t)) as [ds un].
    destruct H as (E & F & C). rewrite E. destruct un as [| c r]; [discriminate |].
    destruct ds as [| d ds]; [left; exists c, r; auto |]. unfold stoi. rewrite value_decimal.
    destruct (Z.leb_spec (2 ^ 31) (decimal (d :: ds))) as [L | L]; [| discriminate]. intros _. right. exists (d :: ds), c, r. unfold is_number. repeat split; auto. discriminate.
  - intros [(c & r & -> & C) | (ds & c & r & -> & (N & F) & C & L)]; unfold parse_time.
    + simpl. rewrite C. reflexivity.
    + destruct (ds ++ c :: r) as [| x t] eqn:A; [destruct ds; discriminate |]. rewrite <- A, span_app by assumption. unfold stoi. destruct ds; [now elim N |].
      rewrite value_decimal. destruct (Z.leb_spec (2 ^ 31) (decimal (n :: ds))); [reflexivity | lia].
Qed.
Lemma parse_outcomes input : parse_time input = Throw \/ exists r, parse_time input = Ok r.
Proof.
  unfold parse_time. destruct input as [| x t]; [eauto |]. destruct (span_digits (x :: t)) as [ds un]. destruct un; [eauto |].
  unfold stoi. destruct ds; [auto |]. destruct (_ <=? _); [auto |]. cbn [bind]. eauto.
Qed.

(** ** Printing *)
Lemma fold_acc l : forall a b, fold_left (fun a c => 10 * a + (Z.of_nat c - 48)) l (a + b) =
  fold_left (fun a c => 10 * a + (Z.of_nat c - 48)) l a + b * 10 ^ Z.of_nat (length l).
Proof.
  induction l as [| c t IH]; intros a b; cbn [fold_left]; [simpl; lia |].
  replace (10 * (a + b) + (Z.of_nat c - 48)) with (10 * a + (Z.of_nat c - 48) + 10 * b) by lia. rewrite IH.
  cbn [length]. rewrite Nat2Z.inj_succ, Z.pow_succ_r by lia. lia.
Qed.
Lemma decimal_cons c l : decimal (c :: l) = (Z.of_nat c - 48) * 10 ^ Z.of_nat (length l) + decimal l.
Proof. unfold decimal. cbn [fold_left]. replace (10 * 0 + (Z.of_nat c - 48)) with (0 + (Z.of_nat c - 48)) by lia. rewrite fold_acc. lia. Qed.
Lemma show_digits_spec f : forall n acc, 0 <= n -> n < 2 ^ Z.of_nat f \/ (f > 0)%nat /\ n = 0 ->
  Forall (fun c => (48 <= c <= 57)%nat) acc ->
  let l := show_digits f n acc in
  Forall (fun c => (48 <= c <= 57)%nat) l /\ decimal l = n * 10 ^ Z.of_nat (length acc) + decimal acc /\ ((f > 0)%nat -> l <> []).
Proof.
  induction f as [| f IH]; intros n acc N B A; cbn [show_digits].
  - assert (n = 0) by (simpl in B; lia). subst. split; [exact A |]. split; [lia | lia].
  - pose proof (Z.mod_pos_bound n 10 ltac:(lia)) as M. pose proof (Z.div_mod n 10 ltac:(lia)) as D.
    assert (A' : Forall (fun c => (48 <= c <= 57)%nat) ((48 + Z.to_nat (n mod 10))%nat :: acc)) by (constructor; [lia | exact A]).
    assert (DC : decimal ((48 + Z.to_nat (n mod 10))%nat :: acc) = n mod 10 * 10 ^ Z.of_nat (length acc) + decimal acc).
    { rewrite decimal_cons. f_equal. f_equal. lia. }
    destruct (Z.eqb_spec (n / 10) 0) as [E | E].
    + split; [exact A' |]. split; [| discriminate]. rewrite DC. rewrite D at 2. rewrite E. lia.
    + assert (B' : n / 10 < 2 ^ Z.of_nat f).
      { destruct B as [B | [_ ->]]; [| now elim E]. rewrite Nat2Z.inj_succ, Z.pow_succ_r in B by lia. apply Z.div_lt_upper_bound; lia. }
      destruct (IH (n / 10) _ ltac:(apply Z.div_pos; lia) (or_introl B') A') as (F & V & P). split; [exact F |]. split.
      * rewrite V, DC. cbn [length]. rewrite Nat2Z.inj_succ, Z.pow_succ_r by lia. rewrite D at 3. ring.
      * intros _. destruct f; [simpl in B'; assert (n / 10 = 0) by (pose proof (Z.div_pos n 10); lia); contradiction |]. apply P. lia.
Qed.
Lemma show_number n : 0 <= n -> is_number (show n) /\ decimal (show n) = n.
Proof.
  intros N. unfold show. destruct (Z.ltb_spec n 0); [lia |].
  destruct (show_digits_spec (S (Z.to_nat (Z.log2 n))) n [] N) as (F & D & P).
  - destruct (Z.eq_dec n 0) as [-> | Z]; [right; lia |]. left. pose proof (Z.log2_nonneg n). replace (Z.of_nat _) with (Z.succ (Z.log2 n)) by lia.
    apply Z.log2_spec. lia.
  - constructor.
  - unfold is_number. split; [split; [apply P; lia | exact F] |]. rewrite D. change (decimal []) with 0. simpl. lia.
Qed.
Lemma show_digits_length f : forall n acc k, 0 <= n < 10 ^ Z.of_nat k -> (k > 0)%nat -> (length (show_digits f n acc) <= k + length acc)%nat.
Proof.
  induction f as [| f IH]; intros n acc k N K; simpl; [lia |]. destruct (Z.eqb_spec (n / 10) 0); [simpl; lia |].
  destruct k as [| k]; [lia |]. rewrite Nat2Z.inj_succ, Z.pow_succ_r in N by lia.
  assert (KK : (k > 0)%nat).
  { destruct k; [| lia]. exfalso. apply n0. apply Z.div_small. simpl in N. lia. }
  eapply Nat.le_trans; [apply (IH _ _ k) |]; [| exact KK | simpl; lia]. split; [apply Z.div_pos; lia | apply Z.div_lt_upper_bound; lia].
Qed.

(** ** The choice of the unit *)
Lemma as_unit_error this u x : 0 <= x ->
  2 ^ 24 * (2 * Z.abs (as_unit this u x * micros_per this - x * micros_per u)) <= 2 ^ 24 * micros_per this + 10 * (x * micros_per u).
Proof.
  intros X. pose proof (micros_pos u) as M. pose proof (micros_pos this) as MT.
  assert (E : as_unit this u x = from_other u this x \/ (as_unit this u x = x /\ this = u)) by (destruct this, u; auto).
  destruct E as [-> | [-> ->]].
  - pose proof (from_other_error u this x) as H. rewrite (Z.abs_eq (x * micros_per u)) in H by lia. exact H.
  - rewrite Z.sub_diag. simpl Z.abs. lia.
Qed.

Lemma from_other_nonpos o t x : x <= 0 -> from_other o t x <= 0.
Proof.
  intros X. unfold from_other. assert (P : 0 <= fm (ratio o t)) by (destruct o, t; vm_compute; discriminate).
  assert (Q : forall n d, 0 < d -> n <= 0 -> fm (fquot n d) <= 0).
  { intros n d D N. unfold fquot. destruct (Z.eqb_spec n 0); [simpl; lia |]. cbn [fm]. unfold rne.
    set (e := fexp _ _). assert (D' : 0 < d * 2 ^ Z.max 0 e) by (apply Z.mul_pos_pos; [lia | apply pow2_pos]).
    assert (N' : n * 2 ^ Z.max 0 (- e) < 0) by (pose proof (pow2_pos (- e)); nia).
    set (a := n * 2 ^ Z.max 0 (- e)) in *. set (b := d * 2 ^ Z.max 0 e) in *.
    assert (DIV : a / b < 0) by (apply Z.div_lt_upper_bound; lia). destruct (2 * (a mod b) ?= b); [destruct (Z.even _); lia | lia | lia]. }
  assert (F1 : fm (f_of_int x) <= 0) by (apply Q; lia).
  assert (F2 : fm (fmul (ratio o t) (f_of_int x)) <= 0) by (unfold fmul; apply Q; [apply pow2_pos | pose proof (pow2_pos (fe (ratio o t) + fe (f_of_int x))); nia]).
  unfold fround. set (f := fmul _ _) in *. destruct (Z.leb_spec 0 (fe f)); [pose proof (Z.pow_nonneg 2 (fe f)); nia |].
  assert (S : Z.sgn (fm f) <= 0) by (apply Z.sgn_nonpos; exact F2).
  assert (D : 0 < 2 ^ (- fe f)) by (apply Z.pow_pos_nonneg; lia).
  assert (0 <= (2 * Z.abs (fm f) + 2 ^ (- fe f)) / (2 * 2 ^ (- fe f))) by (apply Z.div_pos; lia). nia.
Qed.
Lemma choose_nonpos u x : x <= 0 -> exists v, choose u x = Some (US, v) /\ v <= 0 /\ (u = US -> v = x).
Proof.
  intros X. assert (A : as_unit US u x <= 0) by (destruct u; simpl; try (apply from_other_nonpos; exact X); exact X).
  unfold choose. destruct (Z.ltb_spec (as_unit US u x) 1000); [| lia]. exists (as_unit US u x). split; [reflexivity |]. split; [exact A |]. now intros ->.
Qed.

Definition day : Z := 86400000000.
Lemma choose_unit u x : 0 <= x -> let T := x * micros_per u in
  exists w v, choose u x = Some (w, v) /\ 0 <= v /\
    2 ^ 24 * (2 * Z.abs (v * micros_per w - T)) <= 2 ^ 24 * micros_per w + 10 * T /\ (w = u -> v = x) /\
    w <> HOUR /\
    (T < 1000 -> w = US /\ v = T) /\ (1000 <= T <= 999000 -> w = MS) /\ (1000000 <= T <= 899000000 -> w = SEC) /\
    (900000000 <= T <= 1439 * 60000000 -> w = MIN) /\ (day <= T -> w = DAY).
Proof.
  intros X T. pose proof (micros_pos u) as MU. assert (T0 : 0 <= T) by (apply Z.mul_nonneg_nonneg; lia).
  pose proof (as_unit_error US u x X) as E1. pose proof (as_unit_error MS u x X) as E2. pose proof (as_unit_error SEC u x X) as E3.
  pose proof (as_unit_error MIN u x X) as E4. pose proof (as_unit_error HOUR u x X) as E5. pose proof (as_unit_error DAY u x X) as E6.
  assert (EX : forall w, w = u -> as_unit w u x = x) by (intros w ->; destruct u; reflexivity).
  assert (SM : T < 1000 -> as_unit US u x = T).
  { intros H. unfold T in *. destruct u; cbn [micros_per] in *; try (simpl; lia); assert (x = 0) by lia; subst; vm_compute; reflexivity. }
  fold T in E1, E2, E3, E4, E5, E6. unfold day.
  change (micros_per US) with 1 in *. change (micros_per MS) with 1000 in *. change (micros_per SEC) with 1000000 in *.
  change (micros_per MIN) with 60000000 in *. change (micros_per HOUR) with 3600000000 in *. change (micros_per DAY) with 86400000000 in *.
  change (2 ^ 24) with 16777216 in *. clearbody T.
  unfold choose. set (a1 := as_unit US u x) in *. set (a2 := as_unit MS u x) in *. set (a3 := as_unit SEC u x) in *.
  set (a4 := as_unit MIN u x) in *. set (a5 := as_unit HOUR u x) in *. set (a6 := as_unit DAY u x) in *.
  assert (X1 : US = u -> a1 = x) by apply EX. assert (X2 : MS = u -> a2 = x) by apply EX. assert (X3 : SEC = u -> a3 = x) by apply EX.
  assert (X4 : MIN = u -> a4 = x) by apply EX. assert (X6 : DAY = u -> a6 = x) by apply EX. clear EX MU. clearbody a1 a2 a3 a4 a5 a6.
  destruct (Z.ltb_spec a1 1000); [exists US, a1 |
    destruct (Z.ltb_spec a2 1000); [exists MS, a2 |
      destruct (Z.ltb_spec a3 900); [exists SEC, a3 |
        destruct (Z.ltb_spec a4 1440); [exists MIN, a4 |
          destruct (Z.ltb_spec a5 24); [exfalso; lia |
            destruct (Z.ltb_spec 0 a6); [exists DAY, a6 | exfalso; lia]]]]]];
  (split; [reflexivity |]); cbn [micros_per];
  (split; [lia |]); (split; [lia |]); (split; [intros EE; auto |]); (split; [discriminate |]);
  repeat split; try reflexivity; try lia; intros; exfalso; lia.
Qed.

Lemma repr_text u x w v : choose u x = Some (w, v) -> 0 <= v < 10 ^ 61 -> repr u x = show v ++ suffix_of w.
Proof.
  intros C V. unfold repr. rewrite C, name_suffix. assert (L : (length (show v) <= 61)%nat).
  { unfold show. destruct (Z.ltb_spec v 0); [lia |].
    apply Nat.le_trans with (61 + 0)%nat; [| lia]. apply (show_digits_length _ v [] 61); [exact V | lia]. }
  rewrite app_length. destruct (Nat.leb_spec 64 (length (show v) + length (suffix_of w))) as [H | H]; [| reflexivity].
  exfalso. assert (length (suffix_of w) <= 2)%nat by (destruct w; simpl; lia). lia.
Qed.
Lemma choose_small u x w v : choose u x = Some (w, v) -> w = DAY \/ v < 1440.
Proof.
  unfold choose. generalize (as_unit US u x) (as_unit MS u x) (as_unit SEC u x) (as_unit MIN u x) (as_unit HOUR u x) (as_unit DAY u x).
  intros a b c d e f. repeat match goal with |- context [?a <? ?b] => destruct (Z.ltb_spec a b) end; intros K; first [discriminate K | injection K as <- <-; first [left; reflexivity | right; lia]].
Qed.
Lemma round_trip u x : 0 <= x -> x * micros_per u <= 2 ^ 30 * day ->
  exists w v, parse_time (repr u x) = Ok (Some (w, v)) /\ choose u x = Some (w, v).
Proof.
  intros X B. destruct (choose_unit u x X) as (w & v & C & V & E & _ & H & H1 & H2 & H3 & H4 & H5). set (T := x * micros_per u) in *. exists w, v. split; [| exact C].
  assert (VB : v < 2 ^ 31).
  { change (2 ^ 30) with 1073741824 in B. change (2 ^ 24) with 16777216 in E. change (2 ^ 31) with 2147483648. unfold day in B.
    assert (T0 : 0 <= T) by (unfold T; apply Z.mul_nonneg_nonneg; [lia | pose proof (micros_pos u); lia]).
    destruct (choose_small u x w v C) as [-> | S]; [| lia]. change (micros_per DAY) with 86400000000 in E. lia. }
  rewrite (repr_text u x w v C) by (split; [lia | apply Z.lt_trans with (1 := VB); reflexivity]).
  destruct (show_number v V) as [N D]. apply parse_denotes. exists (show v). auto.
Qed.
