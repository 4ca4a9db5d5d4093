(** Lemmas on logging. *)
From Coq Require Import List Arith ZArith Bool Lia.
From Verif Require Import Base ReprModel ReprSpec ReprProofs LogModel LogSpec.
Import ListNotations.
Open Scope nat_scope.

Lemma cstring_app t r : no_nul t -> cstring (t ++ 0 :: r) = Ok t.
Proof.
  unfold no_nul. induction t as [| c t IH]; intros N; simpl; [reflexivity |]. destruct (Nat.eqb_spec c 0) as [-> | C]; [exfalso; apply N; left; reflexivity |].
  rewrite IH; [reflexivity |]. intros H. apply N. right. exact H.
Qed.
Lemma no_nul_app a b : no_nul a -> no_nul b -> no_nul (a ++ b).
Proof. unfold no_nul. intros A B H. apply in_app_or in H. tauto. Qed.
Lemma no_nul_firstn n a : no_nul a -> no_nul (firstn n a).
Proof. unfold no_nul. intros A H. apply A. rewrite <- (firstn_skipn n a). apply in_or_app. auto. Qed.

(** The state of the buffer after writing the text [t] from its start *)
Definition holds (buf : list nat) (size : nat) (t : list nat) : Prop :=
  length buf = size /\ exists r, buf = firstn (size - 1) t ++ 0 :: r.

Lemma snprintf_append buf size t s : holds buf size t -> length t < size -> (Z.of_nat size < 2 ^ 64)%Z ->
  exists buf', snprintf buf (length t) (LogModel.size64 (Z.of_nat size - Z.of_nat (length t))) s = Ok (buf', length s) /\ holds buf' size (t ++ s).
Proof.
  intros [L (r & E)] T SZ. unfold LogModel.size64, wrapW. rewrite Z.mod_small by lia. unfold snprintf.
  destruct (Z.eqb_spec (Z.of_nat size - Z.of_nat (length t)) 0); [lia |].
  assert (E' : buf = t ++ 0 :: r) by (rewrite E; f_equal; apply firstn_all2; lia).
  set (k := Z.to_nat (Z.min (Z.of_nat size - Z.of_nat (length t) - 1) (Z.of_nat (length s)))).
  assert (K : k = Nat.min (size - length t - 1) (length s)) by (unfold k; lia).
  set (w := firstn k s ++ [0]). assert (W : length w = S k) by (unfold w; rewrite app_length, firstn_length; simpl; lia).
  destruct (Nat.leb_spec (length t + length w) (length buf)); [| lia].
  eexists. split; [reflexivity |]. split.
  - rewrite !app_length, skipn_length, firstn_length. lia.
  - exists (skipn (length t + length w) buf). rewrite E' at 1. rewrite firstn_app, Nat.sub_diag, firstn_all, firstn_O, app_nil_r.
    unfold w at 1. rewrite <- !app_assoc. rewrite firstn_app. rewrite (firstn_all2 t) by lia. rewrite <- app_assoc. cbn [app]. f_equal. f_equal.
    destruct (Nat.le_ge_cases (size - length t - 1) (length s)).
    + f_equal. lia.
    + rewrite !firstn_all2 by lia. reflexivity.
Qed.
Lemma snprintf_first buf s : 0 < length buf ->
  exists buf', snprintf buf 0 (Z.of_nat (length buf)) s = Ok (buf', length s) /\ holds buf' (length buf) s.
Proof.
  intros L. unfold snprintf. destruct (Z.eqb_spec (Z.of_nat (length buf)) 0); [lia |].
  set (k := Z.to_nat (Z.min (Z.of_nat (length buf) - 1) (Z.of_nat (length s)))).
  assert (K : k = Nat.min (length buf - 1) (length s)) by (unfold k; lia).
  set (w := firstn k s ++ [0]). assert (W : length w = S k) by (unfold w; rewrite app_length, firstn_length; simpl; lia).
  destruct (Nat.leb_spec (0 + length w) (length buf)); [| lia]. cbn [Nat.add firstn app]. eexists. split; [reflexivity |]. split.
  - rewrite app_length, skipn_length. lia.
  - exists (skipn (length w) buf). unfold w at 1. rewrite <- app_assoc. cbn [app]. f_equal.
    destruct (Nat.le_ge_cases (length buf - 1) (length s)); [f_equal; lia |]. rewrite !firstn_all2 by lia. reflexivity.
Qed.
Lemma holds_shown buf size t : holds buf size t -> no_nul t -> cstring buf = Ok (firstn (size - 1) t).
Proof. intros [_ (r & ->)] N. apply cstring_app, no_nul_firstn, N. Qed.

Lemma show_digits_nul f : forall n acc, no_nul acc -> no_nul (show_digits f n acc).
Proof.
  induction f as [| f IH]; intros n acc A; cbn [show_digits]; [exact A |].
  assert (B : no_nul ((48 + Z.to_nat (n mod 10)) :: acc)) by (unfold no_nul in *; intros [H | H]; [lia | tauto]).
  destruct (_ =? _)%Z; [exact B | apply IH, B].
Qed.
Lemma show_nul n : no_nul (show n).
Proof.
  assert (N : no_nul []) by (intros []). unfold show. destruct (_ <? _)%Z; [| now apply show_digits_nul].
  intros [H | H]; [discriminate |]. revert H. now apply show_digits_nul.
Qed.
Lemma header_nul o ms l : no_nul (header o ms l).
Proof.
  unfold header. destruct o; [intros [] |]. unfold time_text.
  assert (R : no_nul (repeat 48 (8 - length (show (ms mod 2 ^ 32))))) by (intros H; apply repeat_spec in H; discriminate).
  repeat apply no_nul_app; try exact R; try apply show_nul; try (intros H; simpl in H; intuition discriminate).
  destruct l; intros H; simpl in H; intuition discriminate.
Qed.
Lemma trailer_nul f n g : no_nul f -> no_nul g -> no_nul (trailer f n g).
Proof.
  intros F G. unfold trailer. repeat apply no_nul_app; try assumption; try apply show_nul; intros H; simpl in H; intuition discriminate.
Qed.
Lemma header_short o ms l : length (header o ms l) <= 20.
Proof.
  unfold header. destruct o; [simpl; lia |]. unfold time_text.
  assert (B : (0 <= ms mod 2 ^ 32 < 10 ^ Z.of_nat 10)%Z).
  { pose proof (Z.mod_pos_bound ms (2 ^ 32) ltac:(lia)) as [A B]. split; [exact A |]. apply Z.lt_trans with (1 := B). reflexivity. }
  assert (D : length (show (ms mod 2 ^ 32)) <= 10).
  { unfold show. destruct (Z.ltb_spec (ms mod 2 ^ 32) 0); [lia |]. apply Nat.le_trans with (10 + 0); [| lia]. apply (show_digits_length _ _ [] 10); [exact B | lia]. }
  assert (L : length (level_name l) <= 4) by (destruct l; simpl; lia). revert D L. generalize (show (ms mod 2 ^ 32)) (level_name l). intros d v D L.
  rewrite !app_length, repeat_length. cbn [length]. lia.
Qed.

Definition full (o : bool) (ms : Z) (l : level) (file : list nat) (line : Z) (func msg : list nat) : list nat :=
  header o ms l ++ msg ++ match l with DEBUG => trailer file line func | _ => [] end.
(** Everything up to the message *)
Lemma print_message buf (o : bool) ms l msg : 20 < length buf -> (Z.of_nat (length buf) < 2 ^ 64)%Z ->
  exists b1 b2 n, (if o then Ok (buf, 0) else snprintf buf 0 (Z.of_nat (length buf)) (header o ms l)) = Ok (b1, length (header o ms l)) /\
    snprintf b1 (length (header o ms l)) (LogModel.size64 (Z.of_nat (length buf) - Z.of_nat (length (header o ms l)))) msg = Ok (b2, n) /\
    n = length msg /\ holds b2 (length buf) (header o ms l ++ msg).
Proof.
  intros S B. pose proof (header_short o ms l) as H. destruct o.
  - exists buf. cbn [header length]. rewrite Z.sub_0_r. unfold LogModel.size64, wrapW. rewrite Z.mod_small by lia.
    destruct (snprintf_first buf msg ltac:(lia)) as (b & E & Q). exists b, (length msg). auto.
  - destruct (snprintf_first buf (header false ms l) ltac:(lia)) as (b1 & E1 & Q1).
    destruct (snprintf_append b1 (length buf) _ msg Q1 ltac:(lia) B) as (b2 & E2 & Q2). exists b1, b2, (length msg). auto.
Qed.

Lemma print_ok buf o ms l file line func msg : 20 < length buf -> (Z.of_nat (length buf) < 2 ^ 64)%Z -> no_nul msg -> no_nul file -> no_nul func ->
  (l = DEBUG -> length (header o ms l ++ msg) <= length buf) ->
  print buf o ms l file line func msg = Ok (firstn (length buf - 1) (full o ms l file line func msg)).
Proof.
  intros S B M F G D. destruct (print_message buf o ms l msg S B) as (b1 & b2 & n & E1 & E2 & -> & Q).
  unfold print. cbv zeta. rewrite E1. cbn [bind]. rewrite E2. cbn [bind]. rewrite <- app_length.
  assert (N : no_nul (header o ms l ++ msg)) by (apply no_nul_app; [apply header_nul | exact M]). unfold full.
  assert (REST : l <> DEBUG -> cstring b2 = Ok (firstn (length buf - 1) (header o ms l ++ msg ++ []))).
  { intros _. rewrite app_nil_r. apply (holds_shown _ _ _ Q N). }
  destruct l; try (cbn [bind]; apply REST; discriminate).
  specialize (D eq_refl). destruct (Nat.eq_dec (length (header o ms DEBUG ++ msg)) (length buf)) as [E | E].
  - rewrite E, Z.sub_diag. cbn [LogModel.size64]. change (LogModel.size64 0) with 0%Z. unfold snprintf at 1. cbn [Z.eqb bind].
    rewrite (holds_shown _ _ _ Q N). rewrite app_assoc. rewrite (firstn_app (length buf - 1) (header o ms DEBUG ++ msg)).
    replace (length buf - 1 - length (header o ms DEBUG ++ msg)) with 0 by lia. rewrite firstn_O, app_nil_r. reflexivity.
  - destruct (snprintf_append b2 (length buf) _ (trailer file line func) Q ltac:(lia) B) as (b3 & E3 & Q3). rewrite E3. cbn [bind].
    rewrite (holds_shown _ _ _ Q3); [now rewrite app_assoc |]. apply no_nul_app; [exact N | now apply trailer_nul].
Qed.
Lemma print_overflow buf o ms file line func msg : 20 < length buf -> (Z.of_nat (length buf) < 2 ^ 64)%Z ->
  (Z.of_nat (length (header o ms DEBUG ++ msg)) < 2 ^ 64)%Z ->
  length buf < length (header o ms DEBUG ++ msg) -> print buf o ms DEBUG file line func msg = UB.
Proof.
  intros S B T L. destruct (print_message buf o ms DEBUG msg S B) as (b1 & b2 & n & E1 & E2 & -> & Q).
  unfold print. cbv zeta. rewrite E1. cbn [bind]. rewrite E2. cbn [bind]. rewrite <- app_length.
  set (u := length (header o ms DEBUG ++ msg)) in *.
  assert (E : LogModel.size64 (Z.of_nat (length buf) - Z.of_nat u) = (2 ^ 64 + (Z.of_nat (length buf) - Z.of_nat u))%Z).
  { unfold LogModel.size64, wrapW. symmetry. apply (Z.mod_unique _ _ (-1)); lia. }
  rewrite E. unfold snprintf. destruct (Z.eqb_spec (2 ^ 64 + (Z.of_nat (length buf) - Z.of_nat u)) 0); [lia |].
  set (w := _ ++ [0]). assert (1 <= length w) by (unfold w; rewrite app_length; cbn [length]; apply Nat.le_add_l). clearbody w. destruct Q as [Q _].
  destruct (Nat.leb_spec (u + length w) (length b2)); [lia | reflexivity].
Qed.

(** ** Levels *)
Lemma loggable_spec c l : is_loggable c l = true <-> at_least c l.
Proof. destruct c, l; vm_compute; split; auto; try discriminate; contradiction. Qed.
Lemma lrun_app dbg a : forall c b, lrun dbg c (a ++ b) = lrun dbg c a ++ lrun dbg (last_level c a) b.
Proof.
  induction a as [| o a IH]; intros c b; [reflexivity |]. destruct o as [l | l m]; cbn [app lrun last_level]; [apply IH |].
  cbv zeta. destruct (match l with DEBUG => _ | _ => _ end); rewrite IH; reflexivity.
Qed.

Lemma lrun_shown dbg c pre l m post : l <> OFF -> (l = DEBUG -> dbg = true) ->
  lrun dbg c (pre ++ Log l m :: post) =
  lrun dbg c pre ++ (if is_loggable (last_level c pre) l then [(l, m)] else []) ++ lrun dbg (last_level c pre) post.
Proof.
  intros _ D. rewrite lrun_app. f_equal. cbn [lrun]. destruct l; try (destruct (is_loggable _ _); reflexivity).
  rewrite (D eq_refl). cbn [andb]. destruct (is_loggable _ _); reflexivity.
Qed.

(** ** Exceptions *)
Lemma xrun_app lv a : forall st b, xrun lv st (a ++ b) = xrun lv st a ++ xrun lv (installed st a) b.
Proof.
  induction a as [| o a IH]; intros st b; [reflexivity |]. destruct o as [h | e]; cbn [app xrun installed set_handler].
  - now rewrite IH.
  - now rewrite IH, app_assoc.
Qed.

(** ** The text *)
Lemma decimal_zeros n : forall t, decimal (repeat 48 n ++ t) = decimal t.
Proof. induction n as [| n IH]; intros t; [reflexivity |]. cbn [repeat app]. unfold decimal in *. cbn [fold_left]. change (10 * 0 + (Z.of_nat 48 - 48))%Z with 0%Z. apply IH. Qed.
Lemma header_stamp o ms l : stamp o ms l (header o ms l).
Proof.
  unfold stamp, header. replace (characters (said l)) with (level_name l) by (destruct l; reflexivity). destruct o; [reflexivity |]. exists (time_text ms). unfold time_text.
  pose proof (Z.mod_pos_bound ms (2 ^ 32) ltac:(lia)) as [A _]. destruct (show_number _ A) as [[N F] D]. repeat split.
  - intros E. apply app_eq_nil in E. tauto.
  - apply Forall_app. split; [| exact F]. apply Forall_forall. intros c C. apply repeat_spec in C. lia.
  - rewrite app_length, repeat_length. lia.
  - rewrite decimal_zeros. exact D.
  - unfold bracketed. cbn [app]. rewrite <- !app_assoc. reflexivity.
Qed.
Lemma trailer_origin f n g : (0 <= n)%Z -> origin f n g (trailer f n g).
Proof. intros N. exists (show n). destruct (show_number n N) as [A B]. repeat split; try apply A; auto. Qed.
Lemma full_text o ms l f n g m : (0 <= n)%Z -> log_text o ms l f n g m (full o ms l f n g m).
Proof.
  intros N. exists (header o ms l), (match l with DEBUG => trailer f n g | _ => [] end). split; [apply header_stamp | split; [reflexivity |]].
  destruct l; auto. now apply trailer_origin.
Qed.
