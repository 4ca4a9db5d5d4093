(** Lemmas on the string utilities. *)
From Coq Require Import List Arith ZArith Bool Lia.
From Verif Require Import Base FloatModel StrModel StrSpec.
Import ListNotations.
Open Scope nat_scope.

Lemma skipn_skipn {A} (x y : nat) (l : list A) : skipn x (skipn y l) = skipn (x + y) l.
Proof. apply nth_error_ext. intros i. rewrite !nth_error_skipn. f_equal. lia. Qed.
Lemma delim_in ds c : delim ds c = true <-> In c ds.
Proof.
  unfold delim. rewrite existsb_exists. split.
  - intros (x & I & E). apply Nat.eqb_eq in E. now subst.
  - intros I. exists c. rewrite Nat.eqb_refl. auto.
Qed.
Lemma delim_out ds c : delim ds c = false <-> ~ In c ds.
Proof. rewrite <- delim_in. destruct (delim ds c); split; congruence. Qed.

(** The scan stops at the first character that is not a delimiter *)
Lemma skip_stop ds p c r : Forall (fun c => In c ds) p -> ~ In c ds -> skip ds (p ++ c :: r) = Ok (length p).
Proof.
  induction 1 as [| x p X P IH]; intros C; simpl.
  - apply delim_out in C. now rewrite C.
  - apply delim_in in X. now rewrite X, IH.
Qed.
Lemma skip_all ds p : Forall (fun c => In c ds) p -> skip ds p = UB.
Proof. induction 1 as [| x p X P IH]; simpl; [easy |]. apply delim_in in X. now rewrite X, IH. Qed.
Lemma split_at ds (s : list nat) : (exists c, In c s /\ ~ In c ds) ->
  exists p c r, s = p ++ c :: r /\ Forall (fun c => In c ds) p /\ ~ In c ds.
Proof.
  induction s as [| x s IH]; intros (c & I & N); [easy |].
  destruct (in_dec Nat.eq_dec x ds) as [D | D].
  - destruct IH as (p & c' & r & E & F & N').
    { exists c. split; [| exact N]. destruct I as [-> | I]; [contradiction | exact I]. }
    exists (x :: p), c', r. subst. auto.
  - exists [], x, s. auto.
Qed.
Lemma all_or_some ds (s : list nat) : Forall (fun c => In c ds) s \/ exists c, In c s /\ ~ In c ds.
Proof.
  induction s as [| x s IH]; [auto |]. destruct (in_dec Nat.eq_dec x ds) as [D | D]; [| right; exists x; simpl; auto].
  destruct IH as [F | (c & I & N)]; [left; auto | right; exists c; simpl; auto].
Qed.

Lemma text_length v : inside v -> length (text v) = Z.to_nat (len v).
Proof. intros [_ I]. unfold text. rewrite firstn_length, skipn_length. lia. Qed.
Lemma block v : skipn (off v) (mem v) = text v ++ skipn (off v + Z.to_nat (len v)) (mem v).
Proof. unfold text. rewrite <- (firstn_skipn (Z.to_nat (len v)) (skipn (off v) (mem v))) at 1. now rewrite skipn_skipn, (Nat.add_comm (Z.to_nat _)). Qed.
Lemma size64_small x : (0 <= x < 2 ^ 64)%Z -> size64 x = x.
Proof. intros H. unfold size64, wrapW. now apply Z.mod_small. Qed.

Lemma lstrip_ok ds v : inside v -> (exists c, In c (text v) /\ ~ In c ds) ->
  exists v', lstrip ds v = Ok v' /\ mem v' = mem v /\ inside v' /\ front_stripped ds (text v) (text v').
Proof.
  intros I H. destruct (split_at ds _ H) as (p & c & r & E & F & N). unfold lstrip. rewrite block, E, <- app_assoc. cbn [app].
  rewrite skip_stop by assumption. cbn [bind]. eexists. split; [reflexivity |]. cbn [mem]. split; [reflexivity |].
  pose proof (text_length v I) as L. rewrite E, app_length in L. cbn [length] in L. destruct I as [I1 I2].
  rewrite size64_small by lia. split; [split; cbn [len off mem]; lia |].
  exists p. assert (T : text (mkView (mem v) (off v + length p) (len v - Z.of_nat (length p))) = c :: r).
  { unfold text. cbn [len off mem]. rewrite Nat.add_comm, <- skipn_skipn, block, E.
    rewrite <- app_assoc. rewrite skipn_app, skipn_all2 by lia. rewrite Nat.sub_diag. cbn [skipn app].
    replace (Z.to_nat (len v - Z.of_nat (length p))) with (S (length r)) by lia.
    cbn [firstn]. rewrite firstn_app, Nat.sub_diag, firstn_all, firstn_O, app_nil_r. reflexivity. }
  rewrite T. auto.
Qed.

(** What rstrip does: it takes as many characters off the front as there are delimiters at the back *)
Lemma rstrip_shift ds v p c s : inside v -> text v = s ++ c :: p -> Forall (fun c => In c ds) p -> ~ In c ds ->
  exists v', rstrip ds v = Ok v' /\ mem v' = mem v /\ text v' = skipn (length p) (text v).
Proof.
  intros I E F N. unfold rstrip.
  assert (B : firstn (off v + Z.to_nat (len v)) (mem v) = firstn (off v) (mem v) ++ text v).
  { unfold text. rewrite <- (firstn_skipn (off v) (mem v)) at 1. rewrite firstn_app. rewrite firstn_firstn, Nat.min_r by lia. f_equal.
    destruct I as [_ I]. rewrite firstn_length_le by lia. now replace (off v + Z.to_nat (len v) - off v) with (Z.to_nat (len v)) by lia. }
  pose proof (text_length v I) as L.
  rewrite B, rev_app_distr, E, rev_app_distr. cbn [rev]. rewrite <- !app_assoc. cbn [app].
  rewrite skip_stop; [| apply Forall_rev, F | exact N]. cbn [bind]. rewrite rev_length. eexists. split; [reflexivity |]. split; [reflexivity |].
  rewrite <- E. rewrite E, app_length in L. cbn [length] in L. destruct I as [I1 I2]. rewrite size64_small by lia.
  unfold text. cbn [len off mem]. rewrite Nat.add_comm, <- skipn_skipn. rewrite skipn_firstn_comm. f_equal. lia.
Qed.

Lemma compare3_zero a b : (compare3 a b =? 0)%Z = true <-> a = b.
Proof.
  revert b; induction a as [| x a IH]; intros [| y b]; simpl; try (split; [discriminate | easy]); [easy |].
  destruct (Nat.ltb_spec x y) as [H | H]; [split; [discriminate | injection 1; lia] |].
  destruct (Nat.ltb_spec y x) as [G | G]; [split; [discriminate | injection 1; lia] |].
  assert (x = y) by lia. subst. rewrite IH. split; [now intros -> | now injection 1].
Qed.

Lemma starts_ok s n : exists b, starts_with s n = Ok b /\ (b = true <-> prefix n s).
Proof.
  unfold starts_with, compare_at. destruct (Z.ltb_spec (Z.of_nat (length s)) 0); [lia |]. cbn [bind Z.to_nat skipn]. eexists. split; [reflexivity |].
  rewrite compare3_zero. split.
  - intros E. exists (skipn (Z.to_nat (Z.min (Z.of_nat (length n)) (Z.of_nat (length s)))) s). rewrite <- E at 1. symmetry. apply firstn_skipn.
  - intros [r ->]. rewrite app_length. replace (Z.to_nat _) with (length n) by lia.
    rewrite firstn_app, Nat.sub_diag, firstn_all, firstn_O. apply app_nil_r.
Qed.
Lemma ends_ok s n : length n <= length s -> (Z.of_nat (length s) < 2 ^ 64)%Z ->
  exists b, ends_with s n = Ok b /\ (b = true <-> suffix n s).
Proof.
  intros L B. unfold ends_with, compare_at. rewrite size64_small by lia. destruct (Z.ltb_spec (Z.of_nat (length s)) (Z.of_nat (length s) - Z.of_nat (length n))); [lia |].
  cbn [bind]. eexists. split; [reflexivity |]. rewrite compare3_zero. rewrite Z.min_id, Nat2Z.id.
  rewrite firstn_all2 by (rewrite skipn_length; lia). replace (Z.to_nat _) with (length s - length n) by lia. split.
  - intros E. exists (firstn (length s - length n) s). rewrite <- E at 2. symmetry. apply firstn_skipn.
  - intros [r ->]. rewrite app_length. replace (length r + length n - length n) with (length r) by lia.
    rewrite skipn_app, Nat.sub_diag, skipn_all. reflexivity.
Qed.
Lemma ends_throws s n : length s < length n -> (Z.of_nat (length n) < 2 ^ 64)%Z -> ends_with s n = Throw.
Proof.
  intros L B. unfold ends_with, compare_at. assert (E : size64 (Z.of_nat (length s) - Z.of_nat (length n)) = (2 ^ 64 + (Z.of_nat (length s) - Z.of_nat (length n)))%Z).
  { unfold size64, wrapW. symmetry. apply (Z.mod_unique _ _ (-1)); lia. }
  rewrite E. destruct (Z.ltb_spec (Z.of_nat (length s)) (2 ^ 64 + (Z.of_nat (length s) - Z.of_nat (length n)))); [reflexivity | lia].
Qed.

Lemma find_from_spec ds s : forall i,
  match find_from ds i s with
  | None => Forall (fun c => ~ In c ds) s
  | Some k => exists p c r, s = p ++ c :: r /\ Forall (fun c => ~ In c ds) p /\ In c ds /\ k = i + length p
  end.
Proof.
  induction s as [| x s IH]; intros i; simpl; [constructor |]. destruct (delim ds x) eqn:D.
  - apply delim_in in D. exists [], x, s. cbn [app length]. rewrite Nat.add_0_r. auto.
  - apply delim_out in D. specialize (IH (S i)). destruct (find_from ds (S i) s); [| now constructor].
    destruct IH as (p & c & r & -> & F & N & ->). exists (x :: p), c, r. simpl. repeat split; auto.
Qed.

Lemma digits_stop l c r : forall acc, Forall (fun c => is_digit c = true) l -> is_digit c = false ->
  digits acc (l ++ c :: r) = Ok (fold_left (fun a c => (10 * a + (Z.of_nat c - 48))%Z) l acc, length l).
Proof. induction l as [| x l IH]; intros acc F C; simpl; [now rewrite C |]. inversion F; subst. now rewrite H1, IH. Qed.
Lemma to_float_number v r : inside v -> skipn (off v + Z.to_nat (len v)) (mem v) = nul :: r -> text v <> [] ->
  Forall (fun c => is_digit c = true) (text v) -> to_float v = Ok (f_ofZ (decimal (text v))).
Proof.
  intros I E T F. unfold to_float. rewrite block, E. rewrite digits_stop by (assumption || reflexivity). cbn [bind].
  destruct (Nat.eqb_spec (length (text v)) 0) as [Z | Z]; [now apply length_zero_iff_nil in Z |].
  unfold rd. rewrite nth_error_app2, Nat.sub_diag by lia. reflexivity.
Qed.

(** ** concat *)
Lemma strlen_literal t : firstn (strlen (literal t)) (literal t) = t.
Proof.
  unfold strlen, literal. rewrite app_length. cbn [length]. rewrite Nat.add_comm. cbn [Nat.add].
  rewrite firstn_app, Nat.sub_diag, firstn_all, firstn_O. apply app_nil_r.
Qed.
Lemma concat2_literal a b : concat2 (literal a) (literal b) = literal (a ++ b).
Proof. unfold concat2. rewrite !strlen_literal. unfold literal. now rewrite app_assoc. Qed.
Lemma concat_literal l : concat (map literal l) = literal (List.concat l).
Proof.
  assert (E0 : [nul] = literal []) by reflexivity.
  induction l as [| a l IH]; [reflexivity |]. destruct l as [| b r].
  - cbn [map concat]. rewrite E0, concat2_literal. cbn [List.concat]. reflexivity.
  - cbn [map] in *. destruct r as [| c r].
    + cbn [concat List.concat map]. rewrite concat2_literal. now rewrite app_nil_r.
    + change (concat2 (literal a) (concat (literal b :: map literal (c :: r))) = literal (List.concat (a :: b :: c :: r))).
      rewrite IH, concat2_literal. reflexivity.
Qed.

(** ** StaticString *)
Definition swf (cap : nat) (s : ss) : Prop := length (smem s) = S cap /\ ssize s <= cap /\ nth_error (smem s) (ssize s) = Some nul.
Lemma smake_wf cap : swf cap (smake cap).
Proof.
  unfold swf, smake; cbn [smem ssize]. rewrite repeat_length. split; [reflexivity |]. split; [lia |].
  rewrite (nth_error_nth' _ nul) by (rewrite repeat_length; lia). now rewrite nth_repeat.
Qed.
Lemma sview_length cap s : swf cap s -> length (sview s) = ssize s.
Proof. intros (L & B & _). unfold sview. rewrite firstn_length. lia. Qed.
Lemma firstn_upd {A} (l : list A) i (a : A) k : k <= i -> firstn k (upd l i a) = firstn k l.
Proof. revert i k; induction l as [| x l IH]; intros [| i] [| k] H; simpl; auto; [lia |]. now rewrite IH by lia. Qed.
Lemma skipn_upd {A} (l : list A) i (a : A) k : i < k -> skipn k (upd l i a) = skipn k l.
Proof. revert i k; induction l as [| x l IH]; intros [| i] [| k] H; simpl; auto; try lia. apply IH. lia. Qed.

Lemma resize_wf cap s n : swf cap s -> n <= cap ->
  swf cap (resize n s) /\ sview (resize n s) = firstn n (sview s) ++ repeat nul (n - ssize s).
Proof.
  intros W N. pose proof (sview_length cap s W) as SL. destruct W as (L & B & T). unfold swf, resize, sview. cbn [smem ssize].
  set (m := if ssize s <? n then _ else _).
  assert (LM : length m = S cap).
  { unfold m. destruct (Nat.ltb_spec (ssize s) n); [| exact L]. rewrite !app_length, repeat_length, firstn_length, skipn_length. lia. }
  split.
  - rewrite upd_length. split; [exact LM |]. split; [exact N |]. apply nth_error_upd_eq. lia.
  - rewrite firstn_upd by lia. unfold m. destruct (Nat.ltb_spec (ssize s) n) as [H | H].
    + rewrite app_assoc. rewrite firstn_app. rewrite firstn_all2 by (rewrite app_length, repeat_length, firstn_length; lia).
      rewrite app_length, repeat_length, firstn_length. replace (n - (Nat.min (ssize s) (length (smem s)) + (n - ssize s))) with 0 by lia. rewrite firstn_O, app_nil_r.
      rewrite (firstn_all2 (firstn (ssize s) (smem s))); [reflexivity |]. rewrite firstn_length. lia.
    + replace (n - ssize s) with 0 by lia. cbn [repeat]. rewrite app_nil_r, firstn_firstn. f_equal. lia.
Qed.
Lemma capacity_wf cap s : swf cap s -> capacity s = cap.
Proof. intros (L & _). unfold capacity. lia. Qed.

Lemma set_size_ok cap dbg s n : swf cap s -> (dbg = true -> n <= cap) ->
  exists s', set_size dbg n s = Ok s' /\ swf cap s' /\ sview s' = firstn n (sview s) ++ repeat nul (Nat.min n cap - ssize s) /\ ssize s' = Nat.min n cap.
Proof.
  intros W D. unfold set_size. rewrite (capacity_wf cap s W). exists (resize (Nat.min n cap) s).
  destruct (resize_wf cap s (Nat.min n cap) W ltac:(lia)) as [W' V].
  assert (A : sassert dbg (n <=? cap) = Ok tt).
  { unfold sassert. destruct (Nat.leb_spec n cap); [reflexivity |]. destruct dbg; [| reflexivity]. specialize (D eq_refl). lia. }
  rewrite A. cbn [bind]. split; [reflexivity |]. split; [exact W' |]. split; [| reflexivity]. rewrite V. f_equal.
  pose proof (sview_length cap s W). destruct W as (L & B & T).
  destruct (Nat.le_ge_cases n cap) as [H1 | H1]; [now rewrite Nat.min_l by lia |].
  rewrite Nat.min_r by lia. now rewrite !firstn_all2 by lia.
Qed.
Lemma set_size_halts cap s n : swf cap s -> cap < n -> set_size true n s = Halt.
Proof. intros W N. unfold set_size. rewrite (capacity_wf cap s W). destruct (Nat.leb_spec n cap); [lia | reflexivity]. Qed.

Lemma put_ok cap dbg s l : swf cap s -> 0 < length l <= cap ->
  exists s', put dbg l s = Ok s' /\ swf cap s' /\ sview s' = l.
Proof.
  intros W N. unfold put, sdata. destruct (Nat.ltb_spec 0 (length l)); [| lia].
  destruct (set_size_ok cap dbg s (length l) W ltac:(lia)) as (s' & E & (L & B & T) & _ & Z). rewrite E. cbn [bind]. rewrite Nat.min_l in Z by lia.
  destruct (Nat.leb_spec (length l) (length (smem s'))); [| lia]. eexists. split; [reflexivity |]. unfold swf, sview. cbn [smem ssize]. rewrite Z in *.
  split.
  - rewrite app_length, skipn_length. split; [lia |]. split; [lia |]. rewrite nth_error_app2, Nat.sub_diag by lia. rewrite nth_error_skipn, Nat.add_0_r. exact T.
  - rewrite firstn_app, Nat.sub_diag, firstn_all, firstn_O. apply app_nil_r.
Qed.

Lemma after_view cap s : swf cap s -> exists r, smem s = sview s ++ nul :: r.
Proof.
  intros (L & B & T). unfold sview. destruct (nth_error_split (smem s) (ssize s) T) as (a & r & E & LA). exists r. rewrite E at 1 2.
  rewrite <- LA, firstn_app, Nat.sub_diag, firstn_all, firstn_O, app_nil_r. reflexivity.
Qed.

Lemma slstrip_ok cap dbg ds s : swf cap s -> ~ In nul ds ->
  exists s', slstrip dbg ds s = Ok s' /\ swf cap s' /\ front_stripped ds (sview s) (sview s').
Proof.
  intros W N. destruct (after_view cap s W) as (r & E). pose proof (sview_length cap s W) as SL.
  assert (P : exists p t, sview s = p ++ t /\ Forall (fun c => In c ds) p /\ match t with [] => True | c :: _ => ~ In c ds end /\ skip ds (smem s) = Ok (length p)).
  { rewrite E. destruct (all_or_some ds (sview s)) as [F | H].
    - exists (sview s), []. rewrite app_nil_r. split; [reflexivity |]. split; [exact F |]. split; [exact I |]. now apply skip_stop.
    - destruct (split_at ds _ H) as (p & c & t & E' & F & C). exists p, (c :: t). split; [exact E' |]. split; [exact F |]. split; [exact C |].
      rewrite E', <- app_assoc. cbn [app]. now apply skip_stop. }
  destruct P as (p & t & E' & F & C & K). unfold slstrip. rewrite K. cbn [bind].
  assert (LP : length p + length t = ssize s) by (rewrite <- SL, E', app_length; reflexivity).
  destruct (Nat.ltb_spec (ssize s) (length p)); [lia |]. destruct W as (L & B & T).
  unfold memmove. destruct (Nat.leb_spec (0 + (ssize s - length p)) (length (smem s))); [| lia].
  destruct (Nat.leb_spec (length p + (ssize s - length p)) (length (smem s))); [| lia]. cbn [andb bind firstn app Nat.add].
  set (m := firstn _ (skipn (length p) _) ++ _).
  assert (EM : m = t ++ skipn (length t) (smem s)).
  { unfold m. replace (ssize s - length p) with (length t) by lia. f_equal. rewrite E, E', <- app_assoc. rewrite skipn_app, skipn_all, Nat.sub_diag. cbn [skipn app].
    rewrite firstn_app, Nat.sub_diag, firstn_all, firstn_O. apply app_nil_r. }
  assert (LM : length m = S cap) by (rewrite EM, app_length, skipn_length; lia).
  unfold set_size, capacity. cbn [smem ssize]. rewrite LM. replace (S cap - 1) with cap by lia. replace (ssize s - length p) with (length t) by lia.
  unfold sassert. destruct (Nat.leb_spec (length t) cap); [| lia]. cbn [bind]. rewrite Nat.min_l by lia. eexists. split; [reflexivity |].
  unfold swf, resize, sview at 2. cbn [smem ssize]. destruct (Nat.ltb_spec (ssize s) (length t)); [lia |].
  rewrite upd_length. split; [split; [exact LM |]; split; [lia |]; apply nth_error_upd_eq; lia |].
  rewrite firstn_upd by lia. exists p. rewrite EM, firstn_app, Nat.sub_diag, firstn_all, firstn_O, app_nil_r. auto.
Qed.

Lemma srstrip_ok cap dbg ds s : swf cap s -> (exists c, In c (sview s) /\ ~ In c ds) ->
  exists s', srstrip dbg ds s = Ok s' /\ swf cap s' /\ back_stripped ds (sview s) (sview s').
Proof.
  intros W (c & I & N). destruct (split_at ds (rev (sview s))) as (p & c' & t & E & F & C); [exists c; rewrite <- in_rev; auto |].
  unfold srstrip. rewrite E, skip_stop by assumption. cbn [bind].
  pose proof (sview_length cap s W) as SL. assert (LP : length p + S (length t) = ssize s).
  { rewrite <- SL, <- (rev_length (sview s)), E, app_length. reflexivity. }
  assert (B : ssize s <= cap) by apply W.
  destruct (set_size_ok cap dbg s (ssize s - length p) W ltac:(lia)) as (s' & E' & W' & V & Z). exists s'. split; [exact E' |]. split; [exact W' |].
  assert (S' : sview s = rev (c' :: t) ++ rev p) by (rewrite <- rev_app_distr, <- E, rev_involutive; reflexivity).
  replace (Nat.min (ssize s - length p) cap - ssize s) with 0 in V by lia. cbn [repeat] in V. rewrite app_nil_r in V.
  assert (V' : sview s' = rev (c' :: t)).
  { rewrite V, S'. rewrite firstn_app. rewrite firstn_all2 by (rewrite rev_length; cbn [length]; lia). rewrite rev_length. cbn [length].
    replace (_ - S (length t)) with 0 by lia. rewrite firstn_O. apply app_nil_r. }
  exists (rev p). rewrite V', rev_involutive. split; [exact S' |]. split; [apply Forall_rev, F | exact C].
Qed.
Lemma srstrip_all dbg ds s : Forall (fun c => In c ds) (sview s) -> srstrip dbg ds s = UB.
Proof. intros F. unfold srstrip. rewrite skip_all; [reflexivity |]. now apply Forall_rev. Qed.

Lemma sstep_wf cap dbg s o s' : swf cap s -> announced cap o -> sstep dbg s o = Ok s' -> swf cap s'.
Proof.
  intros W H. destruct o as [n | l | ds | ds]; simpl.
  - unfold set_size. destruct (sassert _ _); cbn [bind]; try discriminate. injection 1 as <-. apply resize_wf; [exact W |].
    rewrite (capacity_wf cap s W). lia.
  - destruct (put_ok cap dbg s l W H) as (x & E & W' & _). rewrite E. now injection 1 as <-.
  - unfold slstrip. destruct (skip ds (smem s)) as [n | | | |]; cbn [bind]; try discriminate.
    destruct (Nat.ltb_spec (ssize s) n) as [H1 | H1]; [discriminate |].
    destruct (memmove _ _ _ _) as [m | | | |] eqn:M; cbn [bind]; try discriminate.
    unfold memmove in M. destruct (_ && _) eqn:G; [| discriminate]. injection M as <-. apply andb_true_iff in G. destruct G as [G1 G2].
    apply Nat.leb_le in G1, G2. destruct W as (L & B & T). unfold set_size, capacity. cbn [smem ssize firstn app Nat.add] in *.
    set (m := firstn (ssize s - n) (skipn n (smem s)) ++ skipn (ssize s - n) (smem s)) in *.
    assert (LM : length m = S cap) by (unfold m; rewrite app_length, firstn_length, !skipn_length; lia). rewrite LM. replace (S cap - 1) with cap by lia.
    destruct (sassert _ _); cbn [bind]; try discriminate. injection 1 as <-. unfold swf, resize. cbn [smem ssize].
    destruct (Nat.ltb_spec (ssize s) (Nat.min (ssize s - n) cap)); [lia |].
    rewrite upd_length. split; [exact LM |]. split; [lia |]. apply nth_error_upd_eq. lia.
  - unfold srstrip. destruct (skip _ _) as [n | | | |]; cbn [bind]; try discriminate. unfold set_size.
    destruct (sassert _ _); cbn [bind]; try discriminate. injection 1 as <-. apply resize_wf; [exact W |]. rewrite (capacity_wf cap s W). lia.
Qed.
Lemma srun_wf cap dbg os : forall s s', swf cap s -> Forall (announced cap) os ->
  srun dbg s os = Ok s' -> swf cap s'.
Proof.
  induction os as [| o os IH]; intros s s' W F R; simpl in R; [now injection R as <- |]. inversion F; subst.
  destruct (sstep dbg s o) as [x | | | |] eqn:E; try discriminate. cbn [bind] in R. eapply IH; [eapply sstep_wf; eassumption | assumption | exact R].
Qed.
Lemma reached_wf cap s : reached cap s -> swf cap s.
Proof. intros (dbg & os & F & R). eapply srun_wf; [apply smake_wf | exact F | exact R]. Qed.
